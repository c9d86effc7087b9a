(** Statements of C01-C06 (collected for BufferMainProperties.v). *)
From Verif Require Import Py PyLemmas BufferModel BufferSpec BufferProofs BufferWalkProofs.
Open Scope nat_scope.

Section Epi.
Context {Ob A Inf R : Type}.
Variable r0 : R.
Variable radd : R -> R -> R.
Variable last_frame : Ob -> Ob.
Notation buf := (buf Ob A Inf R).

Definition erel (n : nat) (s : bst R) (e : epi R) : Prop :=
  ins s = e_cnt e mod n /\ ep_start_idx s = e_start e mod n
  /\ ep_return s = total r0 radd (e_rews e) /\ ep_len s = length (e_rews e).

Lemma total_snoc l r : total r0 radd (l ++ [r]) = radd (total r0 radd l) r.
Proof. unfold total. rewrite fold_left_app. reflexivity. Qed.

Lemma buf_run_ok o n : 0 < n -> forall ops (b : buf) q e,
  inv n b q -> erel n (b_st b) e ->
  exists b', buf_run r0 radd last_frame o b ops = Ok (b', snd (epi_run r0 radd n e ops)).
Proof.
  intros Hn. induction ops as [|op ops IH]; intros b q e Hi He; [eexists; reflexivity|].
  destruct op as [t|keep].
  - cbn [buf_run epi_run].
    destruct (add_ok r0 radd last_frame n b q o t Hi) as (b1 & ret & len & E & Hi1 & _).
    destruct He as (He1 & He2 & He3 & He4).
    pose proof E as E'. unfold add, update_state_pre_add, guard in E'.
    pose proof (i_max _ _ (i_s _ _ _ Hi)) as Hm.
    destruct (negb (maxsize (b_st b) =? 0)); [|discriminate].
    destruct (negb _); [|discriminate]. cbn [bind] in E'.
    rewrite E. cbn [bind]. cbn [epi_step].
    assert (Hcnt : (e_cnt e mod n + 1) mod n = S (e_cnt e) mod n).
    { rewrite Nat.add_mod_idemp_l by lia. f_equal. lia. }
    destruct (t_term t || t_trunc t) eqn:Ed; cbn [bind] in E'.
    + destruct (_ <? _); [|discriminate E'].
      injection E' as Eb <- <-.
      destruct (IH b1 (push n q [kept last_frame o t]) (mkEpi (S (e_cnt e)) (S (e_cnt e)) []) Hi1) as [b' Hb'].
      { rewrite <- Eb. unfold erel. cbn [b_st ins ep_start_idx ep_return ep_len e_cnt e_start e_rews].
        rewrite Hm, He1, Hcnt. auto. }
      cbn [fst snd]. rewrite Hb'. cbn [bind].
      destruct (epi_run r0 radd n _ ops) as [e'' rs] eqn:Er. cbn [fst snd].
      exists b'. rewrite He1, He2, He3, He4, total_snoc, app_length. reflexivity.
    + destruct (_ <? _); [|discriminate E'].
      injection E' as Eb <- <-.
      destruct (IH b1 (push n q [kept last_frame o t])
                  (mkEpi (S (e_cnt e)) (e_start e) (e_rews e ++ [t_rew t])) Hi1) as [b' Hb'].
      { rewrite <- Eb. unfold erel. cbn [b_st ins ep_start_idx ep_return ep_len e_cnt e_start e_rews].
        rewrite Hm, He1, Hcnt, He3, He4, total_snoc, app_length. auto. }
      cbn [fst snd]. rewrite Hb'. cbn [bind].
      destruct (epi_run r0 radd n _ ops) as [e'' rs] eqn:Er. cbn [fst snd].
      exists b'. rewrite He1, He2. reflexivity.
  - cbn [buf_run epi_run epi_step].
    destruct (IH (buf_reset r0 keep b) [] (mkEpi 0 0 (if keep then e_rews e else []))
                (inv_reset r0 n b q keep Hi)) as [b' Hb'].
    { destruct He as (He1 & He2 & He3 & He4). unfold erel.
      cbn [buf_reset bst_reset b_st ins ep_start_idx ep_return ep_len e_cnt e_start e_rews].
      rewrite Nat.mod_0_l by lia. destruct keep; auto. }
    exists b'. rewrite Hb'. destruct (epi_run r0 radd n _ ops). reflexivity.
Qed.
End Epi.

(** Default options: no stacking, everything saved. *)
Definition plain : opts := mkOpts 1 true false false.

(** C01.  In every reachable state the stored indices, oldest first, hold exactly the queue. *)
Lemma C01_fifo_lemma : forall (Ob A Inf R : Type) (r0 : R) radd (last_frame : Ob -> Ob) o n
    (b : buf Ob A Inf R) q rnd,
  0 < n -> reach r0 radd last_frame o n b q ->
  exists idx, sample_indices plain b rnd (Some 0%Z) = Ok idx
    /\ size (b_st b) = length q /\ length q <= n
    /\ length idx = length q /\ NoDup idx /\ (forall i, In i idx <-> i < length q)
    /\ (q <> [] -> rows_at b (map Z.of_nat idx) = Ok (map Some q)).
Proof.
  intros Ob A Inf R r0 radd last_frame o n b q rnd Hn Hr.
  pose proof (reach_inv _ _ _ _ _ _ _ Hr Hn) as H.
  pose proof (i_s _ _ _ H) as Hs. pose proof (i_len _ _ _ H) as Hl.
  exists (all_indices (b_st b)). split; [reflexivity|].
  split; [auto|]. split; [rewrite Hl; apply (i_size _ _ Hs)|].
  split; [rewrite Hl; apply (all_indices_length n); exact Hs|].
  split; [apply (all_indices_NoDup n); exact Hs|].
  split; [intros i; rewrite Hl; apply (all_indices_In n); exact Hs|].
  intros Hne. rewrite (all_indices_pos n) by exact Hs. rewrite <- Hl.
  rewrite (rows_at_stored n b q) by (auto; intros p Hp; apply in_seq in Hp; lia).
  f_equal. apply map_nth_error_seq.
Qed.

(** C01.  [add] always succeeds; it writes one row, at the index of the oldest transition when
    the buffer is full and at the first free index otherwise; no other row changes. *)
Lemma C01_add_overwrites_only_oldest_lemma : forall (Ob A Inf R : Type) (r0 : R) radd
    (last_frame : Ob -> Ob) o n (b : buf Ob A Inf R) q t,
  0 < n -> reach r0 radd last_frame o n b q ->
  exists b' i ret len st, add r0 radd last_frame o b t = Ok (b', (i, ret, len, st))
    /\ (length q = n -> nth_error (meta_rows n (b_meta b)) i = Some (nth_error q 0))
    /\ (length q < n -> i = length q)
    /\ nth_error (meta_rows n (b_meta b')) i = Some (Some (kept last_frame o t))
    /\ (forall j, j <> i -> nth_error (meta_rows n (b_meta b')) j = nth_error (meta_rows n (b_meta b)) j).
Proof.
  intros Ob A Inf R r0 radd last_frame o n b q t Hn Hr.
  pose proof (reach_inv _ _ _ _ _ _ _ Hr Hn) as H.
  pose proof (i_s _ _ _ H) as Hs. pose proof (i_len _ _ _ H) as Hl.
  destruct (add_ok r0 radd last_frame n b q o t H) as (b' & ret & len & E & Hi & Em & _).
  exists b', (ins (b_st b)), ret, len, (ep_start_idx (b_st b)). split; [exact E|].
  pose proof (i_ins _ _ Hs) as Hins. pose proof (i_rows _ _ _ H) as Hrows.
  repeat split.
  - intros Hf. destruct q as [|x q'] eqn:Eq; [simpl in Hf; lia|]. rewrite <- Eq in *.
    assert (Ex : nth_error q 0 = Some x) by (rewrite Eq; reflexivity).
    pose proof (i_data _ _ _ H 0 x Ex) as Hx. rewrite Ex.
    replace (pos (b_st b) 0) with (ins (b_st b)) in Hx; [exact Hx|].
    unfold pos. destruct (Nat.ltb_spec (ins (b_st b) + 0) (size (b_st b))); lia.
  - intros Hlt. rewrite Hl in *. apply (i_part _ _ Hs Hlt).
  - rewrite Em. cbn [meta_rows]. apply nth_error_upd_same. lia.
  - intros j Hj. rewrite Em. cbn [meta_rows]. apply nth_error_upd_other. auto.
Qed.

(** C01.  [update] always succeeds and reports one index per moved transition; the queue
    effect is the [reach_update] rule. *)
Lemma C01_update_total_lemma : forall (Ob A Inf R : Type) (r0 : R) radd
    (last_frame : Ob -> Ob) o n n2 (b src : buf Ob A Inf R) q q2,
  0 < n -> 0 < n2 -> reach r0 radd last_frame o n b q -> reach r0 radd last_frame o n2 src q2 ->
  exists b' l, update b src = Ok (b', l) /\ length l = length q2
    /\ (forall j, j < length q2 -> nth_error l j = Some ((ins (b_st b) + j) mod n)).
Proof.
  intros Ob A Inf R r0 radd last_frame o n n2 b src q q2 Hn Hn2 Hr Hr2.
  pose proof (reach_inv _ _ _ _ _ _ _ Hr Hn) as H.
  pose proof (reach_inv _ _ _ _ _ _ _ Hr2 Hn2) as H2.
  destruct (update_ok n n2 b q src q2 H H2) as (b' & l & E & _ & Hl & El).
  exists b', l. split; [exact E|]. split; [exact Hl|].
  subst l. clear E Hl. pose proof (i_s _ _ _ H) as Hs.
  generalize (length q2) as k. intros k. revert Hs. generalize (b_st b) as s.
  induction k as [|k IH]; intros s Hs j Hj; [lia|].
  cbn [advance_n]. specialize (IH (advance s) (sinv_advance n s Hs)).
  destruct (advance_n k (advance s)) as [s' l']. cbn [snd] in *.
  destruct j as [|j].
  - cbn [nth_error]. f_equal. rewrite Nat.add_0_r. symmetry. apply Nat.mod_small.
    apply (i_ins _ _ Hs).
  - cbn [nth_error]. rewrite IH by lia. f_equal. cbn [advance ins]. rewrite (i_max _ _ Hs).
    rewrite Nat.add_mod_idemp_l by lia. f_equal. lia.
Qed.

(** C02.  For every history of [add] and [reset] calls, the values returned by the [add] calls
    are those of the abstract episode bookkeeping [epi_run]. *)
Lemma C02_episode_report_lemma : forall (Ob A Inf R : Type) (r0 : R) radd (last_frame : Ob -> Ob) o n
    (ops : list (aop Ob A Inf R)),
  0 < n ->
  exists b, buf_run r0 radd last_frame o (buf_init r0 n) ops
            = Ok (b, snd (epi_run r0 radd n epi0 ops)).
Proof.
  intros Ob A Inf R r0 radd last_frame o n ops Hn.
  apply (buf_run_ok r0 radd last_frame o n Hn ops (buf_init r0 n) [] epi0).
  - apply inv_init. exact Hn.
  - unfold erel. cbn. rewrite Nat.mod_0_l by lia. auto.
Qed.

(** C03.  [prev] and [next] on the indices of queue positions. *)
Lemma C03_prev_next_lemma : forall (Ob A Inf R : Type) (r0 : R) radd (last_frame : Ob -> Ob) o n
    (b : buf Ob A Inf R) q rnd idx ps,
  0 < n -> reach r0 radd last_frame o n b q -> q <> [] ->
  sample_indices plain b rnd (Some 0%Z) = Ok idx ->
  (forall p, In p ps -> p < length q) ->
  let at_ p := Z.of_nat (nth p idx 0) in
  prev b (map at_ ps) = Ok (map (fun p => at_ (pred_of q p)) ps)
  /\ next b (map at_ ps) = Ok (map (fun p => at_ (succ_of q p)) ps).
Proof.
  intros Ob A Inf R r0 radd last_frame o n b q rnd idx ps Hn Hr Hne Hidx Hps.
  pose proof (reach_inv _ _ _ _ _ _ _ Hr Hn) as H.
  pose proof (i_s _ _ _ H) as Hs. pose proof (i_len _ _ _ H) as Hl.
  cbn in Hidx. injection Hidx as <-. cbn zeta.
  assert (E : forall p, p < length q -> Z.of_nat (nth p (all_indices (b_st b)) 0) = zpos b p).
  { intros p Hp. unfold zpos. f_equal. rewrite (all_indices_pos n) by exact Hs.
    apply nth_error_nth. rewrite nth_error_map_seq. destruct (Nat.ltb_spec p (size (b_st b))); [|lia].
    reflexivity. }
  rewrite (map_ext_in _ (zpos b)) by (intros p Hp; apply E, Hps, Hp).
  split.
  - rewrite (prev_ok n b q ps H Hne Hps). f_equal. apply map_ext_in. intros p Hp.
    symmetry. apply E, pred_of_lt, Hps, Hp.
  - rewrite (next_ok n b q ps H Hne Hps). f_equal. apply map_ext_in. intros p Hp.
    symmetry. apply E, succ_of_lt, Hps, Hp.
Qed.

(** C04.  Once anything was ever written, [unfinished_index] is the index of the newest
    transition when the buffer is non-empty and that transition is not done, and empty
    otherwise. *)
Lemma C04_unfinished_index_lemma : forall (Ob A Inf R : Type) (r0 : R) radd (last_frame : Ob -> Ob) o n
    (b : buf Ob A Inf R) q rnd idx,
  0 < n -> reach r0 radd last_frame o n b q -> b_meta b <> None ->
  sample_indices plain b rnd (Some 0%Z) = Ok idx ->
  unfinished_index b = Ok (match q with
                           | [] => []
                           | _ => if qdone q (length q - 1) then [] else [nth (length q - 1) idx 0]
                           end).
Proof.
  intros Ob A Inf R r0 radd last_frame o n b q rnd idx Hn Hr Hm Hidx.
  pose proof (reach_inv _ _ _ _ _ _ _ Hr Hn) as H.
  pose proof (i_s _ _ _ H) as Hs. pose proof (i_len _ _ _ H) as Hl.
  cbn in Hidx. injection Hidx as <-.
  rewrite (unfinished_ok n b q H Hm). destruct q as [|x q'] eqn:Eq; [reflexivity|]. rewrite <- Eq in *.
  destruct (Nat.eqb_spec (length q) 0) as [E|E]; [rewrite Eq in E; simpl in E; lia|].
  cbn [orb]. destruct (qdone q (length q - 1)); [reflexivity|]. do 2 f_equal.
  rewrite (all_indices_pos n) by exact Hs. symmetry.
  apply nth_error_nth. rewrite nth_error_map_seq. destruct (Nat.ltb_spec (length q - 1) (size (b_st b))); [|lia].
  reflexivity.
Qed.

(** C05.  [sample_indices(0)] lists exactly the positions that qualify, oldest first: all of
    them, or with [sample_avail] and [stack_num > 1] those with [stack_num] stored transitions
    of the same episode ending there. *)
Lemma C05_sample_all_lemma : forall (Ob A Inf R : Type) (r0 : R) radd (last_frame : Ob -> Ob) o n
    (b : buf Ob A Inf R) q rnd idx,
  0 < n -> 0 < stack_num o -> reach r0 radd last_frame o n b q -> q <> [] ->
  sample_indices plain b rnd (Some 0%Z) = Ok idx ->
  sample_indices o b rnd (Some 0%Z) = Ok (map (fun p => nth p idx 0)
    (filter (fun p => (stack_num o =? 1) || negb (sample_avail o)
                      || (first_of q p + stack_num o <=? p + 1)) (seq 0 (length q)))).
Proof.
  intros Ob A Inf R r0 radd last_frame o n b q rnd idx Hn Hk Hr Hne Hidx.
  pose proof (reach_inv _ _ _ _ _ _ _ Hr Hn) as H.
  pose proof (i_s _ _ _ H) as Hs. pose proof (i_len _ _ _ H) as Hl.
  cbn in Hidx. injection Hidx as <-.
  destruct (inv_meta n b q H Hne) as [m Em].
  destruct (sample_zero_ok n b q o rnd H Hk ltac:(congruence)) as [-> _].
  f_equal. unfold avail_positions, has_stack.
  apply map_ext_in. intros p Hp. apply filter_In in Hp as [Hp _]. apply in_seq in Hp.
  rewrite (all_indices_pos n) by exact Hs. symmetry. apply nth_error_nth.
  rewrite nth_error_map_seq. destruct (Nat.ltb_spec p (size (b_st b))); [|lia]. reflexivity.
Qed.

(** C05.  A random sample has the requested length and consists of stored (qualifying) indices,
    whatever is drawn; it fails only when no index qualifies. *)
Lemma C05_sample_random_lemma : forall (Ob A Inf R : Type) (r0 : R) radd (last_frame : Ob -> Ob) o n
    (b : buf Ob A Inf R) q rnd k all,
  0 < n -> 0 < stack_num o -> reach r0 radd last_frame o n b q -> q <> [] -> 0 < k ->
  sample_indices o b rnd (Some 0%Z) = Ok all ->
  match sample_indices o b rnd (Some (Z.of_nat k)) with
  | Ok l => length l = k /\ forall i, In i l -> In i all
  | Err e => all = []
  end.
Proof.
  intros Ob A Inf R r0 radd last_frame o n b q rnd k all Hn Hk Hr Hne Hk0 Hall.
  pose proof (reach_inv _ _ _ _ _ _ _ Hr Hn) as H.
  pose proof (i_s _ _ _ H) as Hs. pose proof (i_len _ _ _ H) as Hl.
  destruct (inv_meta n b q H Hne) as [m Em].
  destruct (sample_zero_ok n b q o rnd H Hk ltac:(congruence)) as [E1 E2].
  rewrite Hall in E1. injection E1 as E1. rewrite E2 by lia. rewrite Nat2Z.id.
  destruct ((stack_num o =? 1) || negb (sample_avail o)) eqn:Eo.
  - destruct (choice_ok rnd (seq 0 (length q)) k) as [l El].
    { destruct q; [contradiction|discriminate]. }
    rewrite El. apply choice_in in El as [El1 El2]. split; [exact El1|].
    intros i Hi. apply El2 in Hi. apply in_seq in Hi. rewrite E1. unfold avail_positions. rewrite Eo.
    rewrite filter_true by reflexivity. rewrite Hl, <- (all_indices_pos n) by exact Hs.
    apply (all_indices_In n); [exact Hs|lia].
  - rewrite <- E1. destruct all as [|x all'] eqn:Ea.
    + unfold choice. destruct k; [lia|]. reflexivity.
    + rewrite <- Ea. destruct (choice_ok rnd all k) as [l El]; [rewrite Ea; discriminate|].
      rewrite El. apply choice_in in El. exact El.
Qed.

(** C06.  [buffer[index]]: for the index of queue position [p], [obs] is the stack of the
    observations of the positions [max(first_of p, p-k+1+j)], [j = 0..k-1]: the last entry is
    the transition itself and no entry is of another episode; the other columns are those of
    the transition; [obs_next] is the stored one, or the [obs] stack of the successor. *)
Lemma C06_stacking_lemma : forall (Ob A Inf R : Type) (r0 : R) radd (last_frame : Ob -> Ob) o n
    (b : buf Ob A Inf R) q rnd idx ps,
  0 < n -> 0 < stack_num o -> reach r0 radd last_frame o n b q -> q <> [] ->
  sample_indices plain b rnd (Some 0%Z) = Ok idx ->
  (forall p, In p ps -> p < length q) ->
  let k := stack_num o in
  let stack p := map (fun j => nth_error q (Nat.max (first_of q p) (p - (k - 1 - j)))) (seq 0 k) in
  getitem o b (map (fun p => Z.of_nat (nth p idx 0)) ps)
  = Ok (map (fun p => {|
       o_obs := map (option_map s_obs) (stack p);
       o_cur := nth_error q p;
       o_obs_next := if save_obs_next o
                     then map (fun x => match x with Some s => s_obs_next s | None => None end) (stack p)
                     else map (option_map s_obs) (stack (succ_of q p));
       o_info := map (option_map s_info) (stack p) |}) ps).
Proof.
  intros Ob A Inf R r0 radd last_frame o n b q rnd idx ps Hn Hk Hr Hne Hidx Hps. cbn zeta.
  pose proof (reach_inv _ _ _ _ _ _ _ Hr Hn) as H.
  pose proof (i_s _ _ _ H) as Hs. pose proof (i_len _ _ _ H) as Hl.
  cbn in Hidx. injection Hidx as <-.
  assert (E : forall p, p < length q -> Z.of_nat (nth p (all_indices (b_st b)) 0) = zpos b p).
  { intros p Hp. unfold zpos. f_equal. rewrite (all_indices_pos n) by exact Hs.
    apply nth_error_nth. rewrite nth_error_map_seq. destruct (Nat.ltb_spec p (size (b_st b))); [|lia].
    reflexivity. }
  rewrite (map_ext_in _ (zpos b)) by (intros p Hp; apply E, Hps, Hp). clear E.
  unfold getitem. rewrite (get_rows_ok n b q _ ps H Hne Hk Hps). cbn [bind].
  pose proof (rows_at_stored n b q ps H Hne Hps) as Hrow. rewrite map_map in Hrow.
  change (fun x : nat => Z.of_nat (pos (b_st b) x)) with (zpos b) in Hrow.
  destruct (save_obs_next o).
  - cbn [bind]. rewrite Hrow. cbn [bind]. f_equal. clear. unfold frames.
    induction ps as [|p ps IH]; [reflexivity|]. cbn [map combine fst snd]. f_equal. exact IH.
  - rewrite (next_ok n b q ps H Hne Hps). cbn [bind].
    rewrite <- (map_map (succ_of q) (zpos b)).
    rewrite (get_rows_ok n b q _ _ H Hne Hk).
    2:{ intros p Hp. apply in_map_iff in Hp as [p0 [<- Hp0]]. apply succ_of_lt, Hps, Hp0. }
    cbn [bind]. rewrite Hrow. cbn [bind]. f_equal. rewrite map_map. clear. unfold frames.
    induction ps as [|p ps IH]; [reflexivity|]. cbn [map combine fst snd]. f_equal. exact IH.
Qed.

(** ** Findings.  Concrete payloads: naturals for obs/act, no info, integer rewards. *)
Definition zrun := buf_run (A := nat) (Inf := unit) 0%Z Z.add (fun x : nat => x).
Definition zt (k : nat) (term : bool) : trans nat nat unit Z :=
  mkTrans k k (Z.of_nat k) term false (S k) tt.
Definition zbuf := buf nat nat unit Z.
Definition zreach := @reach nat nat unit Z 0%Z Z.add (fun x => x).

(** Reachability of a run of adds. *)
Lemma run_reach o n (ts : list (trans nat nat unit Z)) : forall b q b' rs,
  zreach o n b q -> zrun o b (map OpAdd ts) = Ok (b', rs) ->
  zreach o n b' (fold_left (fun q t => push n q [kept (fun x => x) o t]) ts q).
Proof.
  induction ts as [|t ts IH]; intros b q b' rs Hr E.
  - cbn in E. injection E as <- <-. exact Hr.
  - cbn [map] in E. unfold zrun in E. cbn [buf_run] in E.
    destruct (add 0%Z Z.add (fun x : nat => x) o b t) as [[b1 r]|e] eqn:Ea; [|discriminate].
    cbn [bind fst snd] in E.
    destruct (buf_run 0%Z Z.add (fun x : nat => x) o b1 (map OpAdd ts)) as [[b2 rs2]|e] eqn:Er; [|discriminate].
    cbn [bind fst snd] in E. injection E as <- <-.
    cbn [fold_left]. apply (IH b1 _ b2 rs2); [|exact Er].
    apply (reach_add _ _ _ _ _ b q t b1 r Hr Ea).
Qed.

(** C04.  On a buffer that was never written, [unfinished_index] does not return the empty
    array: it raises AttributeError. *)
Lemma C04_never_written_refuted_lemma : exists (b : zbuf),
  zreach plain 3 b [] /\ unfinished_index b = Err AttributeError.
Proof. exists (buf_init 0%Z 3). split; [constructor|reflexivity]. Qed.

(** C51.  [sample_indices(None)] is documented to return all available indices in a random
    order, but it draws with replacement: some draw repeats one index and misses another. *)
Lemma C51_sample_none_is_permutation_refuted_lemma : exists (b : zbuf) q rnd l,
  zreach plain 3 b q /\ length q = 2 /\ sample_indices plain b rnd None = Ok l
  /\ ~ NoDup l /\ ~ In 1 l.
Proof.
  assert (E : exists b rs, zrun plain (buf_init 0%Z 3) (map OpAdd [zt 1 false; zt 2 true]) = Ok (b, rs)
     /\ sample_indices plain b (fun _ => 0) None = Ok [0; 0]).
  { eexists. eexists. split; [vm_compute; reflexivity|vm_compute; reflexivity]. }
  destruct E as (b & rs & E & Es).
  exists b, (fold_left (fun q t => push 3 q [kept (fun x => x) plain t]) [zt 1 false; zt 2 true] []), (fun _ => 0), [0; 0].
  split; [apply (run_reach plain 3 _ _ _ b rs (reach_init _ _ _ _ _) E)|].
  split; [reflexivity|]. split; [exact Es|]. split.
  - intros H. inversion H as [|x l Hn _]. apply Hn. left. reflexivity.
  - intros [H|[H|[]]]; discriminate.
Qed.

(** C52.  [from_data] sets [_size] but neither [_insertion_idx]-derived [last_index]: on three
    transitions of one unfinished episode, [prev] and [next] differ from the buffer that
    received the same transitions by [add] - [next] of the newest transition wraps around to
    the oldest, [next] of the oldest stays. *)
Lemma C52_from_data_walk_refuted_lemma : exists (rows : list (slot nat nat unit Z)) (b : zbuf),
  zreach plain 3 b rows
  /\ b_meta (from_data 0%Z rows) = b_meta b
  /\ next b [0%Z; 2%Z] = Ok [1%Z; 2%Z] /\ next (from_data 0%Z rows) [0%Z; 2%Z] = Ok [0%Z; 0%Z]
  /\ prev b [0%Z; 1%Z] = Ok [0%Z; 0%Z] /\ prev (from_data 0%Z rows) [0%Z; 1%Z] = Ok [2%Z; 1%Z].
Proof.
  set (ts := [zt 1 false; zt 2 false; zt 3 false]).
  set (rows := fold_left (fun q t => push 3 q [kept (fun x => x) plain t]) ts []).
  assert (E : exists b rs, zrun plain (buf_init 0%Z 3) (map OpAdd ts) = Ok (b, rs)
     /\ b_meta (from_data 0%Z rows) = b_meta b
  /\ next b [0%Z; 2%Z] = Ok [1%Z; 2%Z] /\ next (from_data 0%Z rows) [0%Z; 2%Z] = Ok [0%Z; 0%Z]
  /\ prev b [0%Z; 1%Z] = Ok [0%Z; 0%Z] /\ prev (from_data 0%Z rows) [0%Z; 1%Z] = Ok [2%Z; 1%Z]).
  { eexists. eexists. split; [vm_compute; reflexivity|]. vm_compute. repeat split; reflexivity. }
  destruct E as (b & rs & E & Es). exists rows, b. split; [|exact Es].
  apply (run_reach plain 3 ts _ _ b rs (reach_init _ _ _ _ _) E).
Qed.

(** C52.  What does hold of [from_data]: the length, and reading [buffer[:]] gives the rows. *)
Lemma C52_from_data_reads_partial_lemma : forall (Ob A Inf R : Type) (r0 : R)
    (rows : list (slot Ob A Inf R)) rnd,
  rows <> [] ->
  exists idx, sample_indices plain (from_data r0 rows) rnd (Some 0%Z) = Ok idx
    /\ size (b_st (from_data r0 rows)) = length rows
    /\ rows_at (from_data r0 rows) (map Z.of_nat idx) = Ok (map Some rows).
Proof.
  intros Ob A Inf R r0 rows rnd Hne.
  assert (Hl : length rows =? 0 = false) by (destruct rows; [contradiction|reflexivity]).
  exists (seq 0 (length rows)). unfold from_data. rewrite Hl.
  split; [|split; [reflexivity|]].
  - unfold sample_indices, all_indices, arange. cbn. rewrite Nat.sub_0_r, app_nil_r. reflexivity.
  - unfold rows_at. cbn [b_meta].
    rewrite (mapM_Ok _ (fun i => nth (Z.to_nat i) (map Some rows) None)).
    + f_equal. rewrite map_map. apply nth_error_ext. intros i.
      rewrite nth_error_map_seq. destruct (Nat.ltb_spec i (length rows)) as [Hi|Hi].
      * rewrite Nat2Z.id. symmetry. apply nth_error_nth'. rewrite map_length. exact Hi.
      * symmetry. apply nth_error_None. rewrite map_length. exact Hi.
    + intros i Hi. apply in_map_iff in Hi as (j & <- & Hj). apply in_seq in Hj.
      rewrite (zget_nat _ _ None) by (rewrite map_length; lia). rewrite Nat2Z.id. reflexivity.
Qed.

(** C53.  [update] moves a complete two-step episode into an empty buffer of capacity 5; the
    next [add], which starts (and ends) an episode at index 2, reports episode start 0. *)
Lemma C53_start_after_update_refuted_lemma : exists (b b' b'' : zbuf) q l ret len st,
  zreach plain 5 b [] /\ (exists src, zreach plain 5 src q /\ update b src = Ok (b', l))
  /\ qdone q (length q - 1) = true
  /\ add 0%Z Z.add (fun x : nat => x) plain b' (zt 9 true) = Ok (b'', (2, ret, len, st))
  /\ len = 1 /\ st <> 2.
Proof.
  set (ts := [zt 1 false; zt 2 true]).
  set (q := fold_left (fun q t => push 5 q [kept (fun x => x) plain t]) ts []).
  assert (E : exists src rs b' l b'' ret len st,
     zrun plain (buf_init 0%Z 5) (map OpAdd ts) = Ok (src, rs)
     /\ update (buf_init 0%Z 5) src = Ok (b', l)
     /\ add 0%Z Z.add (fun x : nat => x) plain b' (zt 9 true) = Ok (b'', (2, ret, len, st))
     /\ len = 1 /\ st <> 2).
  { do 8 eexists. split; [vm_compute; reflexivity|]. split; [vm_compute; reflexivity|].
    split; [vm_compute; reflexivity|]. split; [reflexivity|discriminate]. }
  destruct E as (src & rs & b' & l & b'' & ret & len & st & E1 & E2 & E3 & E4 & E5).
  exists (buf_init 0%Z 5), b', b'', q, l, ret, len, st.
  split; [constructor|]. split.
  - exists src. split; [|exact E2].
    apply (run_reach plain 5 ts _ _ src rs (reach_init _ _ _ _ _) E1).
  - split; [reflexivity|]. auto.
Qed.

(** C54.  [add] with [buffer_ids] given, on a fresh buffer: the id list [3] and the list [0; 7]
    (two ids for one row) are accepted. *)
Lemma C54_bad_ids_accepted_refuted_lemma : forall n (t : trans nat nat unit Z), 0 < n ->
  let b : zbuf := buf_init 0%Z n in
  let ok := add 0%Z Z.add (fun x : nat => x) plain b t in
  (exists x, ok = Ok x)
  /\ add_stacked 0%Z Z.add (fun x : nat => x) plain b [3%Z] [t] = ok
  /\ add_stacked 0%Z Z.add (fun x : nat => x) plain b [0%Z; 7%Z] [t] = ok.
Proof.
  intros n t Hn b ok. split; [|split; reflexivity].
  destruct (add_ok 0%Z Z.add (fun x : nat => x) n b [] plain t (inv_init 0%Z n Hn)) as (b' & ret & len & E & _).
  exists (b', (ins (b_st b), ret, len, ep_start_idx (b_st b))). exact E.
Qed.

(** C54.  Exactly which calls pass the check: a one-row batch, and a one-element id list or one
    starting with 0. *)
Lemma C54_check_partial_lemma : forall ids k,
  check_buffer_ids ids k = Ok tt
  <-> k = 1 /\ (length ids = 1 \/ exists rest, ids = 0%Z :: rest).
Proof.
  intros ids k. unfold check_buffer_ids, guard.
  destruct ids as [|i0 [|i1 rest]]; cbn [length Nat.eqb negb].
  - change (zget (@nil Z) 0) with (@Err Z IndexError). cbn [bind].
    split; [discriminate|]. intros [_ [H|[r H]]]; discriminate.
  - cbn [bind]. destruct (Nat.eqb_spec k 1) as [->|Hk].
    + split; auto.
    + split; [discriminate|]. intros [H _]. contradiction.
  - replace (zget (i0 :: i1 :: rest) 0) with (Ok i0) by reflexivity. cbn [bind].
    destruct (Z.eqb_spec i0 0) as [->|Hi]; cbn [negb bind].
    + destruct (Nat.eqb_spec k 1) as [->|Hk].
      * split; [intros _; split; [reflexivity|right; eexists; reflexivity]|reflexivity].
      * split; [discriminate|]. intros [H _]. contradiction.
    + split; [discriminate|]. intros [_ [H|[r H]]]; [discriminate|]. congruence.
Qed.

(** C55.  [dropnull] on a full buffer without any null: the insertion index becomes the
    capacity, and the next [add] fails. *)
Lemma C55_dropnull_full_refuted_lemma : exists (b : zbuf) q,
  zreach plain 2 b q /\ length q = 2
  /\ b_meta (dropnull b (fun _ => true)) = b_meta b
  /\ add 0%Z Z.add (fun x : nat => x) plain (dropnull b (fun _ => true)) (zt 9 true) = Err IndexError.
Proof.
  set (ts := [zt 1 true; zt 2 true]).
  assert (E : exists b rs, zrun plain (buf_init 0%Z 2) (map OpAdd ts) = Ok (b, rs)
     /\ b_meta (dropnull b (fun _ => true)) = b_meta b
     /\ add 0%Z Z.add (fun x : nat => x) plain (dropnull b (fun _ => true)) (zt 9 true) = Err IndexError).
  { do 2 eexists. split; [vm_compute; reflexivity|]. split; vm_compute; reflexivity. }
  destruct E as (b & rs & E1 & E2).
  exists b, (fold_left (fun q t => push 2 q [kept (fun x => x) plain t]) ts []).
  split; [apply (run_reach plain 2 ts _ _ b rs (reach_init _ _ _ _ _) E1)|]. split; [reflexivity|exact E2].
Qed.

(** C55, for every buffer: whatever dropnull removes, the next [add] fails.  The insertion index is
    the number of rows left, and the array has no more rows than that. *)
Lemma C55_add_after_dropnull_refuted_lemma : forall (Ob A Inf R : Type) (r0 : R) radd (last_frame : Ob -> Ob) o (b : buf Ob A Inf R) keep t,
  b_meta b <> None -> exists e, add r0 radd last_frame o (dropnull b keep) t = Err e.
Proof.
  intros Ob A Inf R r0 radd lf o b keep t _. unfold add, update_state_pre_add, guard, dropnull. cbn [b_st b_meta maxsize size ins ep_start_idx ep_return ep_len].
  set (m := filter _ _). destruct (negb (maxsize (b_st b) =? 0)); [|eexists; reflexivity]. cbn [bind].
  destruct (negb (Nat.min (length m + 1) (maxsize (b_st b)) <? ep_start_idx (b_st b))); [|eexists; reflexivity]. cbn [bind meta_rows].
  destruct (Nat.ltb_spec (length m) (length m)); [lia|]. eexists. reflexivity.
Qed.

(** C53.  From the first episode end after update() on, the reported starts are right: an [add]
    right after one that ended an episode reports the index it writes to, and a length-1 episode
    with the return of that one reward. *)
Lemma C53_next_episode_partial_lemma : forall (Ob A Inf R : Type) (r0 : R) radd (last_frame : Ob -> Ob) o
    (b src b1 b2 b3 b4 : buf Ob A Inf R) l ts rs t r t' i ret len st,
  update b src = Ok (b1, l) -> buf_run r0 radd last_frame o b1 (map OpAdd ts) = Ok (b2, rs) ->
  add r0 radd last_frame o b2 t = Ok (b3, r) -> t_term t || t_trunc t = true ->
  add r0 radd last_frame o b3 t' = Ok (b4, (i, ret, len, st)) ->
  st = i /\ (t_term t' || t_trunc t' = true -> len = 1 /\ ret = radd r0 (t_rew t')).
Proof.
  intros Ob A Inf R r0 radd lf o b src b1 b2 b3 b4 l ts rs t r t' i ret len st _ _ E3 Hd E4.
  unfold add, update_state_pre_add, guard in E3. rewrite Hd in E3.
  destruct (negb (maxsize (b_st b2) =? 0)); [|discriminate]. cbn [bind] in E3.
  destruct (negb (_ <? ep_start_idx (b_st b2))); [|discriminate]. cbn [bind] in E3.
  destruct (_ <? length _); [|discriminate]. injection E3 as <- _.
  unfold add, update_state_pre_add, guard in E4. cbn [b_st maxsize size ins ep_start_idx ep_return ep_len] in E4.
  destruct (negb (maxsize (b_st b2) =? 0)); [|discriminate]. cbn [bind] in E4.
  destruct (negb (_ <? _)) in E4; [|discriminate]. cbn [bind] in E4.
  destruct (t_term t' || t_trunc t'); cbn [bind b_st maxsize] in E4; destruct (_ <? length _); try discriminate;
    injection E4 as _ <- <- <- <-; split; try reflexivity; intros; try discriminate; split; reflexivity.
Qed.
