(** * One update on a collected buffer: proofs. *)
From Verif Require Import PyLemmas BufferProofs ManagerProofs ManagerMainProofs ReturnsProofs ReturnsMainProofs CollectEpisodeProofs CollectProofs CachedProofs HerProofs.
From Verif Require Export E2eSpec.
Open Scope nat_scope.

(** ** Trajectories *)
Section Traj.
Context {Ob A Inf : Type}.
Notation trans := (trans Ob A Inf Qc).
Variable last_frame : Ob -> Ob.
Variable o : opts.
Notation kept := (kept last_frame o).

(** The next step of an episode starts where the step before it ended. *)
Definition chain (ts : list trans) : Prop :=
  forall p t t', nth_error ts p = Some t -> nth_error ts (S p) = Some t' -> ends t = false -> t_obs t' = t_obs_next t.

Lemma solo_chain {B ES} (estep : nat -> ES -> B -> ES * sres Ob Inf Qc) ereset e : forall acts s (ob : Ob), chain (solo (A := A) estep ereset e s ob acts).
Proof.
  induction acts as [|[a b] acts IH]; intros s ob [|p] t t' H1 H2 E; cbn [solo nth_error] in *; try discriminate.
  - injection H1 as <-. destruct acts as [|[a' b'] acts]; [discriminate|]. cbn [solo nth_error] in H2. injection H2 as <-.
    unfold transition, after, ends in *. destruct (estep e s b) as [s1 r]. cbn [snd t_term t_trunc t_obs t_obs_next] in *. rewrite E. reflexivity.
  - eapply IH; eassumption.
Qed.
Lemma chain_skipn n ts : chain ts -> chain (skipn n ts).
Proof. intros H p t t'. rewrite !nth_error_skipn. replace (n + S p) with (S (n + p)) by lia. apply H. Qed.
Lemma chain_lastn n ts : chain ts -> chain (lastn n ts).
Proof. apply chain_skipn. Qed.

Lemma skipn_nth {T} (l : list T) p : forall x, nth_error l p = Some x -> skipn p l = x :: skipn (S p) l.
Proof. revert l. induction p as [|p IH]; intros [|y l] x H; try discriminate; [injection H as ->; reflexivity|]. cbn [skipn]. apply IH. exact H. Qed.
Lemma is_nil_skipn {T} (l : list T) p : p <= length l -> is_nil (skipn p l) = (p =? length l).
Proof.
  intro H. destruct (skipn p l) as [|x l'] eqn:E; apply (f_equal (@length T)) in E; rewrite skipn_length in E; cbn in *; symmetry; [apply Nat.eqb_eq|apply Nat.eqb_neq]; lia.
Qed.

Variable ts : list trans.
Notation q := (map kept ts).
Lemma q_len : length q = length ts. Proof. apply map_length. Qed.
Lemma qdone_at p t : nth_error ts p = Some t -> qdone q p = ends t.
Proof. intro H. unfold qdone. rewrite nth_error_map, H. reflexivity. Qed.
Lemma rew_at_q p t : nth_error ts p = Some t -> rew_at q p = t_rew t.
Proof. intro H. unfold rew_at. rewrite nth_error_map, H. reflexivity. Qed.
Lemma term_at_q p t : nth_error ts p = Some t -> term_at q p = t_term t.
Proof. intro H. unfold term_at. rewrite nth_error_map, H. reflexivity. Qed.
Lemma trunc_at_q p t : nth_error ts p = Some t -> trunc_at q p = t_trunc t.
Proof. intro H. unfold trunc_at. rewrite nth_error_map, H. reflexivity. Qed.

Lemma last_of_step p t : nth_error ts p = Some t ->
  last_of q p = if ends t || is_nil (skipn (S p) ts) then p else last_of q (S p).
Proof.
  intro H. assert (L : p < length ts) by (apply nth_error_Some; congruence).
  rewrite is_nil_skipn by lia. unfold last_of. rewrite q_len.
  destruct (Nat.eqb_spec (S p) (length ts)) as [E|E].
  - rewrite orb_true_r. replace (length ts - 1 - p) with 0 by lia. reflexivity.
  - rewrite orb_false_r. replace (length ts - 1 - p) with (S (length ts - 1 - S p)) by lia. cbn [last_of_].
    rewrite (qdone_at p t H). reflexivity.
Qed.

Lemma succ_of_q p t : nth_error ts p = Some t -> succ_of q p = if ends t || is_nil (skipn (S p) ts) then p else S p.
Proof.
  intro H. assert (L : p < length ts) by (apply nth_error_Some; congruence).
  rewrite is_nil_skipn by lia. unfold succ_of. rewrite q_len, (qdone_at p t H), orb_comm. reflexivity.
Qed.

(** The value at a position. *)
Variable W : trans -> list trans -> Qc.
Definition w_at (p : nat) : Qc := match skipn p ts with t :: rest => W t rest | [] => 0%Qc end.
Lemma w_at_nth p t : nth_error ts p = Some t -> w_at p = W t (skipn (S p) ts).
Proof. intro H. unfold w_at. rewrite (skipn_nth _ _ _ H). reflexivity. Qed.

Lemma sum_n_S n f : sum_n (S n) f = (f 0%nat + sum_n n (fun j => f (S j)))%Qc.
Proof. unfold sum_n. cbn [seq map]. rewrite <- seq_shift, map_map. reflexivity. Qed.
Lemma sum_n_scale n c f : sum_n n (fun j => (c * f j)%Qc) = (c * sum_n n f)%Qc.
Proof. unfold sum_n. induction (seq 0 n) as [|x l IH]; cbn [map]; [unfold qsum; cbn; ring|]. change (qsum (?a :: ?b)) with (a + qsum b)%Qc. rewrite IH. ring. Qed.
Lemma sum_n_ext n f g : (forall j, j < n -> f j = g j) -> sum_n n f = sum_n n g.
Proof. intro H. unfold sum_n. f_equal. apply map_ext_in. intros j Hj. apply in_seq in Hj. apply H. lia. Qed.

Lemma nstep_rec gamma : forall N p, 0 < N -> p < length ts ->
  nstep_target q gamma N p [w_at (nstep_reached q N p)] = [n_step W gamma N (skipn p ts)].
Proof.
  induction N as [|N IH]; intros p HN Hp; [lia|].
  destruct (nth_error ts p) as [t|] eqn:E; [|apply nth_error_None in E; lia].
  rewrite (skipn_nth _ _ _ E). pose proof (last_of_step p t E) as L.
  unfold nstep_target, nstep_reached. cbn [map n_step].
  set (stop := ends t || is_nil (skipn (S p) ts)) in *.
  assert (LG : p <= last_of q p < length q) by (destruct (last_of_spec q p ltac:(rewrite q_len; lia)) as (G & _); exact G).
  destruct ((N =? 0) || stop) eqn:D.
  - (* one step *)
    assert (M : Nat.min (S N) (last_of q p + 1 - p) = 1).
    { apply orb_true_iff in D. destruct D as [D|D]; [apply Nat.eqb_eq in D; lia|]. rewrite D in L. lia. }
    rewrite M. replace (p + 1 - 1) with p by lia. rewrite (term_at_q p t E), (w_at_nth p t E).
    f_equal. rewrite sum_n_S. unfold sum_n. cbn [seq map]. change (qsum []) with 0%Qc. rewrite Nat.add_0_r, (rew_at_q p t E).
    destruct (t_term t) eqn:T; [cbn; ring|]. unfold stop, ends in D. rewrite T in D. cbn [orb] in D.
    destruct (t_trunc t || is_nil (skipn (S p) ts)); [cbn; ring|]. rewrite orb_false_r in D. apply Nat.eqb_eq in D. subst N. cbn. ring.
  - apply orb_false_iff in D. destruct D as [D0 D]. apply Nat.eqb_neq in D0. rewrite D in L.
    unfold stop in D. apply orb_false_iff in D. destruct D as [De Dn]. unfold ends in De. apply orb_false_iff in De. destruct De as [Dt Dr].
    rewrite Dt, Dr, Dn. cbn [orb]. destruct N as [|N]; [lia|].
    assert (Hp' : S p < length ts).
    { rewrite is_nil_skipn in Dn by lia. apply Nat.eqb_neq in Dn. lia. }
    specialize (IH (S p) ltac:(lia) Hp'). unfold nstep_target, nstep_reached in IH. cbn [map] in IH. apply (f_equal (fun l => hd 0%Qc l)) in IH. cbn [hd] in IH.
    destruct (last_of_spec q (S p) ltac:(rewrite q_len; lia)) as (G & _).
    rewrite L in *. set (l := last_of q (S p)) in *. clearbody l.
    replace (Nat.min (S (S N)) (l + 1 - p)) with (S (Nat.min (S N) (l + 1 - S p))) by lia.
    set (k := Nat.min (S N) (l + 1 - S p)) in *.
    replace (p + S k - 1) with (S p + k - 1) by lia. rewrite <- IH. f_equal. rewrite sum_n_S, Nat.add_0_r, (rew_at_q p t E).
    rewrite (sum_n_ext k (fun j => (gamma ^ S j * rew_at q (p + S j))%Qc) (fun j => (gamma * (gamma ^ j * rew_at q (S p + j)))%Qc)).
    2: { intros j _. replace (p + S j) with (S p + j) by lia. cbn [Qcpower]. ring. }
    rewrite sum_n_scale. cbn [Qcpower]. ring.
Qed.

Lemma lambda_rec gamma lam : forall d p, d = length ts - p -> p < length ts ->
  lambda_return gamma lam (map (fun j => (rew_at q j, next_value q w_at j)) (rest_of_episode q p)) = td_lambda W gamma lam (skipn p ts).
Proof.
  induction d as [|d IH]; intros p Hd Hp; [lia|].
  destruct (nth_error ts p) as [t|] eqn:E; [|apply nth_error_None in E; lia].
  rewrite (skipn_nth _ _ _ E). pose proof (last_of_step p t E) as L. unfold rest_of_episode.
  assert (NV : next_value q w_at p = if t_term t then 0%Qc else W t (skipn (S p) ts)).
  { unfold next_value. rewrite (term_at_q p t E), (w_at_nth p t E). reflexivity. }
  destruct (ends t || is_nil (skipn (S p) ts)) eqn:D.
  - rewrite L. replace (p + 1 - p) with 1 by lia. cbn [seq map lambda_return td_lambda]. rewrite NV, (rew_at_q p t E).
    unfold ends in D. destruct (t_term t); [reflexivity|]. cbn [orb] in D. rewrite D. reflexivity.
  - apply orb_false_iff in D. destruct D as [De Dn]. unfold ends in De. apply orb_false_iff in De. destruct De as [Dt Dr].
    assert (Hp' : S p < length ts).
    { rewrite is_nil_skipn in Dn by lia. apply Nat.eqb_neq in Dn. lia. }
    specialize (IH (S p) ltac:(lia) Hp'). unfold rest_of_episode in IH. rewrite <- L in IH.
    destruct (last_of_spec q (S p) ltac:(rewrite q_len; lia)) as (G & _). rewrite <- L in G. set (l := last_of q p) in *. clearbody l.
    cbn [td_lambda]. rewrite Dt, Dr, Dn. cbn [orb]. rewrite <- IH.
    replace (l + 1 - p) with (S (S (l - S p))) by lia. replace (l + 1 - S p) with (S (l - S p)) by lia. cbn [seq map].
    rewrite (rew_at_q p t E), NV, Dt. cbn [lambda_return]. destruct (map _ (seq (S (S p)) (l - S p))); ring.
Qed.

End Traj.

(** ** The buffer after a run *)
Lemma choose_list {T U} (P : T -> Prop) (f : T -> U) (l : list U) : (forall i, In i l -> exists x, P x /\ i = f x) -> exists xs, l = map f xs /\ Forall P xs.
Proof.
  induction l as [|i l IH]; intro H; [exists []; split; [reflexivity|constructor]|].
  destruct (H i (or_introl eq_refl)) as (x & Hx & ->). destruct IH as (xs & -> & Hxs); [intros j Hj; apply H; right; exact Hj|].
  exists (x :: xs). split; [reflexivity|constructor; assumption].
Qed.
Lemma part_nil {T} e (r : list nat * list T) : (forall i, In i (fst r) -> i <> e) -> part e r = [].
Proof.
  destruct r as [ids l]. revert l. induction ids as [|i ids IH]; intros [|x l] H; try reflexivity. rewrite part_cons.
  destruct (Nat.eqb_spec i e) as [E|E]; [exfalso; apply (H i); [left; reflexivity|exact E]|].
  apply IH. intros j Hj. apply H. right. exact Hj.
Qed.
Lemma parts_nil {T} e (rs : list (list nat * list T)) : (forall r i, In r rs -> In i (fst r) -> i <> e) -> parts e rs = [].
Proof.
  intro H. unfold parts. induction rs as [|r rs IH]; [reflexivity|]. cbn [map concat].
  rewrite part_nil by (intros i; apply H; left; reflexivity). apply IH. intros r' i Hr. apply H. right. exact Hr.
Qed.
Lemma flat_map_map {T U X} (f : U -> X) (g : T -> list U) l : map f (flat_map g l) = flat_map (fun x => map f (g x)) l.
Proof. induction l as [|x l IH]; [reflexivity|]. cbn [flat_map]. rewrite map_app, IH. reflexivity. Qed.
Lemma flat_map_seq_cut {U} (g : nat -> list U) n k : k <= n -> (forall e, k <= e < n -> g e = []) -> flat_map g (seq 0 n) = flat_map g (seq 0 k).
Proof.
  intros H K. replace n with (k + (n - k)) by lia. rewrite seq_app, flat_map_app.
  replace (flat_map g (seq (0 + k) (n - k))) with (@nil U); [apply app_nil_r|].
  symmetry. assert (G : forall l, (forall e, In e l -> g e = []) -> flat_map g l = []).
  { induction l as [|e l IH]; intro G; [reflexivity|]. cbn [flat_map]. rewrite (G e (or_introl eq_refl)), IH; [reflexivity|]. intros; apply G; right; assumption. }
  apply G. intros e He. apply in_seq in He. apply K. lia.
Qed.
Lemma suffixes_skipn {T} (l : list T) : suffixes l = map (fun p => skipn p l) (seq 0 (length l)).
Proof. induction l as [|x l IH]; [reflexivity|]. cbn [suffixes length seq map]. rewrite <- seq_shift, map_map, IH. reflexivity. Qed.

Lemma suffixes_ne {T} (l : list T) : ~ In [] (suffixes l).
Proof. induction l as [|x l IH]; [exact (fun K => K)|]. cbn [suffixes In]. intros [K|K]; [discriminate|exact (IH K)]. Qed.
Lemma filter_true {T} (l : list T) : filter (fun _ => true) l = l.
Proof. induction l as [|x l IH]; [reflexivity|]. cbn [filter]. rewrite IH. reflexivity. Qed.

Section Buf.
Context {Ob A B Inf H ES PS : Type}.
Notation trans := (trans Ob A Inf Qc).
Variable last_frame : Ob -> Ob.
Variable o : opts.
Notation kept := (kept last_frame o).

Lemma queue_adds n (l : list trans) : forall q, queue_from last_frame o n (lastn n q) (map OpAdd l) = lastn n (q ++ map kept l).
Proof.
  induction l as [|t l IH]; intro q; cbn [map queue_from]; [rewrite app_nil_r; reflexivity|].
  unfold push. rewrite lastn_lastn, IH, <- app_assoc. reflexivity.
Qed.
Lemma lastn_map {T U} (f : T -> U) n l : lastn n (map f l) = map f (lastn n l).
Proof. unfold lastn. rewrite map_length, skipn_map. reflexivity. Qed.

Variable estep : nat -> ES -> B -> ES * sres Ob Inf Qc.
Variable ereset : nat -> ES -> ES * (Ob * Inf).
Variables (r0 : Qc) (radd : Qc -> Qc -> Qc).
Variables (ns : list nat) (ops : list (mop Ob A Inf Qc)) (c : coll Ob A Inf Qc H ES PS) (m : mgr Ob A Inf Qc).
Variables (calls : list (list nat * list Ob * list (A * B))) (rounds : list (list nat * list trans)).
Hypothesis HC : coll_ok r0 radd last_frame o ns ops c.
Hypothesis HE : forall e, mqueue last_frame o ns ops e = [].
Hypothesis HR : recorded r0 radd last_frame o estep ereset ns ops c m calls rounds.
Notation ops' := (ops ++ as_adds rounds).
Notation traj := (trajectory estep ereset c calls).
Notation new := (newest estep ereset ns c calls).

Lemma new_out e : length (c_envs c) <= e -> new e = [].
Proof. intro K. unfold newest, trajectory. rewrite (proj2 (nth_error_None _ _) K). reflexivity. Qed.
Lemma pre_obs_some e : e < length (c_envs c) -> exists s ob, nth_error (c_envs c) e = Some s /\ pre_obs c e = Some ob.
Proof.
  intro K. destruct HC as (_ & _ & _ & _ & obs & inf & P & L & _).
  destruct (nth_error (c_envs c) e) as [s|] eqn:E1; [|apply nth_error_None in E1; lia].
  destruct (nth_error obs e) as [ob|] eqn:E2; [|apply nth_error_None in E2; lia].
  exists s, ob. split; [reflexivity|]. unfold pre_obs. rewrite P. exact E2.
Qed.
Lemma parts_traj e : parts e rounds = traj e.
Proof.
  destruct HR as (_ & _ & R & S). destruct (Nat.lt_ge_cases e (length (c_envs c))) as [K|K].
  - destruct (pre_obs_some e K) as (s & ob & E1 & E2). unfold trajectory. rewrite E1, E2. apply (S e s ob E1 E2).
  - unfold trajectory. rewrite (proj2 (nth_error_None _ _) K). apply parts_nil. intros rd i Hr Hi.
    destruct (R rd Hr) as (_ & _ & R'). specialize (R' i Hi). lia.
Qed.
Lemma mqueue_after e : mqueue last_frame o ns ops' e = map kept (new e).
Proof.
  destruct HC as (_ & _ & LE & _). destruct HR as (_ & _ & R & _).
  pose proof (HE e) as HE'. unfold mqueue in *. unfold newest. destruct (nth_error ns e) as [n|] eqn:E.
  - rewrite (nth_error_nth _ _ 0 E). unfold queue in *.
    assert (Ke : e < length ns) by (apply nth_error_Some; congruence).
    rewrite proj_app, queue_app, HE', proj_adds; [|exact Ke|].
    + transitivity (queue_from last_frame o n (lastn n []) (map OpAdd (parts e rounds))).
      { f_equal. }
      rewrite queue_adds. cbn [app]. rewrite lastn_map, parts_traj. reflexivity.
    + intros rd i Hr Hi. destruct (R rd Hr) as (_ & _ & R'). specialize (R' i Hi). lia.
  - apply nth_error_None in E. unfold trajectory. rewrite (proj2 (nth_error_None (c_envs c) e)) by lia. reflexivity.
Qed.
Lemma traj_chain e : chain (traj e).
Proof.
  unfold trajectory. destruct (nth_error (c_envs c) e); [|intros [|p]; discriminate].
  destruct (pre_obs c e); [|intros [|p]; discriminate]. apply solo_chain.
Qed.
Lemma new_chain e : chain (new e).
Proof. apply chain_lastn, traj_chain. Qed.
Lemma some_add : (exists e, traj e <> []) -> exists ids ts, In (MAdd ids ts) ops'.
Proof.
  intros (e & K). rewrite <- parts_traj in K. destruct rounds as [|[ids l] rs]; [exfalso; apply K; reflexivity|].
  exists (Some (map Z.of_nat ids)), l. apply in_or_app. right. left. reflexivity.
Qed.

Hypothesis S1 : stack_num o = 1.
Hypothesis SL : save_only_last_obs o = false.

Lemma first_le (q : list (slot Ob A Inf Qc)) p : first_of q p <= p.
Proof. induction p as [|p IH]; cbn [first_of]; [lia|]. destruct (qdone q p); lia. Qed.

(** Rows looked up at positions. *)
Notation at_ := (fun x => Z.of_nat (maddress ns ops' x)).
Definition ok_pos (x : nat * nat) : Prop := snd x < length (new (fst x)).
Definition row_pos (x : nat * nat) : row_out Ob A Inf Qc :=
  match skipn (snd x) (new (fst x)) with t :: rest => row_of last_frame o t rest | [] => mkOut [] None [] [] end.
Lemma mrun : exists outs, m_run r0 radd last_frame o (m_init r0 ns) ops' = Ok (m, outs).
Proof. destruct HR as (K & _). exact K. Qed.
Lemma ns_pos : forall n, In n ns -> 0 < n. Proof. destruct HC as (K & _). exact K. Qed.

Lemma getitem_rows xs : xs <> [] -> (forall x, In x xs -> ok_pos x) -> m_getitem o m (map at_ xs) = Ok (map row_pos xs).
Proof.
  intros Hx Hok. destruct mrun as (outs & HM).
  assert (HV : forall x, In x xs -> snd x < length (mqueue last_frame o ns ops' (fst x))).
  { intros x Kx. rewrite mqueue_after, map_length. apply Hok, Kx. }
  pose proof (C57_stacking_lemma _ _ _ _ r0 radd last_frame o ns ops' m outs xs ns_pos ltac:(lia) HM Hx HV) as G.
  cbn zeta in G. rewrite G. clear G. f_equal. apply map_ext_in. intros [k p] Kx. cbn [fst snd]. specialize (Hok _ Kx). unfold ok_pos in Hok. cbn [fst snd] in Hok.
  rewrite mqueue_after, S1. cbn [seq map]. unfold row_pos. cbn [fst snd].
  destruct (nth_error (new k) p) as [t|] eqn:E; [|apply nth_error_None in E; lia]. rewrite (skipn_nth _ _ _ E).
  pose proof (succ_of_q last_frame o (new k) p t E) as Sq.
  pose proof (first_le (map kept (new k)) p) as F1. pose proof (first_le (map kept (new k)) (succ_of (map kept (new k)) p)) as F2.
  replace (Nat.max (first_of (map kept (new k)) p) (p - (1 - 1 - 0))) with p by lia.
  set (sc := succ_of (map kept (new k)) p) in *.
  replace (Nat.max (first_of (map kept (new k)) sc) (sc - (1 - 1 - 0))) with sc by lia.
  assert (EK : nth_error (map kept (new k)) p = Some (kept t)) by (rewrite nth_error_map, E; reflexivity). rewrite EK.
  unfold row_of, seen_next. cbn [option_map]. f_equal.
  - unfold BufferSpec.kept. cbn [s_obs]. rewrite SL. reflexivity.
  - destruct (save_obs_next o) eqn:SN; cbn [orb].
    + unfold BufferSpec.kept. cbn [s_obs_next]. rewrite SN, SL. reflexivity.
    + clear F1 F2. clearbody sc. subst sc. destruct (ends t || is_nil (skipn (S p) (new k))) eqn:D; cbn [negb].
      * rewrite EK. cbn [option_map]. unfold BufferSpec.kept. cbn [s_obs]. rewrite SL. reflexivity.
      * apply orb_false_iff in D. destruct D as [De Dn]. rewrite is_nil_skipn in Dn by lia. apply Nat.eqb_neq in Dn.
        destruct (nth_error (new k) (S p)) as [t'|] eqn:E'; [|apply nth_error_None in E'; lia].
        rewrite nth_error_map, E'. cbn [option_map]. unfold BufferSpec.kept. cbn [s_obs]. rewrite SL.
        rewrite (new_chain k p t t' E E' De). reflexivity.
Qed.

Lemma positions_ok x : In x (all_positions (fun k => mqueue last_frame o ns ops' k) (length ns)) <-> ok_pos x.
Proof.
  unfold all_positions, ok_pos. rewrite in_flat_map. destruct x as [k p]. cbn [fst snd]. split.
  - intros (k' & Hk & Hin). apply in_map_iff in Hin. destruct Hin as (p' & [= -> ->] & Hp). apply in_seq in Hp. rewrite mqueue_after, map_length in Hp. lia.
  - intro K. exists k. split.
    + apply in_seq. destruct HC as (_ & _ & LE & _). destruct (Nat.lt_ge_cases k (length (c_envs c))) as [G|G]; [lia|]. rewrite (new_out k G) in K. cbn in K. lia.
    + apply in_map. apply in_seq. rewrite mqueue_after, map_length. lia.
Qed.
Lemma sample_all rb rnd : (exists e, traj e <> []) ->
  m_sample_indices o m rb rnd (Some 0%Z) = Ok (map (maddress ns ops') (all_positions (fun k => mqueue last_frame o ns ops' k) (length ns))).
Proof.
  intro K. destruct mrun as (outs & HM).
  pose proof (C10_sample_all_lemma _ _ _ _ r0 radd last_frame o ns ops' m outs rb rnd ns_pos ltac:(lia) HM (some_add K)) as G.
  cbn zeta in G. rewrite G. f_equal. unfold all_positions. rewrite flat_map_map, <- flat_map_concat_map. apply flat_map_ext. intro k. rewrite map_map.
  f_equal. rewrite S1. cbn [Nat.eqb orb]. rewrite filter_true. reflexivity.
Qed.
Lemma some_new : (exists e, traj e <> []) -> exists x, ok_pos x.
Proof.
  intros (e & K). exists (e, 0). unfold ok_pos. cbn [fst snd]. unfold newest. rewrite lastn_length.
  assert (Ke : e < length (c_envs c)). { destruct (Nat.lt_ge_cases e (length (c_envs c))) as [G|G]; [exact G|]. exfalso. apply K. unfold trajectory. rewrite (proj2 (nth_error_None _ _) G). reflexivity. }
  destruct HC as (P & _ & LE & _). assert (P' : In (nth e ns 0) ns) by (apply nth_In; lia). specialize (P _ P').
  destruct (traj e); [congruence|]. cbn [length]. lia.
Qed.

Variable V : list (option Ob) -> Qc.
Notation W := (fun t rest => V [Some (seen_next (save_obs_next o) t rest)]).
Lemma target_q_rows xs : xs <> [] -> (forall x, In x xs -> ok_pos x) ->
  target_q o m V (map at_ xs) = map (fun x => [w_at (new (fst x)) W (snd x)]) xs.
Proof.
  intros Hx Hok. unfold target_q. rewrite getitem_rows by assumption. rewrite map_map. apply map_ext_in. intros [k p] Kx.
  specialize (Hok _ Kx). unfold ok_pos in Hok. cbn [fst snd] in *. unfold row_pos, w_at. cbn [fst snd].
  destruct (skipn p (new k)) eqn:E; [apply (f_equal (@length _)) in E; rewrite skipn_length in E; cbn in E; lia|]. reflexivity.
Qed.
Lemma target_q_len l : length (target_q o m V l) = length l.
Proof.
  unfold target_q. destruct (m_getitem o m l) as [rows|e] eqn:E; rewrite map_length; [|reflexivity].
  unfold m_getitem in E. destruct (m_get_rows m (stack_num o) l) as [fr|] eqn:E1; [|discriminate]. cbn [bind] in E.
  match type of E with (let* frn := ?X in _) = _ => destruct X as [frn|] eqn:E2; [|discriminate] end. cbn [bind] in E.
  destruct (m_rows_at m l) as [cur|] eqn:E3; [|discriminate]. cbn [bind] in E. injection E as <-.
  rewrite map_length, !combine_length. rewrite S1 in *. unfold m_get_rows in *. cbn [Nat.eqb] in *. rewrite E3 in *. cbn [bind] in *.
  assert (L3 : length cur = length l). { unfold m_rows_at in E3. destruct (m_meta m); [|discriminate]. apply mapM_length in E3. exact E3. }
  injection E1 as <-. rewrite map_length.
  destruct (save_obs_next o).
  - injection E2 as <-. rewrite !map_length. lia.
  - destruct (m_next m l) as [nx|] eqn:E4; [|discriminate]. cbn [bind] in E2. destruct (m_rows_at m nx) as [cur2|] eqn:E5; [|discriminate]. cbn [bind] in E2.
    injection E2 as <-. rewrite !map_length. 
    assert (L5 : length cur2 = length nx). { unfold m_rows_at in E5. destruct (m_meta m); [|discriminate]. apply mapM_length in E5. exact E5. }
    assert (L4 : length nx = length l). { unfold m_next in E4. destruct (m_meta m); [|discriminate]. apply mapM_length in E4. exact E4. }
    lia.
Qed.

Lemma off_policy_main rb rnd z gamma N : (exists e, traj e <> []) -> (0 < z)%Z -> 0 < N ->
  exists xs, length xs = Z.to_nat z /\ (forall x, In x xs -> fst x < length (c_envs c) /\ ok_pos x)
  /\ off_policy o m rb rnd V z gamma N
     = Ok (map row_pos xs, map (fun x => [n_step W gamma N (skipn (snd x) (new (fst x)))]) xs).
Proof.
  intros K Hz HN. destruct mrun as (outs & HM).
  pose proof (C10_sample_random_lemma _ _ _ _ r0 radd last_frame o ns ops' m outs rb rnd z _ ns_pos ltac:(lia) HM (some_add K) Hz (sample_all rb rnd K)) as G.
  unfold off_policy, m_sample. destruct (m_sample_indices o m rb rnd (Some z)) as [l|e].
  2: { exfalso. destruct (some_new K) as (x & Hx). apply positions_ok in Hx. apply map_eq_nil in G. rewrite G in Hx. exact Hx. }
  destruct G as (GL & GI).
  destruct (choose_list ok_pos (maddress ns ops') l) as (xs & -> & HX).
  { intros i Hi. apply GI in Hi. apply in_map_iff in Hi. destruct Hi as (x & <- & Hx). exists x. split; [apply positions_ok; exact Hx|reflexivity]. }
  rewrite map_length in GL. rewrite Forall_forall in HX. exists xs. split; [exact GL|]. split.
  { intros x Hx. split; [|apply HX, Hx]. destruct (Nat.lt_ge_cases (fst x) (length (c_envs c))) as [G|G]; [exact G|].
    specialize (HX x Hx). unfold ok_pos in HX. rewrite (new_out _ G) in HX. cbn in HX. lia. }
  assert (Hne : xs <> []) by (intros ->; cbn in GL; lia).
  cbn [bind]. rewrite map_map, (getitem_rows xs Hne HX). cbn [bind fst snd]. rewrite map_length.
  assert (HV : forall x, In x xs -> snd x < length (mqueue last_frame o ns ops' (fst x))).
  { intros x Kx. rewrite mqueue_after, map_length. apply HX, Kx. }
  pose proof (C23_nstep_manager_lemma _ _ _ r0 radd last_frame o ns ops' m outs xs (target_q o m V) gamma N ns_pos HM HV Hne HN target_q_len) as G.
  cbn zeta in G. rewrite G. clear G. cbn [bind]. f_equal. f_equal.
  rewrite <- (map_map (fun x : nat * nat => (fst x, nstep_reached (mqueue last_frame o ns ops' (fst x)) N (snd x))) (fun y => Z.of_nat (maddress ns ops' y))).
  assert (HP : forall x, In x xs -> nstep_reached (mqueue last_frame o ns ops' (fst x)) N (snd x) < length (new (fst x))).
  { intros [k p] Kx. specialize (HX _ Kx). unfold ok_pos in HX. cbn [fst snd] in *. rewrite mqueue_after. unfold nstep_reached.
    destruct (last_of_spec (map kept (new k)) p ltac:(rewrite map_length; lia)) as (L1 & _). cbn zeta in L1. rewrite map_length in L1. lia. }
  rewrite target_q_rows.
  - rewrite map_map. cbn [fst snd].
    clear Hne GL GI HV. induction xs as [|[k p] xs IH]; [reflexivity|]. cbn [map combine fst snd]. f_equal.
    + rewrite mqueue_after. apply nstep_rec; [exact HN|]. apply (HX (k, p)). left. reflexivity.
    + apply IH; intros x Hx; [apply HX|apply HP]; right; exact Hx.
  - intro E. apply map_eq_nil in E. exact (Hne E).
  - intros y Hy. apply in_map_iff in Hy. destruct Hy as (x & <- & Hx). unfold ok_pos. cbn [fst snd]. apply HP, Hx.
Qed.

Lemma facts_rows xs : (forall x, In x xs -> ok_pos x) ->
  map facts (map row_pos xs) = map (fun x => (rew_at (mqueue last_frame o ns ops' (fst x)) (snd x), term_at (mqueue last_frame o ns ops' (fst x)) (snd x), trunc_at (mqueue last_frame o ns ops' (fst x)) (snd x))) xs.
Proof.
  intros HX. rewrite map_map. apply map_ext_in. intros [k p] Kx. specialize (HX _ Kx). unfold ok_pos in HX. cbn [fst snd] in *.
  rewrite mqueue_after. destruct (nth_error (new k) p) as [t|] eqn:E; [|apply nth_error_None in E; lia].
  rewrite (rew_at_q _ _ _ _ _ E), (term_at_q _ _ _ _ _ E), (trunc_at_q _ _ _ _ _ E). unfold row_pos. cbn [fst snd]. rewrite (skipn_nth _ _ _ E). reflexivity.
Qed.
Notation allp := (all_positions (fun k => mqueue last_frame o ns ops' k) (length ns)).
Lemma over_positions {T} (f : nat * nat -> T) (g : list trans -> T) : (forall k p, p < length (new k) -> f (k, p) = g (skipn p (new k))) ->
  map f allp = flat_map (fun e => map g (suffixes (new e))) (seq 0 (length (c_envs c))).
Proof.
  intro K. unfold all_positions. rewrite flat_map_map.
  transitivity (flat_map (fun e => map g (suffixes (new e))) (seq 0 (length ns))).
  - apply flat_map_ext. intro k. rewrite map_map, mqueue_after, map_length, suffixes_skipn, map_map. apply map_ext_in. intros p Hp. apply in_seq in Hp. apply K. lia.
  - destruct HC as (_ & _ & LE & _). apply flat_map_seq_cut; [lia|]. intros e He. rewrite new_out by lia. reflexivity.
Qed.
Lemma allp_ne : (exists e, traj e <> []) -> allp <> [].
Proof. intros K E. destruct (some_new K) as (x & Hx). apply positions_ok in Hx. rewrite E in Hx. exact Hx. Qed.
Lemma sample_rows rb rnd : (exists e, traj e <> []) -> m_sample o m rb rnd 0%Z = Ok (map row_pos allp, map at_ allp).
Proof.
  intro K. unfold m_sample. rewrite (sample_all rb rnd K). cbn [bind]. rewrite map_map, getitem_rows; [reflexivity|apply allp_ne, K|].
  intros x. apply positions_ok.
Qed.
Lemma rows_flat : map row_pos allp = flat_map (fun e => flat_map (row_at last_frame o) (suffixes (new e))) (seq 0 (length (c_envs c))).
Proof.
  rewrite (over_positions row_pos (fun l => hd (mkOut [] None [] []) (row_at last_frame o l))).
  - apply flat_map_ext. intro e. generalize (new e). induction l as [|t l IH]; [reflexivity|]. cbn [suffixes map flat_map row_at hd app]. rewrite IH. reflexivity.
  - intros k p Hp. unfold row_pos. cbn [fst snd]. destruct (skipn p (new k)); reflexivity.
Qed.

Lemma on_policy_main rb rnd gamma lam : (exists e, traj e <> []) ->
  on_policy o m rb rnd V gamma lam
  = Ok (flat_map (fun e => flat_map (row_at last_frame o) (suffixes (new e))) (seq 0 (length (c_envs c))),
        (flat_map (fun e => map (td_lambda W gamma lam) (suffixes (new e))) (seq 0 (length (c_envs c))),
         flat_map (fun e => map (fun l => (td_lambda W gamma lam l - match l with t :: _ => V [Some (t_obs t)] | [] => 0 end)%Qc) (suffixes (new e))) (seq 0 (length (c_envs c))))).
Proof.
  intro K. unfold on_policy. rewrite (sample_rows rb rnd K). cbn [bind fst snd]. destruct mrun as (outs & HM).
  assert (HX : forall x, In x allp -> ok_pos x) by (intro; apply positions_ok).
  rewrite (facts_rows allp HX). rewrite !map_map.
  set (v := fun x : nat * nat => w_at (new (fst x)) W (snd x)).
  set (w := fun x : nat * nat => match skipn (snd x) (new (fst x)) with t :: _ => V [Some (t_obs t)] | [] => 0%Qc end).
  assert (Ev : map (fun x => V (o_obs_next (row_pos x))) allp = map v allp).
  { apply map_ext_in. intros [k p] Kx. specialize (HX _ Kx). unfold ok_pos in HX. unfold v, row_pos, w_at. cbn [fst snd] in *.
    destruct (skipn p (new k)) eqn:E; [apply (f_equal (@length _)) in E; rewrite skipn_length in E; cbn in E; lia|]. reflexivity. }
  assert (Ew : map (fun x => V (o_obs (row_pos x))) allp = map w allp).
  { apply map_ext_in. intros [k p] Kx. specialize (HX _ Kx). unfold ok_pos in HX. unfold w, row_pos. cbn [fst snd] in *.
    destruct (skipn p (new k)) eqn:E; [apply (f_equal (@length _)) in E; rewrite skipn_length in E; cbn in E; lia|]. reflexivity. }
  rewrite Ev, Ew.
  assert (HV : forall x, In x allp -> snd x < length (mqueue last_frame o ns ops' (fst x))).
  { intros x Kx. rewrite mqueue_after, map_length. apply HX, Kx. }
  assert (Hw : forall k p, last_of (mqueue last_frame o ns ops' k) p <> p -> w (k, S p) = next_value (mqueue last_frame o ns ops' k) (fun j => v (k, j)) p).
  { intros k p Hl. rewrite mqueue_after in *. unfold w, v, next_value. cbn [fst snd].
    destruct (nth_error (new k) p) as [t|] eqn:E.
    - rewrite (last_of_step _ _ _ _ _ E) in Hl. destruct (ends t || is_nil (skipn (S p) (new k))) eqn:D; [congruence|].
      rewrite (term_at_q _ _ _ _ _ E), (w_at_nth _ _ _ _ E). unfold seen_next. rewrite D, orb_true_r.
      apply orb_false_iff in D. destruct D as [De Dn].
      destruct (skipn (S p) (new k)) as [|t' r] eqn:E2; [discriminate Dn|].
      assert (E' : nth_error (new k) (S p) = Some t').
      { replace (S p) with (S p + 0) by lia. rewrite <- nth_error_skipn, E2. reflexivity. }
      rewrite (new_chain k p t t' E E' De). unfold ends in De. apply orb_false_iff in De. destruct De as [-> _]. reflexivity.
    - exfalso. apply Hl. apply nth_error_None in E. unfold last_of. rewrite map_length. replace (length (new k) - 1 - p) with 0 by lia. reflexivity. }
  destruct (C22_episodic_return_manager_lemma _ _ _ r0 radd last_frame o ns ops' m outs allp v (Some (map v allp)) (Some (map w allp)) gamma lam ns_pos HM (some_add K) HV
              (C22_full_batch_lemma _ _ _ _ _) (or_introl eq_refl) (or_intror (ex_intro _ w (conj eq_refl Hw)))) as (adv & GR & GA & _).
  specialize (GA w eq_refl). subst adv. rewrite GR. cbn [bind]. rewrite rows_flat. f_equal. f_equal.
  assert (TT : forall k p, p < length (new k) -> target_of (fun k => mqueue last_frame o ns ops' k) v gamma lam (k, p) = td_lambda W gamma lam (skipn p (new k))).
  { intros k p Hp. unfold target_of. cbn [fst snd]. rewrite mqueue_after. unfold v. cbn [fst snd]. apply (lambda_rec last_frame o (new k) W gamma lam _ p eq_refl Hp). }
  f_equal.
  - apply over_positions. exact TT.
  - apply over_positions. intros k p Hp. rewrite TT by exact Hp. unfold w. cbn [fst snd]. reflexivity.
Qed.

Lemma pg_policy_main rb rnd mean gamma : (exists e, traj e <> []) ->
  pg_policy o m rb rnd mean gamma
  = Ok (flat_map (fun e => flat_map (row_at last_frame o) (suffixes (new e))) (seq 0 (length (c_envs c))),
        flat_map (fun e => map (td_lambda (fun _ _ => mean) gamma 1) (suffixes (new e))) (seq 0 (length (c_envs c)))).
Proof.
  intro K. unfold pg_policy. rewrite (sample_rows rb rnd K). cbn [bind fst snd]. destruct mrun as (outs & HM).
  assert (HX : forall x, In x allp -> ok_pos x) by (intro; apply positions_ok).
  rewrite (facts_rows allp HX). rewrite !map_map.
  set (v := fun x : nat * nat => w_at (new (fst x)) (fun _ _ => mean) (snd x)).
  assert (Ev : map (fun _ : nat * nat => mean) allp = map v allp).
  { apply map_ext_in. intros [k p] Kx. specialize (HX _ Kx). unfold ok_pos in HX. unfold v, w_at. cbn [fst snd] in *.
    destruct (skipn p (new k)) eqn:E; [apply (f_equal (@length _)) in E; rewrite skipn_length in E; cbn in E; lia|]. reflexivity. }
  rewrite Ev.
  assert (HV : forall x, In x allp -> snd x < length (mqueue last_frame o ns ops' (fst x))).
  { intros x Kx. rewrite mqueue_after, map_length. apply HX, Kx. }
  destruct (C22_episodic_return_manager_lemma _ _ _ r0 radd last_frame o ns ops' m outs allp v (Some (map v allp)) None gamma 1%Qc ns_pos HM (some_add K) HV
              (C22_full_batch_lemma _ _ _ _ _) (or_introl eq_refl) (or_introl eq_refl)) as (adv & GR & _).
  rewrite GR. cbn [bind fst]. rewrite rows_flat. f_equal. f_equal. apply over_positions.
  intros k p Hp. unfold target_of. cbn [fst snd]. rewrite mqueue_after. unfold v. cbn [fst snd]. apply (lambda_rec last_frame o (new k) (fun _ _ => mean) gamma 1%Qc _ p eq_refl Hp).
Qed.
End Buf.

Lemma td_to_go {Ob A Inf} mean gamma (l : list (trans Ob A Inf Qc)) : forall t, td_lambda (fun _ _ => mean) gamma 1 (t :: l) = to_go mean gamma (t :: l).
Proof.
  induction l as [|t' l IH]; intro t; cbn [td_lambda to_go].
  - cbn [is_nil]. rewrite orb_true_r. destruct (t_term t), (t_trunc t); reflexivity.
  - specialize (IH t'). cbn [td_lambda to_go] in IH. rewrite IH. cbn [is_nil]. rewrite orb_false_r.
    destruct (t_term t); [reflexivity|]. destruct (t_trunc t); [reflexivity|]. ring.
Qed.

Lemma n_step_cons {Ob A Inf} (W : trans Ob A Inf Qc -> list (trans Ob A Inf Qc) -> Qc) gamma N t rest : n_step W gamma N (t :: rest)
  = (t_rew t + gamma * (if t_term t then 0 else if t_trunc t || is_nil rest then W t rest
                        else match N with S (S N' as N1) => n_step W gamma N1 rest | _ => W t rest end))%Qc.
Proof. destruct N as [|[|N]]; reflexivity. Qed.

(** ** Main results *)
Section Main.
Context {Ob A B Inf H ES PS : Type}.
Variables (r0 : Qc) (radd : Qc -> Qc -> Qc) (last_frame : Ob -> Ob) (o : opts).
Variables (estep : nat -> ES -> B -> ES * sres Ob Inf Qc) (ereset : nat -> ES -> ES * (Ob * Inf)).
Variable act_fn : PS -> list nat -> list Ob -> list Inf -> option (list H) -> PS * (list (A * B) * option (list H)).
Variables (hreset : list nat -> list H -> list H) (hook : list (row_out Ob A Inf Qc) -> bool).

Lemma stream_recorded ns ops (c : coll Ob A Inf Qc H ES PS) c' ls fuel ts :
  one_stream ts -> coll_ok r0 radd last_frame o ns ops c ->
  collects (fun a b => collect r0 radd last_frame o estep ereset act_fn hreset hook fuel a b false) ts c = Ok (c', ls) ->
  exists rounds, recorded r0 radd last_frame o estep ereset ns ops c (c_mgr c') (concat (map (@l_calls _ _ _ _ _ _ _ _) ls)) rounds.
Proof.
  intros [HS|(t & ->)] HC HR.
  - destruct (C30_sequence_lemma _ _ _ _ _ _ _ _ r0 radd last_frame o estep ereset act_fn hreset hook ns ops c c' ls fuel ts HS HC HR) as (rounds & K & _). exists rounds. exact K.
  - cbn [collects] in HR. destruct (collect _ _ _ _ _ _ _ _ _ _ _ _ _ c) as [[c1 l]|] eqn:E; [|discriminate]. injection HR as -> <-.
    destruct (C30_stored_lemma _ _ _ _ _ _ _ _ r0 radd last_frame o estep ereset act_fn hreset hook ns ops c c' l fuel t HC E) as (rounds & K & _). exists rounds. cbn [map concat]. rewrite app_nil_r. exact K.
Qed.
End Main.

(** C245. Collect, sample, compute n-step targets: every sampled row is a step of one environment's own
    trajectory (the newest that fit in its sub-buffer), and its target is the n-step target of that
    trajectory from that step on. *)
Lemma C245_off_policy_lemma : forall (Ob A B Inf H ES PS : Type) (r0 : Qc) (radd : Qc -> Qc -> Qc) (last_frame : Ob -> Ob) (o : opts)
  (estep : nat -> ES -> B -> ES * sres Ob Inf Qc) (ereset : nat -> ES -> ES * (Ob * Inf))
  (act_fn : PS -> list nat -> list Ob -> list Inf -> option (list H) -> PS * (list (A * B) * option (list H)))
  (hreset : list nat -> list H -> list H) (hook : list (row_out Ob A Inf Qc) -> bool)
  ns ops (c : coll Ob A Inf Qc H ES PS) c' ls fuel ts rb rnd (V : list (option Ob) -> Qc) z gamma N,
  stack_num o = 1 -> save_only_last_obs o = false -> one_stream ts ->
  coll_ok r0 radd last_frame o ns ops c -> (forall e, mqueue last_frame o ns ops e = []) ->
  collects (fun a b => collect r0 radd last_frame o estep ereset act_fn hreset hook fuel a b false) ts c = Ok (c', ls) ->
  let calls := concat (map (@l_calls _ _ _ _ _ _ _ _) ls) in
  let steps e := newest estep ereset ns c calls e in
  (exists e, trajectory estep ereset c calls e <> []) -> (0 < z)%Z -> 0 < N ->
  exists xs, length xs = Z.to_nat z
  /\ (forall x, In x xs -> fst x < length (c_envs c) /\ snd x < length (steps (fst x)))
  /\ off_policy o (c_mgr c') rb rnd V z gamma N
     = Ok (flat_map (fun x => row_at last_frame o (skipn (snd x) (steps (fst x)))) xs,
           map (fun x => [n_step (fun t rest => V [Some (seen_next (save_obs_next o) t rest)]) gamma N (skipn (snd x) (steps (fst x)))]) xs).
Proof.
  intros Ob A B Inf H ES PS r0 radd last_frame o estep ereset act_fn hreset hook ns ops c c' ls fuel ts rb rnd V z gamma N S1 SL HT HC HE HR calls steps K Hz HN.
  destruct (stream_recorded _ _ _ _ _ _ _ _ _ _ _ _ _ _ _ _ HT HC HR) as (rounds & HREC).
  destruct (off_policy_main last_frame o estep ereset r0 radd ns ops c (c_mgr c') calls rounds HC HE HREC S1 SL V rb rnd z gamma N K Hz HN) as (xs & L & HX & G).
  exists xs. split; [exact L|]. split; [exact HX|]. rewrite G. f_equal. f_equal. clear L G.
  induction xs as [|x xs IH]; [reflexivity|]. cbn [map flat_map]. rewrite <- IH by (intros y Hy; apply HX; right; exact Hy).
  destruct (HX x (or_introl eq_refl)) as (_ & Hx). unfold row_pos, ok_pos in *.
  fold (steps (fst x)) in *. destruct (skipn (snd x) (steps (fst x))) eqn:E; [apply (f_equal (@length _)) in E; rewrite skipn_length in E; cbn in E; lia|]. reflexivity.
Qed.

(** C246. Not saving next observations: the targets are unchanged for steps of episodes that end with a
    terminal step. *)
Lemma C246_no_next_partial_lemma : forall (Ob A Inf : Type) (V : list (option Ob) -> Qc) gamma lam N (ts : list (trans Ob A Inf Qc)),
  terminates ts = true ->
  n_step (fun t rest => V [Some (seen_next false t rest)]) gamma N ts = n_step (fun t _ => V [Some (t_obs_next t)]) gamma N ts
  /\ td_lambda (fun t rest => V [Some (seen_next false t rest)]) gamma lam ts = td_lambda (fun t _ => V [Some (t_obs_next t)]) gamma lam ts.
Proof.
  intros Ob A Inf V gamma lam N ts. revert N. induction ts as [|t rest IH]; intros N HT; [discriminate|]. cbn [terminates] in HT. rewrite !n_step_cons. cbn [td_lambda].
  destruct (t_term t) eqn:T; [split; reflexivity|]. cbn [orb] in HT. apply andb_true_iff in HT. destruct HT as [H1 H2].
  destruct (t_trunc t) eqn:U; [discriminate|]. destruct rest as [|t' rest]; [discriminate|]. cbn [is_nil orb].
  assert (E : seen_next false t (t' :: rest) = t_obs_next t) by (unfold seen_next, ends; rewrite T, U; reflexivity). rewrite E. split.
  - destruct N as [|[|N]]; [reflexivity|reflexivity|]. destruct (IH (S N) H2) as [-> _]. reflexivity.
  - destruct (IH N H2) as [_ ->]. reflexivity.
Qed.
(** With next observations saved the target of every step uses what the environment returned. *)
Lemma C246_saved_lemma : forall (Ob A Inf : Type) (V : list (option Ob) -> Qc) gamma lam N (ts : list (trans Ob A Inf Qc)),
  n_step (fun t rest => V [Some (seen_next true t rest)]) gamma N ts = n_step (fun t _ => V [Some (t_obs_next t)]) gamma N ts
  /\ td_lambda (fun t rest => V [Some (seen_next true t rest)]) gamma lam ts = td_lambda (fun t _ => V [Some (t_obs_next t)]) gamma lam ts.
Proof. intros. split; reflexivity. Qed.
(** The same run, the same draws: with next observations not saved the target of the truncated step is
    taken from the observation before it. *)
Lemma C246_no_next_refuted_lemma : forall rb rnd, exists c c0 c1 l0 l1,
  count_ok true [4] [] c /\ count_ok false [4] [] c
  /\ count_collect true 10 (Some 3) None false c = Ok (c1, l1) /\ count_collect false 10 (Some 3) None false c = Ok (c0, l0)
  /\ (let* x := on_policy (count_opts true) (c_mgr c1) rb rnd count_value 1 0 in Ok (map this (fst (snd x)))) = Ok (map inject_Z [11; 22; 33]%Z)
  /\ (let* x := on_policy (count_opts false) (c_mgr c0) rb rnd count_value 1 0 in Ok (map this (fst (snd x)))) = Ok (map inject_Z [11; 22; 23]%Z).
Proof.
  intros rb rnd. eexists (count_coll 4 1), _, _, _, _.
  assert (OK : forall b, count_ok b [4] [] (count_coll 4 1)).
  { intro b. split; [intros n [<-|[]]; lia|]. split; [cbn; lia|]. split; [cbn; lia|]. split; [exists []; reflexivity|]. exists [0], [tt]. repeat split. }
  split; [apply OK|]. split; [apply OK|]. split; [vm_compute; reflexivity|]. split; [vm_compute; reflexivity|]. split; vm_compute; reflexivity.
Qed.

(** C247. Collect, take the whole buffer, compute lambda-returns and advantages: environment after
    environment, oldest step first, the TD(lambda) targets of the trajectories, and their difference to
    the critic's value of the observation acted on. *)
Lemma C247_on_policy_lemma : forall (Ob A B Inf H ES PS : Type) (r0 : Qc) (radd : Qc -> Qc -> Qc) (last_frame : Ob -> Ob) (o : opts)
  (estep : nat -> ES -> B -> ES * sres Ob Inf Qc) (ereset : nat -> ES -> ES * (Ob * Inf))
  (act_fn : PS -> list nat -> list Ob -> list Inf -> option (list H) -> PS * (list (A * B) * option (list H)))
  (hreset : list nat -> list H -> list H) (hook : list (row_out Ob A Inf Qc) -> bool)
  ns ops (c : coll Ob A Inf Qc H ES PS) c' ls fuel ts rb rnd (V : list (option Ob) -> Qc) gamma lam,
  stack_num o = 1 -> save_only_last_obs o = false -> one_stream ts ->
  coll_ok r0 radd last_frame o ns ops c -> (forall e, mqueue last_frame o ns ops e = []) ->
  collects (fun a b => collect r0 radd last_frame o estep ereset act_fn hreset hook fuel a b false) ts c = Ok (c', ls) ->
  let calls := concat (map (@l_calls _ _ _ _ _ _ _ _) ls) in
  let steps e := newest estep ereset ns c calls e in
  let target := td_lambda (fun t rest => V [Some (seen_next (save_obs_next o) t rest)]) gamma lam in
  let value l := match l with t :: _ => V [Some (t_obs t)] | [] => 0%Qc end in
  let envs := seq 0 (length (c_envs c)) in
  (exists e, trajectory estep ereset c calls e <> []) ->
  on_policy o (c_mgr c') rb rnd V gamma lam
  = Ok (flat_map (fun e => flat_map (row_at last_frame o) (suffixes (steps e))) envs,
        (flat_map (fun e => map target (suffixes (steps e))) envs,
         flat_map (fun e => map (fun l => (target l - value l)%Qc) (suffixes (steps e))) envs)).
Proof.
  intros Ob A B Inf H ES PS r0 radd last_frame o estep ereset act_fn hreset hook ns ops c c' ls fuel ts rb rnd V gamma lam S1 SL HT HC HE HR calls steps target value envs K.
  destruct (stream_recorded _ _ _ _ _ _ _ _ _ _ _ _ _ _ _ _ HT HC HR) as (rounds & HREC).
  exact (on_policy_main last_frame o estep ereset r0 radd ns ops c (c_mgr c') calls rounds HC HE HREC S1 SL V rb rnd gamma lam K).
Qed.

(** C248. The same for the policy-gradient returns: discounted sums of the rewards of the rest of the
    episode; a part of an episode that does not end in a terminal step gets the discounted mean of the
    running statistics. *)
Lemma C248_policy_gradient_lemma : forall (Ob A B Inf H ES PS : Type) (r0 : Qc) (radd : Qc -> Qc -> Qc) (last_frame : Ob -> Ob) (o : opts)
  (estep : nat -> ES -> B -> ES * sres Ob Inf Qc) (ereset : nat -> ES -> ES * (Ob * Inf))
  (act_fn : PS -> list nat -> list Ob -> list Inf -> option (list H) -> PS * (list (A * B) * option (list H)))
  (hreset : list nat -> list H -> list H) (hook : list (row_out Ob A Inf Qc) -> bool)
  ns ops (c : coll Ob A Inf Qc H ES PS) c' ls fuel ts rb rnd mean gamma,
  stack_num o = 1 -> save_only_last_obs o = false -> one_stream ts ->
  coll_ok r0 radd last_frame o ns ops c -> (forall e, mqueue last_frame o ns ops e = []) ->
  collects (fun a b => collect r0 radd last_frame o estep ereset act_fn hreset hook fuel a b false) ts c = Ok (c', ls) ->
  let calls := concat (map (@l_calls _ _ _ _ _ _ _ _) ls) in
  let steps e := newest estep ereset ns c calls e in
  let envs := seq 0 (length (c_envs c)) in
  (exists e, trajectory estep ereset c calls e <> []) ->
  pg_policy o (c_mgr c') rb rnd mean gamma
  = Ok (flat_map (fun e => flat_map (row_at last_frame o) (suffixes (steps e))) envs,
        flat_map (fun e => map (to_go mean gamma) (suffixes (steps e))) envs).
Proof.
  intros Ob A B Inf H ES PS r0 radd last_frame o estep ereset act_fn hreset hook ns ops c c' ls fuel ts rb rnd mean gamma S1 SL HT HC HE HR calls steps envs K.
  destruct (stream_recorded _ _ _ _ _ _ _ _ _ _ _ _ _ _ _ _ HT HC HR) as (rounds & HREC).
  rewrite (pg_policy_main last_frame o estep ereset r0 radd ns ops c (c_mgr c') calls rounds HC HE HREC S1 SL rb rnd mean gamma K).
  f_equal. f_equal. apply flat_map_ext. intro e. apply map_ext_in. intros l Hl.
  destruct l as [|t l]; [exfalso; eapply suffixes_ne; exact Hl|]. apply td_to_go.
Qed.
