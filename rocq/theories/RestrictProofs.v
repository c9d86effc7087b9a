(** * Restrictions of refuted properties under which they hold: proofs *)
From Coq Require Import Permutation Sorted.
From Verif Require Import Py PyLemmas Num SegTreeSpec BufferModel BufferSpec ManagerModel PrioModel PrioSpec PrioProofs PrioMainProofs RestrictModel GetIndicesModel GetIndicesProofs MaModel.
From Verif Require VenvModel VenvMainProofs.
Open Scope nat_scope.

Lemma nodup_map_in {X Y} (f : X -> Y) l : (forall x y, In x l -> In y l -> f x = f y -> x = y) -> NoDup l -> NoDup (map f l).
Proof.
  induction l as [|x l IH]; intros Hf Hn; [constructor|]. inversion_clear Hn as [|? ? Hx Hl]. cbn. constructor.
  - intros Hin. apply in_map_iff in Hin. destruct Hin as (y & E & Hy). apply Hx. rewrite (Hf x y); [exact Hy | left; reflexivity | right; exact Hy | symmetry; exact E].
  - apply IH; [|exact Hl]. intros a b Ha Hb. apply Hf; right; assumption.
Qed.
(** C51 (restricted): [sample_indices(None)] draws as many stored indices as the buffer has; if the draws are distinct they are all of them, in some
    order. *)
Lemma C51_sample_none_partial_lemma : forall (Ob A Inf R : Type) (o : opts) (b : buf Ob A Inf R) rnd l,
  stack_num o = 1 \/ sample_avail o = false -> 0 < size (b_st b) -> sample_indices o b rnd None = Ok l ->
  length l = size (b_st b) /\ (forall i, In i l -> i < size (b_st b)) /\
  ((forall j k, j < k < size (b_st b) -> rnd j mod size (b_st b) <> rnd k mod size (b_st b)) -> Permutation l (seq 0 (size (b_st b)))).
Proof.
  intros Ob A Inf R o b rnd l Ho Hs H. unfold sample_indices in H.
  assert (Hc : (stack_num o =? 1) || negb (sample_avail o) = true).
  { destruct Ho as [-> | ->]; [reflexivity | apply Bool.orb_true_r]. }
  rewrite Hc in H. set (n := size (b_st b)) in *. clearbody n.
  assert (Hz : (0 <? Z.of_nat n)%Z = true) by lia. rewrite Hz, Nat2Z.id in H. unfold choice in H. rewrite seq_length in H.
  destruct ((n =? 0) && negb (n =? 0)) eqn:E; [discriminate H|].
  assert (Hm : l = map (fun j => rnd j mod n) (seq 0 n)).
  { assert (Hok : mapM (fun j => match nth_error (seq 0 n) (rnd j mod n) with Some x => Ok x | None => Err IndexError end) (seq 0 n) = Ok (map (fun j => rnd j mod n) (seq 0 n))).
    { assert (Hg : forall js, mapM (fun j => match nth_error (seq 0 n) (rnd j mod n) with Some x => Ok x | None => Err IndexError end) js = Ok (map (fun j => rnd j mod n) js)).
      { induction js as [|j js IH]; [reflexivity|]. cbn.
        assert (Hb : rnd j mod n < n) by (apply Nat.mod_upper_bound; lia).
        rewrite (nth_error_nth' (seq 0 n) 0) by (rewrite seq_length; exact Hb). rewrite seq_nth by exact Hb. cbn. rewrite IH. reflexivity. }
      apply Hg. }
    rewrite Hok in H. injection H as <-. reflexivity. }
  subst l. split; [rewrite map_length; apply seq_length|].
  assert (Hin : forall i, In i (map (fun j => rnd j mod n) (seq 0 n)) -> i < n).
  { intros i Hi. apply in_map_iff in Hi. destruct Hi as (j & <- & _). apply Nat.mod_upper_bound. lia. }
  split; [exact Hin|]. intros Hd. apply NoDup_Permutation_bis.
  - apply nodup_map_in.
    + intros x y Hx Hy Hxy. apply in_seq in Hx. apply in_seq in Hy. destruct (Nat.lt_trichotomy x y) as [L | [L | L]]; [|exact L|].
      * destruct (Hd x y); [lia | exact Hxy].
      * destruct (Hd y x); [lia | symmetry; exact Hxy].
    + apply seq_NoDup.
  - rewrite map_length. lia.
  - intros i Hi. apply in_seq. specialize (Hin i Hi). lia.
Qed.

(** C56 (restricted to a [start] inside the buffer): a [stop] that does not lie in the same sub-buffer, beyond the last edge included, is refused. *)
Lemma C56_inside_partial_lemma : forall edges k lo hi start stop, StronglySorted Z.lt edges ->
  nth_error edges k = Some lo -> nth_error edges (S k) = Some hi -> (lo <= start < hi)%Z -> ~ (lo < stop <= hi)%Z ->
  get_buffer_indices edges start stop = Err ValueError.
Proof. intros edges k lo hi start stop Hs H1 H2 H3 H4. exact (proj1 (proj2 (C07_get_buffer_indices_lemma edges k lo hi start stop Hs H1 H2 H3)) H4). Qed.

(** C62 (restricted to batch sizes that are not positive, where nothing is drawn by priority): the options are honoured as by ReplayBuffer. *)
Lemma C62_all_partial_lemma : forall (Ob A Inf R : Type) (o : opts) (b : pbuf Ob A Inf R) rnd draw (z : Z), (z <= 0)%Z ->
  pb_sample_indices o b rnd draw (Some z) = sample_indices o (pb_buf b) rnd (Some z) /\ pb_sample_indices o b rnd draw None = sample_indices o (pb_buf b) rnd None.
Proof.
  intros Ob A Inf R o b rnd draw z Hz. split; [|reflexivity]. unfold pb_sample_indices. assert (H : (0 <? z)%Z = false) by lia. rewrite H. reflexivity.
Qed.
(** C62.  With a positive batch size the options are ignored, whatever they are. *)
Lemma C62_ignored_refuted_lemma : forall (Ob A Inf R : Type) (o o' : opts) (b : pbuf Ob A Inf R) rnd rnd' draw (z : Z), (0 < z)%Z -> 0 < size (b_st (pb_buf b)) ->
  pb_sample_indices o b rnd draw (Some z) = pb_sample_indices o' b rnd' draw (Some z).
Proof.
  intros Ob A Inf R o o' b rnd rnd' draw z Hz Hs. unfold pb_sample_indices. assert (H : (0 <? z)%Z = true) by lia. assert (H' : (0 <? size (b_st (pb_buf b))) = true) by lia.
  rewrite H, H'. reflexivity.
Qed.

(** C63 (restricted to the [set_beta] of PrioritizedReplayBuffer and PrioritizedReplayBufferManager): the weights are those of the new exponent,
    whatever was set before. *)
Lemma C63_own_partial_lemma : forall p (bs : list Qc) (b : betas) beta m index,
  vec_get_weight p (own_set_beta (fold_left own_set_beta bs b) beta) m index = get_weight (fun x => p x (- beta)%Qc) m index.
Proof. reflexivity. Qed.

Section Prio.
Context {Ob A Inf R : Type}.
Variables (pw : Qc -> Qc) (eps : Qc) (r0 : R) (radd : R -> R -> R) (last_frame : Ob -> Ob) (o : opts).
Lemma p_run_app ops ops' : forall b : pbuf Ob A Inf R,
  p_run pw eps r0 radd last_frame o b (ops ++ ops') = bind (p_run pw eps r0 radd last_frame o b ops) (fun b => p_run pw eps r0 radd last_frame o b ops').
Proof.
  induction ops as [|[t | src | ix ws] ops IH]; intros b; cbn; [reflexivity | | |].
  - destruct (pb_add pw r0 radd last_frame o b t); cbn; auto.
  - destruct (pb_update pw b src); cbn; auto.
  - destruct (update_weight pw eps (pb_prio b) ix ws); cbn; auto.
Qed.
Lemma pops_ok_app n (ops ops' : list (pop Ob A Inf R)) : forall s, pops_ok pw eps r0 radd last_frame o n s ops ->
  pops_ok pw eps r0 radd last_frame o n (fold_left (ps_step pw eps n) ops s) ops' -> pops_ok pw eps r0 radd last_frame o n s (ops ++ ops').
Proof. induction ops as [|op ops IH]; intros s H H'; [exact H'|]. destruct H as [H0 H]. split; [exact H0|]. apply IH; assumption. Qed.
End Prio.
(** C64 (restricted to sources that are not empty): after any history [update] succeeds; the moved rows get the highest priority seen, one ring slot
    after the other, and all other weights stay. *)
Lemma C64_update_partial_lemma : forall pw eps (Ob A Inf R : Type) (r0 : R) radd (last_frame : Ob -> Ob) o n (ops : list (PrioSpec.pop Ob A Inf R)) b src n2 q2,
  (forall x, (0 < x)%Qc -> (0 < pw x)%Qc) -> (0 < eps)%Qc -> 0 < n ->
  pops_ok pw eps r0 radd last_frame o n (ps_init n) ops -> p_run pw eps r0 radd last_frame o (pb_init r0 n) ops = Ok b ->
  0 < n2 -> reach r0 radd last_frame o n2 src q2 -> q2 <> [] ->
  let s := ps_run pw eps n ops in
  exists b' l, pb_update pw b src = Ok (b', l) /\
    forall i, i < n -> st_getitem (p_tree (pb_prio b')) (Z.of_nat i) = Ok (nth i (ring_fill n (ps_arr s) (ps_cnt s) (size (b_st src)) (pw (highest (ps_seen s)))) 0%Qc).
Proof.
  intros pw eps Ob A Inf R r0 radd lf o n ops b src n2 q2 Hp He Hn Hok Hr Hn2 Hre Hq. cbn zeta.
  assert (Hall : pops_ok pw eps r0 radd lf o n (ps_init n) (ops ++ [PUpdate src])).
  { apply pops_ok_app; [exact Hok|]. split; [|exact Logic.I]. exists n2, q2. auto. }
  destruct (C16_weights_lemma pw eps Ob A Inf R r0 radd lf o n (ops ++ [PUpdate src]) Hp He Hn Hall) as (b' & Hrun & _ & Hget & _).
  rewrite p_run_app, Hr in Hrun. cbn in Hrun. destruct (pb_update pw b src) as [[b1 l]|e] eqn:E; [|discriminate Hrun]. cbn in Hrun. injection Hrun as <-.
  exists b1, l. split; [reflexivity|]. intros i Hi. rewrite (Hget i Hi). unfold ps_run. rewrite fold_left_app. reflexivity.
Qed.

(** C79 (restricted to calls that return): the reward array is as before, whatever the sub-policies do. *)
Lemma C79_normal_partial_lemma : forall (Row R X : Type) agent_idx (pf : nat -> list Row -> list R -> list nat -> list R -> res X) agents ids rows rews indice save r l,
  process agent_idx pf agents ids rows rews indice save = (r, Ok l) -> r = RFull save.
Proof.
  intros Row R X ai pf agents ids rows rews indice save r l. unfold process. destruct (process_loop ai pf agents ids rows rews indice save REmpty) as [c [x|e]]; intros [= <- <-]; reflexivity.
Qed.

(** ** Vector environments *)
Section Venv.
Import VenvModel.
Context {E Act R : Type}.
Variable estep : E -> cmd Act -> E * R.
Definition same (v v' : @venv E Act R) : Prop := is_closed v' = is_closed v /\ is_async v' = is_async v /\ length (workers v') = length (workers v).
Lemma same_trans a b c : same a b -> same b c -> same a c.
Proof. intros (H1 & H2 & H3) (G1 & G2 & G3). repeat split; congruence. Qed.
Lemma same_set v ws : length ws = length (workers v) -> same v (set_workers v ws).
Proof. intros H. repeat split. exact H. Qed.
Lemma send_at_same dummy v i c : same v (fst (send_at estep dummy v i c)).
Proof.
  unfold send_at. destruct (norm_index (env_num v) i) as [k|e]; [|repeat split]. destruct (nth_error (workers v) k) as [w|] eqn:Ew; [|repeat split].
  cbn. apply same_set. apply upd_length.
Qed.
Lemma send_all_same dummy l : forall v, same v (fst (send_all estep dummy v l)).
Proof.
  induction l as [|[i c] l IH]; intros v; cbn; [repeat split|]. assert (H := send_at_same dummy v i c). destruct (send_at estep dummy v i c) as [v1 [[]|e]]; [|exact H].
  exact (same_trans _ _ _ H (IH v1)).
Qed.
Lemma recv_all_same dummy ids : forall v, same v (fst (recv_all dummy v ids)).
Proof.
  induction ids as [|i ids IH]; intros v; cbn; [repeat split|].
  assert (H : same v (fst (recv_at dummy v i))).
  { unfold recv_at, recv_conn. destruct (norm_index (env_num v) i) as [k|e]; [|repeat split]. destruct (nth_error (workers v) k) as [w|] eqn:Ew; [|repeat split].
    destruct (wrecv dummy w) as [w' r]. cbn. apply same_set. apply upd_length. }
  destruct (recv_at dummy v i) as [v1 [r|e]]; [|exact H]. specialize (IH v1). destruct (recv_all dummy v1 ids) as [v2 [l|e]]; exact (same_trans _ _ _ H IH).
Qed.
Lemma step_same dummy v acts ids rounds : is_async v = false -> same v (fst (v_step estep dummy v acts ids rounds)).
Proof.
  intros Ha. unfold v_step. destruct (is_closed v) eqn:Ec; [repeat split|]. rewrite Ha. unfold step_sync. destruct acts as [acts|]; [|repeat split].
  destruct (negb (length acts =? length (wrap_id v ids))); [repeat split|].
  assert (H := send_all_same dummy (combine (wrap_id v ids) (map CStep acts)) v). destruct (send_all estep dummy v (combine (wrap_id v ids) (map CStep acts))) as [v1 [[]|e]]; [|exact H].
  destruct (wrap_id v ids) as [|i l]; [exact H|]. exact (same_trans _ _ _ H (recv_all_same dummy (i :: l) v1)).
Qed.
End Venv.
Import VenvModel.
(** C84 (restricted to ids that are not ready): they are refused before any action is sent. *)
Lemma C84_not_ready_partial_lemma : forall (E Act R : Type) (estep : E -> cmd Act -> E * R) dummy v acts ids i rounds,
  is_closed v = false -> is_async v = true -> In i ids -> (In i (waiting_id v) \/ ~ In i (ready_id v)) ->
  v_step estep dummy v (Some acts) (Some ids) rounds = (v, Err AssertionError).
Proof. intros E Act R estep dummy v acts ids i rounds H1 H2 H3 H4. exact (proj1 (VenvMainProofs.C33_refused_lemma E Act R estep dummy v acts ids i rounds H1 H2 H3 H4)). Qed.
(** C85 (restricted to environments in the same process): after any steps, failed ones included, a step with legal ids returns the results of its own
    actions. *)
Lemma C85_dummy_partial_lemma : forall (E Act R : Type) (estep : E -> cmd Act -> E * R) (before : list (option (list Act) * option (list Z))) v acts ks,
  is_closed v = false -> is_async v = false -> ks <> [] -> NoDup ks -> Forall (fun k => k < length (workers v)) ks -> length acts = length ks ->
  let v0 := fold_left (fun v x => fst (v_step estep true v (fst x) (snd x) [])) before v in
  exists v' rs, v_step estep true v0 (Some acts) (Some (map Z.of_nat ks)) [] = (v', Ok (combine (map Z.of_nat ks) rs))
    /\ length rs = length ks
    /\ (forall j k a, nth_error ks j = Some k -> nth_error acts j = Some a -> exists e, nth_error (map w_env (workers v0)) k = Some e
          /\ nth_error rs j = Some (snd (estep e (CStep a))) /\ nth_error (map w_env (workers v')) k = Some (fst (estep e (CStep a)))).
Proof.
  intros E Act R estep before v acts ks H1 H2 H3 H4 H5 H6 v0.
  assert (Hs : same v v0).
  { subst v0. clear H1 H3 H4 H5 H6. revert v H2. induction before as [|[a i] before IH]; intros v H2; cbn; [repeat split|].
    assert (H := step_same estep true v a i [] H2). assert (G2 := proj1 (proj2 H)). apply (same_trans _ _ _ H).
    apply IH. rewrite G2. exact H2. }
  destruct Hs as (G1 & G2 & G3).
  assert (C1 : is_closed v0 = false) by congruence. assert (C2 : is_async v0 = false) by congruence.
  assert (C3 : true = false -> VenvMainProofs.idle v0) by discriminate. assert (C4 : Forall (fun k => k < length (workers v0)) ks) by (rewrite G3; exact H5).
  destruct (VenvMainProofs.C32_step_lemma E Act R estep true v0 acts ks [] C1 C2 C3 H3 H4 C4 H6) as (v' & rs & Hv & Hl & _ & Hr & _).
  exists v', rs. split; [exact Hv|]. split; [exact Hl|]. exact Hr.
Qed.
