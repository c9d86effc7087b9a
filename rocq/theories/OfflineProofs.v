(** * Proofs about the offline learners *)
From Verif Require Import Py PyLemmas Num BufferModel BufferSpec BufferProofs BufferWalkProofs BufferMainProofs ManagerModel ManagerSpec
  ReturnsModel ReturnsSpec ReturnsProofs ReturnsMainProofs DqnModel DqnProofs StatModel StatProofs OfflineModel.
From Coq Require Import Permutation.
Open Scope nat_scope.

(** ** Calibration returns *)
(** Discounted sum of the rewards from position [p] to the end of its episode. *)
Definition return_to_go {Ob A Inf : Type} (q : list (slot Ob A Inf Qc)) (gamma : Qc) (p : nat) : Qc :=
  sum_n (last_of q p + 1 - p) (fun k => (gamma ^ k * rew_at q (p + k)%nat)%Qc).

Lemma zget_col {X Y} (f : X -> Y) (l : list X) i x : nth_error l i = Some x -> zget (map f l) (Z.of_nat i) = Ok (f x).
Proof.
  intro H. assert (i < length l) by (apply nth_error_Some; congruence).
  rewrite (zget_ok (map f l) (Z.of_nat i) (f x)) by (rewrite map_length; lia). rewrite Nat2Z.id. f_equal.
  apply nth_error_nth. rewrite nth_error_map, H. reflexivity.
Qed.

Lemma last_of_ge {Ob A Inf : Type} (q : list (slot Ob A Inf Qc)) p : p < length q -> p <= last_of q p < length q.
Proof. intro H. destruct (last_of_spec q p H) as (H1 & _). lia. Qed.

Section Cal.
Context {Ob A Inf : Type}.
Variables (r0 : Qc) (radd : Qc -> Qc -> Qc) (last_frame : Ob -> Ob) (o : opts) (n : nat).

Lemma calibration_ok (b : buf Ob A Inf Qc) q rnd idx gamma :
  0 < n -> reach r0 radd last_frame o n b q -> q <> [] -> sample_indices plain b rnd (Some 0%Z) = Ok idx ->
  calibration_returns (buf_view b) idx gamma = Ok (map (return_to_go q gamma) (seq 0 (length q)))
  /\ idx = map (pos (b_st b)) (seq 0 (length q))
  /\ (forall p, p < length q -> pos (b_st b) p < length q).
Proof.
  intros Hn Hr Hne Hidx. pose proof (reach_inv r0 radd last_frame o n b q Hr Hn) as Hi.
  destruct (inv_meta n b q Hi Hne) as [l El].
  pose proof (buf_iview n b q Hi Hne (reach_done _ _ _ _ _ _ _ Hr)) as V.
  assert (Eidx : idx = map (pos (b_st b)) (seq 0 (length q))).
  { destruct (sample_zero_ok n b q plain rnd Hi (Nat.lt_0_1)) as [E _]; [congruence|]. rewrite E in Hidx. injection Hidx as <-.
    unfold avail_positions. cbn [plain stack_num Nat.eqb orb]. rewrite filter_true by reflexivity. reflexivity. }
  assert (Hpos : forall p, p < length q -> pos (b_st b) p < length q).
  { intros p Hp. pose proof (i_len _ _ _ Hi) as L. pose proof (i_s _ _ _ Hi) as S. destruct S. unfold pos.
    destruct (Nat.ltb_spec (ins (b_st b) + p) (size (b_st b))); lia. }
  split; [|split; [exact Eidx|exact Hpos]].
  destruct (v_meta _ _ _ V) as (m & Em & Hm).
  assert (Rows : sampled_rows (buf_view b) idx = Ok (map (fun p => (rew_at q p, term_at q p, trunc_at q p)) (seq 0 (length q)))).
  { unfold sampled_rows, column. rewrite Em. cbn [bind]. rewrite Eidx. clear - Hm.
    assert (G : forall k len, k + len = length q ->
      mapM (fun i => let* r := zget (map (fun s => match s with Some s => s_rew s | None => 0%Qc end) m) (Z.of_nat i) in
                     let* te := zget (map (fun s => match s with Some s => s_term s | None => false end) m) (Z.of_nat i) in
                     let* tr := zget (map (fun s => match s with Some s => s_trunc s | None => false end) m) (Z.of_nat i) in Ok (r, te, tr))
           (map (pos (b_st b)) (seq k len)) = Ok (map (fun p => (rew_at q p, term_at q p, trunc_at q p)) (seq k len))).
    { intros k len. revert k. induction len as [|len IH]; intros k Hk; [reflexivity|]. cbn [seq map mapM].
      destruct (nth_error q k) as [s|] eqn:Es; [|apply nth_error_None in Es; lia].
      pose proof (Hm (0, k) s Es) as Hs. cbn [fst snd] in Hs.
      rewrite (zget_col _ _ _ _ Hs). cbn [bind]. rewrite (zget_col _ _ _ _ Hs). cbn [bind]. rewrite (zget_col _ _ _ _ Hs). cbn [bind].
      rewrite IH by lia. cbn [bind]. unfold rew_at, term_at, trunc_at. rewrite Es. reflexivity. }
    apply (G 0 (length q)). reflexivity. }
  unfold calibration_returns. rewrite Rows. cbn [bind].
  destruct (C22_episodic_return_buffer_lemma Ob A Inf r0 radd last_frame o n b q rnd idx (seq 0 (length q)) (fun _ => 0%Qc) None None gamma 1%Qc
              Hn Hr Hne Hidx) as (adv & E & _).
  - intros p Hp. apply in_seq in Hp. lia.
  - pose proof (whole_all (fun _ => q) 1) as Wh. unfold all_positions in Wh. cbn [seq flat_map] in Wh. rewrite app_nil_r in Wh. exact Wh.
  - right. auto.
  - left. reflexivity.
  - assert (Ez : map (fun p => Z.of_nat (nth p idx 0)) (seq 0 (length q)) = map Z.of_nat idx).
    { rewrite Eidx, map_map. apply map_ext_in. intros p Hp. apply in_seq in Hp. f_equal.
      erewrite nth_error_nth; [reflexivity|]. rewrite nth_error_map_seq. destruct (Nat.ltb_spec p (length q)); [reflexivity|lia]. }
    rewrite Ez in E. rewrite E. cbn [bind fst]. f_equal. apply map_ext_in. intros p Hp. apply in_seq in Hp.
    destruct (last_of_ge q p ltac:(lia)) as [H1 H2].
    rewrite C22_lambda_one_lemma.
    + unfold return_to_go, rest_of_episode. rewrite map_length, seq_length.
      assert (Z : snd (last (map (fun j => (rew_at q j, next_value q (fun _ => 0%Qc) j)) (seq p (last_of q p + 1 - p))) (0%Qc, 0%Qc)) = 0%Qc).
      { set (L := map _ _). assert (F : forall x, In x L -> snd x = 0%Qc).
        { intros x Hx. unfold L in Hx. apply in_map_iff in Hx. destruct Hx as (j & <- & _). cbn [snd]. unfold next_value. destruct (term_at q j); reflexivity. }
        clearbody L. clear - F. induction L as [|x L IH]; [reflexivity|]. destruct L as [|y L]; [apply F; now left|]. apply IH. intros z Hz. apply F. now right. }
      rewrite Z. transitivity (sum_n (last_of q p + 1 - p) (fun k => (gamma ^ k * rew_at q (p + k)%nat)%Qc) + 0)%Qc; [|ring].
      f_equal; [|ring]. apply sum_n_ext. intros k Hk. f_equal.
      erewrite nth_error_nth; [|rewrite nth_error_map, (nth_error_nth' _ 0), seq_nth by (rewrite ?seq_length; lia); reflexivity]. reflexivity.
    + unfold rest_of_episode. replace (last_of q p + 1 - p) with (S (last_of q p - p)) by lia. discriminate.
Qed.
End Cal.

(** C148.  process_buffer gives the storage row of the [p]-th oldest transition, row [idx[p]], the return-to-go of
    another one: the [idx[p]]-th oldest. *)
Lemma C148_column_lemma : forall (Ob A Inf : Type) (r0 : Qc) radd (last_frame : Ob -> Ob) o n (b : buf Ob A Inf Qc) q rnd idx gamma,
  0 < n -> reach r0 radd last_frame o n b q -> q <> [] -> sample_indices plain b rnd (Some 0%Z) = Ok idx ->
  exists col, process_buffer true (buf_view b) idx gamma None = Ok (Some col) /\ length col = length q
    /\ forall p, p < length q -> calibration_of col (nth p idx 0) = Ok (return_to_go q gamma (nth p idx 0)).
Proof.
  intros Ob A Inf r0 radd lf o n b q rnd idx gamma Hn Hr Hne Hidx.
  destruct (calibration_ok r0 radd lf o n b q rnd idx gamma Hn Hr Hne Hidx) as (E & Ei & Hp).
  eexists. split; [unfold process_buffer; rewrite E; reflexivity|]. split; [rewrite map_length; apply seq_length|].
  intros p Hpq. set (j := nth p idx 0).
  assert (Ej : j = pos (b_st b) p).
  { unfold j. rewrite Ei. erewrite nth_error_nth; [reflexivity|]. rewrite nth_error_map_seq. destruct (Nat.ltb_spec p (length q)); [reflexivity|lia]. }
  unfold calibration_of. apply zget_col with (l := seq 0 (length q)). rewrite (nth_error_nth' _ 0), seq_nth; rewrite ?seq_length, ?Ej; auto.
Qed.
(** C148.  So in a buffer that is not full, or whose next write goes to row 0, every row gets its own
    return-to-go. *)
Lemma C148_not_wrapped_lemma : forall (Ob A Inf : Type) (r0 : Qc) radd (last_frame : Ob -> Ob) o n (b : buf Ob A Inf Qc) q rnd idx gamma,
  0 < n -> reach r0 radd last_frame o n b q -> q <> [] -> sample_indices plain b rnd (Some 0%Z) = Ok idx ->
  size (b_st b) < n \/ ins (b_st b) = 0 ->
  exists col, process_buffer true (buf_view b) idx gamma None = Ok (Some col)
    /\ forall p, p < length q -> nth p idx 0 = p /\ calibration_of col p = Ok (return_to_go q gamma p).
Proof.
  intros Ob A Inf r0 radd lf o n b q rnd idx gamma Hn Hr Hne Hidx Hw.
  destruct (C148_column_lemma Ob A Inf r0 radd lf o n b q rnd idx gamma Hn Hr Hne Hidx) as (col & E & L & H).
  exists col. split; [exact E|]. intros p Hp.
  assert (Ep : nth p idx 0 = p).
  { destruct (calibration_ok r0 radd lf o n b q rnd idx gamma Hn Hr Hne Hidx) as (_ & Ei & _). rewrite Ei.
    erewrite nth_error_nth; [|rewrite nth_error_map_seq; destruct (Nat.ltb_spec p (length q)); [reflexivity|lia]].
    pose proof (reach_inv r0 radd lf o n b q Hr Hn) as Hi. pose proof (i_len _ _ _ Hi) as L'. pose proof (i_s _ _ _ Hi) as S.
    destruct S. unfold pos. cbn [Nat.add] in *. destruct (Nat.ltb_spec (ins (b_st b) + p) (size (b_st b))); lia. }
  split; [exact Ep|]. rewrite <- Ep at 1 2. rewrite (H p Hp). rewrite Ep. reflexivity.
Qed.
(** C148.  Once the buffer has wrapped around, rows get the returns of other rows. *)
Lemma C148_wrapped_refuted_lemma : exists n (b : buf nat nat unit Qc) q idx col p, reach 0%Qc Qcplus (fun x => x) plain n b q
  /\ sample_indices plain b (fun _ => 0) (Some 0%Z) = Ok idx /\ process_buffer true (buf_view b) idx 1%Qc None = Ok (Some col)
  /\ p < length q /\ calibration_of col (nth p idx 0) <> Ok (return_to_go q 1%Qc p).
Proof.
  set (ts := [qt 1 true false; qt 2 true false; qt 3 true false]).
  exists 2, (qbuf 2 ts), (qqueue 2 ts). do 2 eexists. exists 0.
  split; [apply qbuf_reach; lia|]. split; [vm_compute; reflexivity|]. split; [vm_compute; reflexivity|]. split; [vm_compute; lia|].
  vm_compute. discriminate.
Qed.
(** C148.  In a vector buffer with a sub-buffer that is not full, a stored row gets the return of a row of
    another sub-buffer, and sampling another one raises. *)
Lemma C148_vector_refuted_lemma : exists (m : mgr nat nat unit Qc) outs idx col, 
  m_run 0%Qc Qcplus (fun x => x) plain (m_init 0%Qc [2; 2]) [MAdd None [qt 1 true false; qt 5 true false]; MAdd (Some [1%Z]) [qt 7 true false]] = Ok (m, outs)
  /\ m_sample_indices plain m (fun _ => 0) (fun _ _ => 0) (Some 0%Z) = Ok idx /\ idx = [0; 2; 3]
  /\ process_buffer true (mgr_view m) idx 1%Qc None = Ok (Some col)
  /\ calibration_of col 2 = Ok (qz 7) /\ calibration_of col 3 = Err IndexError.
Proof.
  do 4 eexists. split; [vm_compute; reflexivity|]. split; [vm_compute; reflexivity|]. split; [reflexivity|]. split; [vm_compute; reflexivity|].
  split; vm_compute; reflexivity.
Qed.
(** C148.  A second trainer on the same buffer raises: the key exists already. *)
Lemma C148_twice_refuted_lemma : forall (Ob A Inf : Type) (b : ibuf Ob A Inf) idx gamma col,
  process_buffer true b idx gamma None = Ok (Some col) -> process_buffer true b idx gamma (Some col) = Err TypeError.
Proof.
  intros Ob A Inf b idx gamma col H. unfold process_buffer in *. destruct (calibration_returns b idx gamma); [reflexivity|discriminate].
Qed.

(** ** Bootstrapping *)
(** The one-step target of a transition whose next state is worth [v]. *)
Definition spec_target (r : Qc) (terminated : bool) (gamma v : Qc) : Qc := if terminated then r else (r + gamma * v)%Qc.

(** C149.  CQL and discrete CRR: without truncation ([done] = [terminated]) the targets bootstrap exactly
    from the next states that are not terminal; a row's target depends on that row only. *)
Lemma C149_targets_lemma : forall alpha gamma,
  (forall batch i r d q lp, nth_error batch i = Some (r, d, q, lp) ->
     nth_error (cql_targets alpha gamma batch) i = Some (spec_target r d gamma (q - alpha * lp)%Qc))
  /\ (forall batch i r d q p, nth_error batch i = Some (r, d, (q, p)) ->
     nth_error (crr_targets gamma batch) i = Some (spec_target r d gamma (qdot q p))).
Proof.
  intros alpha gamma. split.
  - intros batch i r d q lp H. unfold cql_targets. rewrite nth_error_map, H. cbn [option_map]. f_equal. unfold spec_target. destruct d; ring.
  - intros batch i r d q p H. unfold crr_targets. rewrite nth_error_map, H. cbn [option_map]. f_equal. unfold spec_target. destruct d; ring.
Qed.
(** C149.  They use [done], so a step that was only truncated (time limit) gets its reward as target,
    whatever its next state is worth; likewise in BCQ (C150_targets). *)
Lemma C149_truncated_refuted_lemma : forall alpha gamma (r q lp : Qc) (qs ps : list Qc) (term trunc : bool),
  term = false -> trunc = true ->
  cql_targets alpha gamma [(r, term || trunc, q, lp)] = [r] /\ crr_targets gamma [(r, term || trunc, (qs, ps))] = [r]
  /\ ((gamma * (q - alpha * lp))%Qc <> 0%Qc -> cql_targets alpha gamma [(r, term || trunc, q, lp)] <> [spec_target r term gamma (q - alpha * lp)%Qc])
  /\ ((gamma * qdot qs ps)%Qc <> 0%Qc -> crr_targets gamma [(r, term || trunc, (qs, ps))] <> [spec_target r term gamma (qdot qs ps)]).
Proof.
  intros alpha gamma r q lp qs ps term trunc -> ->. cbn [orb spec_target].
  assert (E1 : cql_targets alpha gamma [(r, true, q, lp)] = [r]) by (cbn; f_equal; ring).
  assert (E2 : crr_targets gamma [(r, true, (qs, ps))] = [r]) by (cbn; f_equal; ring).
  split; [exact E1|]. split; [exact E2|]. rewrite E1, E2.
  assert (G : forall x, x <> 0%Qc -> [r] <> [(r + x)%Qc]).
  { intros x Hx E. apply Hx. injection E as E. transitivity (r + x - r)%Qc; [ring|]. rewrite <- E. ring. }
  split; apply G.
Qed.

(** ** BCQ *)
Lemma reshape_repeat {X Y} (f : nat -> X -> Y) n : forall (l : list X) k,
  reshape (length l) n (map (fun x => f (fst x) (snd x)) (combine (seq k (length (repeat_rows n l))) (repeat_rows n l)))
  = map (fun ix => map (fun j => f (k + fst ix * n + j) (snd ix)) (seq 0 n)) (combine (seq 0 (length l)) l).
Proof.
  induction l as [|x l IH]; intro k; [reflexivity|]. unfold repeat_rows. cbn [length flat_map]. fold (repeat_rows n l). cbn [reshape].
  rewrite app_length, repeat_length, seq_app.
  assert (Ec : forall (a b : list nat) (c d : list X), length a = length c -> combine (a ++ b) (c ++ d) = combine a c ++ combine b d).
  { clear. induction a as [|y a IH]; intros b [|z c] d H; try discriminate; [reflexivity|]. cbn [app combine]. rewrite IH; [reflexivity|]. cbn in H. lia. }
  rewrite Ec by (rewrite seq_length, repeat_length; reflexivity). rewrite map_app.
  set (h := map _ (combine (seq k n) (repeat x n))).
  assert (Lh : length h = n) by (unfold h; rewrite map_length, combine_length, seq_length, repeat_length; lia).
  rewrite firstn_app, skipn_app, Lh, Nat.sub_diag, firstn_all2, skipn_all2 by lia. cbn [firstn skipn app]. rewrite app_nil_r.
  rewrite IH. cbn [seq combine map fst snd]. f_equal.
  - unfold h. clear. replace (k + 0 * n) with k by lia.
    assert (G : forall m a, map (fun y : nat * X => f (fst y) (snd y)) (combine (seq (k + a) m) (repeat x m)) = map (fun j => f (k + j) x) (seq a m)).
    { induction m as [|m IH]; intro a; [reflexivity|]. cbn [seq repeat combine map fst snd]. f_equal. rewrite <- IH. do 2 f_equal. f_equal. lia. }
    specialize (G n 0). rewrite Nat.add_0_r in G. exact G.
  - assert (G : forall s m (ll : list X), map (fun ix : nat * X => map (fun j => f (k + n + fst ix * n + j) (snd ix)) (seq 0 n)) (combine (seq s m) ll)
        = map (fun ix : nat * X => map (fun j => f (k + fst ix * n + j) (snd ix)) (seq 0 n)) (combine (seq (S s) m) ll)).
    { clear. intros s m. revert s. induction m as [|m IH]; intros s ll; [reflexivity|]. destruct ll as [|x ll]; [reflexivity|].
      cbn [seq combine map fst snd]. f_equal; [|apply IH]. apply map_ext. intro j. f_equal. lia. }
    apply G.
Qed.

(** C150.  The target of every row: its reward plus, unless it is done, the discounted maximum over the
    actions sampled for its own next observation. *)
Lemma C150_targets_lemma : forall (Ob A : Type) (q1 q2 : Ob -> A -> Qc) (decode : nat -> Ob -> A) num lmbda gamma batch i r d s,
  nth_error batch i = Some (r, d, s) ->
  nth_error (bcq_targets q1 q2 decode num lmbda gamma batch) i
  = Some (spec_target r d gamma (maxl (map (fun j => let a := decode (i * num + j) s in clipped lmbda (q1 s a) (q2 s a)) (seq 0 num)))).
Proof.
  intros Ob A q1 q2 decode num lmbda gamma batch i r d s H. unfold bcq_targets.
  pose proof (reshape_repeat (fun k o => let a := decode k o in clipped lmbda (q1 o a) (q2 o a)) num (map snd batch) 0) as R.
  rewrite map_length in R.
  rewrite (map_ext _ (fun x => (fun k o => let a := decode k o in clipped lmbda (q1 o a) (q2 o a)) (fst x) (snd x))) by (intros []; reflexivity).
  rewrite R. clear R.
  assert (Li : i < length batch) by (apply nth_error_Some; congruence).
  rewrite nth_error_map, nth_error_combine, H, !nth_error_map, nth_error_combine, nth_error_map, H.
  rewrite (nth_error_nth' (seq 0 (length batch)) 0) by (rewrite seq_length; exact Li). rewrite seq_nth by exact Li. cbn [option_map fst snd Nat.add].
  unfold spec_target. destruct d; f_equal; ring.
Qed.
(** C150.  Soft clipped double Q-learning: for [lmbda] in [0, 1] the value is between the smaller and the
    larger one, and the smaller one for [lmbda = 1]. *)
Lemma C150_clipped_lemma : forall lmbda x y, (0 <= lmbda)%Qc -> (lmbda <= 1)%Qc ->
  (Qcminb x y <= clipped lmbda x y)%Qc /\ (clipped lmbda x y <= Qcmaxb x y)%Qc /\ clipped lmbda x y = clipped lmbda y x /\ clipped 1 x y = Qcminb x y.
Proof.
  intros lmbda x y H0 H1. unfold clipped, Qcminb, Qcmaxb.
  destruct (Qcleb_spec x y) as [L|L], (Qcleb_spec y x) as [L'|L']; repeat split; try qcnra; try ring; try (exfalso; qclra).
Qed.
(** C150.  [forward] returns one of the candidate actions, with the highest value. *)
Lemma C150_forward_lemma : forall (Ob A : Type) (q : Ob -> A -> Qc) s acts d, acts <> [] ->
  In (bcq_forward q s acts d) acts /\ forall a, In a acts -> (q s a <= q s (bcq_forward q s acts d))%Qc.
Proof.
  intros Ob A q s acts d H. unfold bcq_forward.
  destruct (argmax_spec (map (q s) acts)) as (v & Hv & Hm); [destruct acts; [contradiction|discriminate]|].
  rewrite nth_error_map in Hv. destruct (nth_error acts (argmax (map (q s) acts))) as [a|] eqn:E; [|discriminate].
  injection Hv as <-. rewrite (nth_error_nth _ _ _ E). split; [apply (nth_error_In _ _ E)|].
  intros b Hb. apply Hm. apply in_map. exact Hb.
Qed.

(** ** The conservative term of CQL *)
Lemma repeat_rows_nth {X} n (l : list X) i k x : nth_error l i = Some x -> k < n -> nth_error (repeat_rows n l) (i * n + k) = Some x.
Proof.
  revert i. induction l as [|y l IH]; intros [|i] H Hk; try discriminate; unfold repeat_rows; cbn [flat_map]; fold (repeat_rows n l).
  - injection H as <-. rewrite nth_error_app1 by (rewrite repeat_length; lia). apply nth_error_repeat. exact Hk.
  - rewrite nth_error_app2 by (rewrite repeat_length; lia). rewrite repeat_length. replace (S i * n + k - n) with (i * n + k) by lia. apply IH; auto.
Qed.
(** C151.  With calibration every value of row [i] is replaced by its maximum with the return of row [i]. *)
Lemma C151_rows_lemma : forall n rets random current next i k r x y z,
  nth_error rets i = Some r -> k < n ->
  nth_error random (i * n + k) = Some x -> nth_error current (i * n + k) = Some y -> nth_error next (i * n + k) = Some z ->
  nth_error (cat_q n (Some rets) random current next) (i * n + k) = Some [Qcmaxb x r; Qcmaxb y r; Qcmaxb z r]
  /\ nth_error (cat_q n None random current next) (i * n + k) = Some [x; y; z].
Proof.
  intros n rets random current next i k r x y z Hr Hk Hx Hy Hz. unfold cat_q, calibrate_with.
  rewrite !nth_error_map, !nth_error_combine, !nth_error_map, !nth_error_combine, (repeat_rows_nth n rets i k r Hr Hk), Hx, Hy, Hz.
  split; reflexivity.
Qed.

Lemma qsum_map_lt {X} (f g : X -> Qc) l : l <> [] -> (forall x, In x l -> (f x < g x)%Qc) -> (qsum (map f l) < qsum (map g l))%Qc.
Proof.
  intros Hne H. destruct l as [|x0 l]; [contradiction|]. clear Hne. revert x0 H. induction l as [|y l IH]; intros x0 H.
  - cbn. specialize (H x0 (or_introl eq_refl)). qclra.
  - cbn [map qsum]. specialize (IH y (fun x Hx => H x (or_intror Hx))). cbn [map qsum] in IH. pose proof (H x0 (or_introl eq_refl)). qclra.
Qed.
Lemma sq0 : sq 0 = 0%Qc.
Proof. apply Qc_is_canon. vm_compute. reflexivity. Qed.
Lemma qsum_const (c : Qc) n : qsum (repeat c n) = (sq n * c)%Qc.
Proof. induction n as [|n IH]; [rewrite ?sq0; cbn [repeat qsum Nat.mul]; rewrite ?sq0; ring|]. cbn [repeat qsum]. rewrite IH, sq_S. ring. Qed.
Lemma qsum_flat {X} (f : X -> list Qc) l : qsum (flat_map f l) = qsum (map (fun x => qsum (f x)) l).
Proof. induction l as [|x l IH]; [reflexivity|]. cbn [flat_map map qsum]. rewrite qsum_app, IH. reflexivity. Qed.
Lemma sq_mult a b : sq (a * b) = (sq a * sq b)%Qc.
Proof. induction a as [|a IH]; [rewrite ?sq0; cbn [repeat qsum Nat.mul]; rewrite ?sq0; ring|]. cbn [Nat.mul]. rewrite sq_plus, IH, sq_S. ring. Qed.
Lemma qsum_scale_r (c : Qc) l : qsum (map (fun x => (x * c)%Qc) l) = (qsum l * c)%Qc.
Proof. induction l as [|x l IH]; cbn [map qsum]; [ring|]. rewrite IH. ring. Qed.

Lemma repeat_const {X Y} (c : Y) (l : list X) : repeat c (length l) = map (fun _ => c) l.
Proof. induction l as [|x l IH]; [reflexivity|]. cbn [length repeat map]. rewrite IH. reflexivity. Qed.
Lemma qsum_concat {X} (g : X -> Qc) rows : qsum (map g (concat rows)) = qsum (map (fun row => qsum (map g row)) rows).
Proof. induction rows as [|r rows IH]; [reflexivity|]. cbn [concat map qsum]. rewrite map_app, qsum_app, IH. reflexivity. Qed.
Lemma qsum_scale_l {X} c (g : X -> Qc) l : qsum (map (fun x => (c * g x)%Qc) l) = (c * qsum (map g l))%Qc.
Proof. induction l as [|x l IH]; cbn [map qsum]; [ring|]. rewrite IH. ring. Qed.
(** A batch: for each row, [n] triples (random, current, next). *)
Definition triples (rows : list (list (Qc * Qc * Qc))) : list (Qc * Qc * Qc) := concat rows.
Definition row_values (row : list (Qc * Qc * Qc)) : list Qc :=
  map (fun t => fst (fst t)) row ++ map (fun t => snd (fst t)) row ++ map snd row.
Lemma row_values_perm row t : In t row -> exists rest, Permutation (row_values row) ([fst (fst t); snd (fst t); snd t] ++ rest) /\ length rest + 3 = 3 * length row.
Proof.
  intro H. apply in_split in H. destruct H as (a & b & ->). exists (row_values (a ++ b)). split.
  - unfold row_values. rewrite !map_app. cbn [map]. cbn [app].
    set (x := fst (fst t)). set (y := snd (fst t)). set (z := snd t).
    set (a1 := map (fun t => fst (fst t)) a). set (b1 := map (fun t => fst (fst t)) b).
    set (a2 := map (fun t => snd (fst t)) a). set (b2 := map (fun t => snd (fst t)) b).
    set (a3 := map snd a). set (b3 := map snd b). clearbody x y z a1 b1 a2 b2 a3 b3.
    assert (M : forall (v : Qc) p r, Permutation (p ++ v :: r) (v :: p ++ r)) by (intros; apply Permutation_sym, Permutation_middle).
    transitivity ((x :: a1 ++ b1) ++ (y :: a2 ++ b2) ++ (z :: a3 ++ b3)).
    + apply Permutation_app; [apply M|]. apply Permutation_app; apply M.
    + cbn [app]. apply perm_skip. etransitivity; [apply M|]. apply perm_skip. rewrite app_assoc. etransitivity; [apply M|]. apply perm_skip.
      rewrite <- app_assoc. reflexivity.
  - unfold row_values. rewrite !app_length, !map_length, !app_length. cbn [length]. lia.
Qed.

Section Lse.
Variable lse : list Qc -> Qc.
Hypothesis lse_perm : forall l l', Permutation l l' -> lse l = lse l'.
Hypothesis lse_more : forall l m, m <> [] -> (lse l < lse (l ++ m))%Qc.
Variable temp : Qc.
Notation sc l := (map (fun x => (x / temp)%Qc) l).

Lemma lse_row row t : In t row -> 2 <= length row ->
  (lse (sc [fst (fst t); snd (fst t); snd t]) < lse (sc (row_values row)))%Qc.
Proof.
  intros H L. destruct (row_values_perm row t H) as (rest & P & Lr).
  rewrite (lse_perm _ _ (Permutation_map (fun x => (x / temp)%Qc) P)), map_app. apply lse_more. destruct rest; [cbn in Lr; lia|discriminate].
Qed.

Lemma mean_rows_lt n rows : 2 <= n -> rows <> [] -> Forall (fun row => length row = n) rows ->
  (np_mean (map (fun t => lse (sc [fst (fst t); snd (fst t); snd t])) (concat rows)) < np_mean (map (fun row => lse (sc (row_values row))) rows))%Qc.
Proof.
  intros Hn Hne F.
  assert (S1 : (qsum (map (fun t => lse (sc [fst (fst t); snd (fst t); snd t])) (concat rows)) < sq n * qsum (map (fun row => lse (sc (row_values row))) rows))%Qc).
  { assert (E1 : qsum (map (fun t => lse (sc [fst (fst t); snd (fst t); snd t])) (concat rows))
                 = qsum (map (fun row => qsum (map (fun t => lse (sc [fst (fst t); snd (fst t); snd t])) row)) rows)).
    { apply qsum_concat. }
    assert (E2 : (sq n * qsum (map (fun row => lse (sc (row_values row))) rows) = qsum (map (fun row => sq n * lse (sc (row_values row))) rows))%Qc).
    { symmetry. apply qsum_scale_l. }
    rewrite E1, E2. apply qsum_map_lt; [exact Hne|]. intros row Hr. rewrite Forall_forall in F. specialize (F row Hr).
    rewrite <- F. rewrite <- (qsum_const (lse (sc (row_values row))) (length row)).
    assert (Er : repeat (lse (sc (row_values row))) (length row) = map (fun _ => lse (sc (row_values row))) row) by apply repeat_const.
    rewrite Er. apply qsum_map_lt.
    - destruct row; [cbn in F; lia|discriminate].
    - intros t Ht. apply lse_row; [exact Ht|lia]. }
  assert (L : length (concat rows) = length rows * n).
  { clear - F. induction F as [|r rows Hr F IH]; [reflexivity|]. cbn [concat length]. rewrite app_length, IH, Hr. lia. }
  assert (P1 : (0 < sq n)%Qc) by (apply sq_pos; lia). assert (P2 : (0 < sq (length rows))%Qc) by (apply sq_pos; destruct rows; [contradiction|cbn; lia]).
  assert (M1 := mean_eq (map (fun t => lse (sc [fst (fst t); snd (fst t); snd t])) (concat rows))).
  assert (M2 := mean_eq (map (fun row => lse (sc (row_values row))) rows)).
  rewrite !map_length in M1, M2. rewrite L, sq_mult in M1.
  assert (N1 : map (fun t => lse (sc [fst (fst t); snd (fst t); snd t])) (concat rows) <> []).
  { intro E. apply (f_equal (@length Qc)) in E. rewrite map_length, L in E. cbn in E. destruct rows; [contradiction|cbn in E; lia]. }
  assert (N2 : map (fun row => lse (sc (row_values row))) rows <> []) by (destruct rows; [contradiction|discriminate]).
  specialize (M1 N1). specialize (M2 N2). rewrite <- M1, <- M2 in S1.
  match goal with |- (?a < ?b)%Qc => set (m1 := a) in *; set (m2 := b) in * end. clearbody m1 m2. clear - S1 P1 P2.
  destruct (Qclt_le_dec m1 m2) as [G|G]; [exact G|]. exfalso.
  assert (0 < sq (length rows) * sq n)%Qc by qcnra. set (w := (sq (length rows) * sq n)%Qc) in *.
  assert (E : (sq n * (m2 * sq (length rows)) = m2 * w)%Qc) by (unfold w; ring). rewrite E in S1. clearbody w. clear E. qcnra.
Qed.
End Lse.

Lemma cat_q_triples (t : list (Qc * Qc * Qc)) n :
  cat_q n None (map (fun t => fst (fst t)) t) (map (fun t => snd (fst t)) t) (map snd t) = map (fun t => [fst (fst t); snd (fst t); snd t]) t.
Proof. unfold cat_q, calibrate_with. induction t as [|x t IH]; [reflexivity|]. cbn [map combine fst snd]. rewrite IH. reflexivity. Qed.

(** C151.  The comment "shape: (batch_size, 3 * num_repeat, 1)": the log-sum-exp of a row should run over all its
    [3 n] values.  The result of [reshape] is dropped, so it runs over three values at a time; with
    [n >= 2] repetitions the term is strictly smaller for every batch, for any log-sum-exp that is
    symmetric and grows with every further value. *)
Lemma C151_reshape_refuted_lemma : forall (lse : list Qc -> Qc) temp weight n (rows : list (list (Qc * Qc * Qc))) current_q,
  (forall l l', Permutation l l' -> lse l = lse l') -> (forall l m, m <> [] -> (lse l < lse (l ++ m))%Qc) ->
  (0 < temp)%Qc -> (0 < weight)%Qc -> 2 <= n -> rows <> [] -> Forall (fun row => length row = n) rows ->
  let t := concat rows in
  (cql_term lse temp weight n None (map (fun t => fst (fst t)) t) (map (fun t => snd (fst t)) t) (map snd t) current_q
   < np_mean (map (fun row => lse (map (fun x => x / temp) (row_values row))) rows) * weight * temp - np_mean current_q * weight)%Qc.
Proof.
  intros lse temp weight n rows cq Hp Hm Ht Hw Hn Hne F t. unfold cql_term. rewrite cat_q_triples, map_map.
  pose proof (mean_rows_lt lse Hp Hm temp n rows Hn Hne F) as L. fold t in L.
  match type of L with (?a < ?b)%Qc => set (m1 := a) in *; set (m2 := b) in * end. clearbody m1 m2. set (c := (np_mean cq * weight)%Qc). clearbody c. clear - L Ht Hw.
  assert (0 < weight * temp)%Qc by qcnra.
  assert (E1 : (m1 * weight * temp = m1 * (weight * temp))%Qc) by ring. assert (E2 : (m2 * weight * temp = m2 * (weight * temp))%Qc) by ring.
  rewrite E1, E2. set (w := (weight * temp)%Qc) in *. clearbody w. qcnra.
Qed.
(** C151.  With a single repetition they agree. *)
Lemma C151_single_lemma : forall (lse : list Qc -> Qc) temp weight (rows : list (Qc * Qc * Qc)) current_q,
  cql_term lse temp weight 1 None (map (fun t => fst (fst t)) rows) (map (fun t => snd (fst t)) rows) (map snd rows) current_q
  = (np_mean (map (fun row => lse (map (fun x => x / temp) (row_values [row]))) rows) * weight * temp - np_mean current_q * weight)%Qc.
Proof. intros. unfold cql_term. rewrite cat_q_triples, map_map. reflexivity. Qed.
(** C151.  The multiplier stays between its bounds. *)
Lemma C151_alpha_lemma : forall e lo hi, (lo <= hi)%Qc -> (lo <= cql_alpha e lo hi)%Qc /\ (cql_alpha e lo hi <= hi)%Qc
  /\ ((lo <= e)%Qc -> (e <= hi)%Qc -> cql_alpha e lo hi = e).
Proof.
  intros e lo hi H. unfold cql_alpha, Qcminb, Qcmaxb. destruct (Qcleb_spec e lo), (Qcleb_spec lo hi), (Qcleb_spec e hi); repeat split; intros; try qclra; try reflexivity;
    try (exfalso; qclra); apply Qcle_antisym; qclra.
Qed.

(** C152.  The random actions: an error if [-min > max], otherwise between [-min] and [max]. *)
Lemma C152_range_lemma : forall lo hi u, Forall (fun x => (0 <= x)%Qc /\ (x < 1)%Qc) u ->
  ((hi < - lo)%Qc -> cql_random_actions lo hi u = Err RuntimeError)
  /\ ((- lo <= hi)%Qc -> exists l, cql_random_actions lo hi u = Ok l /\ length l = length u /\ Forall (fun x => (- lo <= x)%Qc /\ (x <= hi)%Qc) l).
Proof.
  intros lo hi u F. unfold cql_random_actions, uniform. split; intro H.
  - destruct (Qcltb_spec hi (- lo)) as [_|G]; [reflexivity|exfalso; qclra].
  - destruct (Qcltb_spec hi (- lo)) as [G|_]; [exfalso; qclra|]. eexists. split; [reflexivity|]. split; [apply map_length|].
    rewrite Forall_map. eapply Forall_impl; [|exact F]. cbn beta. intros x [H0 H1]. split; qcnra.
Qed.
(** C152.  For every symmetric range (the default is [-1, 1]) all "random" actions are the largest one,
    whatever is drawn. *)
Lemma C152_constant_refuted_lemma : forall hi u, cql_random_actions (- hi)%Qc hi u = Ok (map (fun _ => hi) u).
Proof.
  intros hi u. unfold cql_random_actions, uniform. replace (- - hi)%Qc with hi by ring.
  destruct (Qcltb_spec hi hi) as [G|_]; [exfalso; qclra|]. f_equal. apply map_ext. intro x. ring.
Qed.

(** ** Discrete BCQ *)
Lemma maxl_spec l : l <> [] -> In (maxl l) l /\ forall x, In x l -> (x <= maxl l)%Qc.
Proof.
  destruct l as [|x l]; [contradiction|]. intros _. unfold maxl.
  assert (G : forall l x, (In (fold_left Qcmaxb l x) (x :: l)) /\ (x <= fold_left Qcmaxb l x)%Qc /\ forall y, In y l -> (y <= fold_left Qcmaxb l x)%Qc).
  { clear. induction l as [|y l IH]; intro x; cbn [fold_left]; [split; [now left|]; split; [qclra|intros y []]|].
    destruct (IH (Qcmaxb x y)) as (I1 & I2 & I3).
    assert (M : (x <= Qcmaxb x y)%Qc /\ (y <= Qcmaxb x y)%Qc /\ (Qcmaxb x y = x \/ Qcmaxb x y = y)).
    { unfold Qcmaxb. destruct (Qcleb_spec x y); repeat split; try qclra; auto. }
    destruct M as (M1 & M2 & M3). split; [|split].
    - destruct I1 as [E | I1]; [rewrite <- E; destruct M3 as [-> | ->]; [now left | right; now left] | right; now right].
    - qclra.
    - intros z [<- | Hz]; [qclra | auto]. }
  destruct (G l x) as (I1 & I2 & I3). split; [exact I1|]. intros y [<- | Hy]; auto.
Qed.

(** C153.  If no two values differ by INF or more, the chosen action is likely for the imitator and has the
    highest value among the likely ones; such actions exist for every threshold below 1. *)
Lemma C153_likely_lemma : forall INF t q logits, length q = length logits -> q <> [] -> (t <= 0)%Qc ->
  (forall x y, In x q -> In y q -> (x - y < INF)%Qc) ->
  let likely i := exists x, nth_error logits i = Some x /\ (t <= x - maxl logits)%Qc in
  let a := dbcq_act INF (Some t) q logits in
  (exists i, likely i) /\ a < length q /\ likely a /\ forall i x, likely i -> nth_error q i = Some x -> exists y, nth_error q a = Some y /\ (x <= y)%Qc.
Proof.
  intros INF t q logits L Hne Ht Hr likely a.
  assert (Hl : logits <> []) by (intros E; rewrite E in L; destruct q; [contradiction|discriminate]).
  destruct (maxl_spec logits Hl) as [Mi Mx].
  set (v := map (fun x : Qc * bool => (fst x - INF * (if snd x then 1 else 0))%Qc) (combine q (dbcq_mask (Some t) logits))).
  assert (Lm : length (dbcq_mask (Some t) logits) = length logits) by apply map_length.
  assert (V : forall i x z, nth_error q i = Some x -> nth_error logits i = Some z ->
     nth_error v i = Some (if Qcltb (z - maxl logits)%Qc t then x - INF else x)%Qc).
  { intros i x z Hx Hz. unfold v. rewrite nth_error_map, nth_error_combine, Hx. unfold dbcq_mask. rewrite nth_error_map, Hz. cbn [option_map fst snd].
    f_equal. destruct (Qcltb _ _); ring. }
  assert (Lv : length v = length q) by (unfold v; rewrite map_length, combine_length; lia).
  destruct (argmax_spec v) as (m & Ea & Hm); [intros E; rewrite E in Lv; destruct q; [contradiction|discriminate]|].
  fold a in Ea. change (argmax v) with a in Ea.
  assert (La : a < length q) by (rewrite <- Lv; apply nth_error_Some; congruence).
  assert (Ex : exists i, likely i).
  { apply In_nth_error in Mi. destruct Mi as [i Ei]. exists i. exists (maxl logits). split; [exact Ei|]. qclra. }
  split; [exact Ex|]. split; [exact La|].
  destruct (nth_error q a) as [x|] eqn:Ex'; [|apply nth_error_None in Ex'; lia].
  destruct (nth_error logits a) as [z|] eqn:Ez; [|apply nth_error_None in Ez; lia].
  rewrite (V a x z Ex' Ez) in Ea. injection Ea as Ea.
  assert (Good : forall i y, likely i -> nth_error q i = Some y -> (y <= m)%Qc).
  { intros i y (z' & Hz' & Hz'') Hy. apply Hm. apply (nth_error_In _ i). rewrite (V i y z' Hy Hz'). f_equal. destruct (Qcltb_spec (z' - maxl logits) t) as [G|G]; [exfalso; qclra|reflexivity]. }
  assert (Lk : likely a).
  { exists z. split; [exact Ez|]. destruct (Qcltb_spec (z - maxl logits) t) as [G|G]; [|qclra]. exfalso.
    destruct Ex as (i & Hi). destruct (nth_error q i) as [y|] eqn:Ey.
    - pose proof (Good i y Hi Ey). pose proof (Hr x y (nth_error_In _ _ Ex') (nth_error_In _ _ Ey)). rewrite <- Ea in H. qclra.
    - destruct Hi as (z' & Hz' & _). apply nth_error_None in Ey. assert (i < length logits) by (apply nth_error_Some; congruence). lia. }
  split; [exact Lk|]. intros i y Hi Hy. exists x. split; [reflexivity|].
  pose proof (Good i y Hi Hy) as G. destruct Lk as (z' & Hz' & Hz''). rewrite Ez in Hz'. injection Hz' as <-.
  destruct (Qcltb_spec (z - maxl logits) t) as [H|H]; [exfalso; qclra|]. rewrite Ea. exact G.
Qed.
(** C153.  Without the bound on the values an unlikely action can be chosen. *)
Lemma C153_large_values_refuted_lemma : forall INF, (0 <= INF)%Qc -> exists q logits t, (t <= 0)%Qc /\ length q = length logits /\
  exists x, nth_error logits (dbcq_act INF (Some t) q logits) = Some x /\ (x - maxl logits < t)%Qc.
Proof.
  intros INF H. exists [0%Qc; (INF + 1)%Qc], [0%Qc; (- Q2Qc (2#1))%Qc], (- (1))%Qc. split; [qclra|]. split; [reflexivity|].
  assert (E : maxl [0%Qc; (- Q2Qc (2#1))%Qc] = 0%Qc) by (apply Qc_is_canon; vm_compute; reflexivity).
  assert (A : dbcq_act INF (Some (- (1))%Qc) [0%Qc; (INF + 1)%Qc] [0%Qc; (- Q2Qc (2#1))%Qc] = 1).
  { unfold dbcq_act, dbcq_mask. rewrite E. cbn [map combine fst snd].
    destruct (Qcltb_spec (0 - 0) (- (1))) as [G|_]; [exfalso; qclra|].
    destruct (Qcltb_spec (- Q2Qc (2#1) - 0) (- (1))) as [_|G].
    2:{ exfalso. revert G. vm_compute. intros G. apply G. reflexivity. }
    cbn [argmax argmax_from]. destruct (Qcltb_spec (0 - INF * 0) (INF + 1 - INF * 1)) as [_|G]; [reflexivity|exfalso; qclra]. }
  rewrite A, E. exists (- Q2Qc (2#1))%Qc. split; [reflexivity|]. vm_compute. reflexivity.
Qed.

(** ** TD3+BC *)
Lemma qsum_abs_bound l : (- qsum (map qc_abs l) <= qsum l)%Qc /\ (qsum l <= qsum (map qc_abs l))%Qc /\ (0 <= qsum (map qc_abs l))%Qc.
Proof.
  induction l as [|x l (I1 & I2 & I3)]; [cbn; repeat split; qclra|]. cbn [map qsum]. unfold qc_abs at 1 3 5.
  destruct (Qcltb_spec x 0); repeat split; qclra.
Qed.
Lemma qsum_abs_zero l : qsum (map qc_abs l) = 0%Qc -> Forall (fun x => x = 0%Qc) l.
Proof.
  induction l as [|x l IH]; intro H; [constructor|]. cbn [map qsum] in H. pose proof (qsum_abs_bound l) as (_ & _ & N).
  assert (A : (0 <= qc_abs x)%Qc) by (unfold qc_abs; destruct (Qcltb_spec x 0); qclra).
  assert (qc_abs x = 0%Qc) by (apply Qcle_antisym; qclra). assert (qsum (map qc_abs l) = 0%Qc) by (apply Qcle_antisym; qclra).
  constructor; [|auto]. unfold qc_abs in H0. destruct (Qcltb_spec x 0); [|exact H0]. transitivity (- - x)%Qc; [ring|]. rewrite H0. ring.
Qed.
(** C154.  The normalised value term of TD3+BC lies in [-alpha, alpha], does not depend on the scale of the
    critic, and is undefined (NaN) exactly when the critic is 0 on the whole batch. *)
Lemma C154_bounded_lemma : forall alpha q, (0 <= alpha)%Qc -> q <> [] ->
  (td3bc_term alpha q = None <-> Forall (fun x => x = 0%Qc) q)
  /\ forall v, td3bc_term alpha q = Some v -> (- alpha <= v)%Qc /\ (v <= alpha)%Qc
       /\ forall c, (0 < c)%Qc -> td3bc_term alpha (map (fun x => (c * x)%Qc) q) = Some v.
Proof.
  intros alpha q Ha Hne. unfold td3bc_term.
  assert (Hn : (0 < sq (length q))%Qc) by (apply sq_pos; destruct q; [contradiction|cbn; lia]).
  assert (M1 := mean_eq (map qc_abs q)). rewrite map_length in M1. specialize (M1 ltac:(destruct q; [contradiction|discriminate])).
  assert (M2 := mean_eq q Hne). pose proof (qsum_abs_bound q) as (B1 & B2 & B3). rewrite <- M1, <- M2 in B1, B2. rewrite <- M1 in B3.
  set (m := np_mean (map qc_abs q)) in *. set (s := sq (length q)) in *.
  split.
  - destruct (Qceqb_spec m 0) as [E|E]; split; intro H; try reflexivity; try discriminate.
    + apply qsum_abs_zero. rewrite <- M1, E. ring.
    + exfalso. apply E. assert (Z : qsum (map qc_abs q) = 0%Qc).
      { clear - H. induction H as [|x l -> F IH]; [reflexivity|]. cbn [map qsum]. rewrite IH. apply Qc_is_canon. vm_compute. reflexivity. }
      rewrite Z in M1. assert (sN : s <> 0%Qc) by (intros F; rewrite F in Hn; qclra).
      apply (Qc_cancel m 0 s sN). rewrite M1. ring.
  - intros v Hv. destruct (Qceqb_spec m 0) as [E|E]; [discriminate|]. injection Hv as <-.
    assert (Hm : (0 < m)%Qc). { destruct (Qclt_le_dec 0 m) as [G|G]; [exact G|]. exfalso. destruct (Qc_eq_dec m 0) as [F|F]; [contradiction|].
      assert (m < 0)%Qc by (apply Qcle_lt_or_eq in G; destruct G; [assumption|contradiction]). clear - B3 Hn H. qcnra. }
    set (mq := np_mean q) in *.
    assert (C1 : (- m <= mq)%Qc). { destruct (Qclt_le_dec mq (- m)) as [G|G]; [|exact G]. exfalso. clear - B1 G Hn. qcnra. }
    assert (C2 : (mq <= m)%Qc). { destruct (Qclt_le_dec m mq) as [G|G]; [|exact G]. exfalso. clear - B2 G Hn. qcnra. }
    set (r := (mq / m)%Qc). assert (Er : (r * m = mq)%Qc) by (unfold r; field; exact E).
    assert (R1 : (- (1) <= r)%Qc). { destruct (Qclt_le_dec r (- (1))) as [G|G]; [|exact G]. exfalso. clear - Er G Hm C1. qcnra. }
    assert (R2 : (r <= 1)%Qc). { destruct (Qclt_le_dec 1 r) as [G|G]; [|exact G]. exfalso. clear - Er G Hm C2. qcnra. }
    assert (Ev : (- (alpha / m) * mq = - (alpha * r))%Qc) by (unfold r; field; exact E).
    rewrite Ev. split; [clear - R2 Ha R1; qcnra|]. split; [clear - R2 Ha R1; qcnra|].
    intros c Hc.
    assert (S1 : np_mean (map qc_abs (map (fun x => (c * x)%Qc) q)) = (c * m)%Qc).
    { unfold m, np_mean. rewrite !map_length. fold s.
      assert (Z : qsum (map qc_abs (map (fun x => (c * x)%Qc) q)) = (c * qsum (map qc_abs q))%Qc).
      { clear - Hc. induction q as [|x l IH]; cbn [map qsum]; [ring|]. rewrite IH.
        assert (Za : qc_abs (c * x)%Qc = (c * qc_abs x)%Qc). { unfold qc_abs. destruct (Qcltb_spec (c * x) 0), (Qcltb_spec x 0); try ring; exfalso; qcnra. }
        rewrite Za. ring. }
      rewrite Z. unfold Qcdiv. ring. }
    assert (S2 : np_mean (map (fun x => (c * x)%Qc) q) = (c * mq)%Qc).
    { unfold mq, np_mean. rewrite map_length. fold s.
      assert (Z : qsum (map (fun x => (c * x)%Qc) q) = (c * qsum q)%Qc) by (clear; induction q as [|x l IH]; cbn [map qsum]; [ring|]; rewrite IH; ring).
      rewrite Z. unfold Qcdiv. ring. }
    rewrite S1, S2. assert (Hc0 : c <> 0%Qc) by (intros F; rewrite F in Hc; qclra).
    destruct (Qceqb_spec (c * m) 0) as [F|F]; [exfalso; clear - F Hm Hc; assert (0 < c * m)%Qc by qcnra; rewrite F in H; qclra|].
    f_equal. unfold r. field. auto.
Qed.

(** ** CRR *)
(** C155.  The advantages of the actions average to zero under the policy. *)
Lemma C155_centred_lemma : forall q probs, length q = length probs -> qsum probs = 1%Qc ->
  qdot (map (crr_advantage q probs) (seq 0 (length q))) probs = 0%Qc.
Proof.
  intros q probs L S. unfold crr_advantage. set (v := qdot q probs).
  assert (E : map (fun a => (nth a q 0 - v)%Qc) (seq 0 (length q)) = map (fun x => (x - v)%Qc) q).
  { clearbody v. clear. assert (G : forall k (pre : list Qc), length pre = k -> map (fun a => (nth a (pre ++ q) 0 - v)%Qc) (seq k (length q)) = map (fun x => (x - v)%Qc) q).
    { induction q as [|x q IH]; intros k pre Hk; [reflexivity|]. cbn [length seq map]. f_equal.
      - rewrite app_nth2 by lia. rewrite Hk, Nat.sub_diag. reflexivity.
      - specialize (IH (Datatypes.S k) (pre ++ [x])). rewrite <- app_assoc in IH. apply IH. rewrite app_length. cbn. lia. }
    exact (G 0 [] eq_refl). }
  rewrite E. assert (G : qdot (map (fun x => (x - v)%Qc) q) probs = (qdot q probs - v * qsum probs)%Qc).
  { clear S E. unfold qdot. clearbody v. revert probs L. induction q as [|x q IH]; intros [|p probs] L; try discriminate; cbn [map combine qsum fst snd]; [ring|].
    rewrite IH by (cbn in L; lia). ring. }
  rewrite G, S. fold v. ring.
Qed.
(** C155.  The weights are between 0 and the bound and never decrease with the advantage. *)
Lemma C155_weights_lemma : forall exp beta bound m adv adv', (forall x y, (x <= y)%Qc -> (exp x <= exp y)%Qc) -> (0 < beta)%Qc -> (1 <= bound)%Qc ->
  (0 <= crr_coef exp beta bound m adv)%Qc /\ (crr_coef exp beta bound m adv <= bound)%Qc
  /\ ((adv <= adv')%Qc -> (crr_coef exp beta bound m adv <= crr_coef exp beta bound m adv')%Qc)
  /\ (m = CrrBinary -> crr_coef exp beta bound m adv = 1%Qc <-> (0 < adv)%Qc).
Proof.
  intros exp beta bound m adv adv' He Hb Hu.
  assert (D : (adv <= adv')%Qc -> (exp (adv / beta)%Qc <= exp (adv' / beta)%Qc)%Qc).
  { intro H. apply He. assert (Hz : beta <> 0%Qc) by (intros E; rewrite E in Hb; qclra).
    assert (E1 : (adv / beta * beta = adv)%Qc) by (field; exact Hz). assert (E2 : (adv' / beta * beta = adv')%Qc) by (field; exact Hz).
    set (a := (adv / beta)%Qc) in *. set (b := (adv' / beta)%Qc) in *. clearbody a b.
    destruct (Qclt_le_dec b a) as [G|G]; [|exact G]. exfalso. subst adv adv'. clear Hz. qcnra. }
  destruct m; cbn [crr_coef].
  - set (x := exp (adv / beta)%Qc) in *. set (y := exp (adv' / beta)%Qc) in *. clearbody x y. unfold Qcminb, Qcmaxb.
    repeat split; intros; try discriminate; try (specialize (D H));
      destruct (Qcleb_spec x 0); destruct (Qcleb_spec y 0); repeat (match goal with |- context [Qcleb ?a ?b] => destruct (Qcleb_spec a b) end); try qclra.
  - destruct (Qcltb_spec 0 adv), (Qcltb_spec 0 adv'); repeat split; intros; try qclra; try reflexivity; try discriminate; try (exfalso; qclra).
  - repeat split; intros; try qclra; try discriminate.
Qed.

(** C156.  In the modes "binary" and "exp" the actor loss is the mean of the weights times the mean of the
    negated log probabilities: the weight of one transition multiplies the log probabilities of all of them. *)
Lemma C156_product_refuted_lemma : forall logp coef, logp <> [] -> coef <> [] ->
  crr_actor_loss logp (Some coef) = (np_mean coef * np_mean (map Qcopp logp))%Qc
  /\ forall coef', Permutation coef coef' -> crr_actor_loss logp (Some coef') = crr_actor_loss logp (Some coef).
Proof.
  intros logp coef Hl Hc.
  assert (G : forall c, c <> [] -> crr_actor_loss logp (Some c) = (np_mean c * np_mean (map Qcopp logp))%Qc).
  { clear coef Hc. intros c Hc. unfold crr_actor_loss.
    set (x := flat_map (fun w => map (fun lp => (- lp * w)%Qc) logp) c).
    assert (Lx : length x = length c * length logp).
    { unfold x. clear. induction c as [|w c IH]; [reflexivity|]. cbn [flat_map length]. rewrite app_length, map_length, IH. lia. }
    assert (Sx : qsum x = (qsum c * qsum (map Qcopp logp))%Qc).
    { unfold x. clear. induction c as [|w c IH]; cbn [flat_map qsum]; [ring|]. rewrite qsum_app, IH.
      assert (E : qsum (map (fun lp => (- lp * w)%Qc) logp) = (qsum (map Qcopp logp) * w)%Qc) by (rewrite <- qsum_scale_r, map_map; reflexivity).
      rewrite E. ring. }
    assert (Nc : sq (length c) <> 0%Qc) by (apply sq_neq; destruct c; [contradiction|cbn; lia]).
    assert (Nl : sq (length logp) <> 0%Qc) by (apply sq_neq; destruct logp; [contradiction|cbn; lia]).
    unfold np_mean. rewrite Lx, Sx, map_length. fold (sq (length c * length logp)) (sq (length c)) (sq (length logp)). rewrite sq_mult. field. auto. }
  split; [apply G; exact Hc|]. intros c' P.
  assert (Hc' : c' <> []) by (intros ->; apply Permutation_sym, Permutation_nil in P; contradiction).
  rewrite (G coef Hc), (G c' Hc'). f_equal. unfold np_mean. rewrite (Permutation_length P). f_equal. clear - P.
  induction P; cbn [qsum]; try congruence; ring.
Qed.
(** C156.  The documented loss weighs every transition by its own weight; here the action with weight 0 is pulled
    up exactly as much as the one with weight 1. *)
Lemma C156_example_refuted_lemma : exists logp coef, length logp = length coef
  /\ crr_actor_loss logp (Some coef) <> np_mean (map (fun x => (- fst x * snd x)%Qc) (combine logp coef)).
Proof.
  exists [(- (1))%Qc; (- Q2Qc (3 # 1))%Qc], [1%Qc; 0%Qc]. split; [reflexivity|]. vm_compute. discriminate.
Qed.
(** C156.  It is the documented one if all weights are equal, as in the mode "all", or for a single transition. *)
Lemma C156_equal_weights_lemma : forall logp w, logp <> [] ->
  crr_actor_loss logp (Some (map (fun _ => w) logp)) = np_mean (map (fun lp => (- lp * w)%Qc) logp)
  /\ crr_actor_loss logp None = np_mean (map Qcopp logp).
Proof.
  intros logp w Hl. split.
  - destruct (C156_product_refuted_lemma logp (map (fun _ => w) logp) Hl) as [-> _]; [destruct logp; [contradiction|discriminate]|].
    assert (E : qsum (map (fun lp => (- lp * w)%Qc) logp) = (qsum (map Qcopp logp) * w)%Qc) by (rewrite <- qsum_scale_r, map_map; reflexivity).
    unfold np_mean. rewrite E, !map_length, <- (repeat_const w logp), qsum_const. fold (sq (length logp)).
    assert (Nl : sq (length logp) <> 0%Qc) by (apply sq_neq; destruct logp; [contradiction|cbn; lia]). field. auto.
  - unfold crr_actor_loss. f_equal. apply map_ext. intro x. ring.
Qed.
