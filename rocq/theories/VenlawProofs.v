(** * Proofs: laws of stepping and resetting vector environments *)
From Verif Require Import Py PyLemmas VenvModel VenvProofs VenvMainProofs.
From Coq Require Import Permutation.
Open Scope nat_scope.

Section Laws.
Context {E Act R : Type}.
Variable estep : E -> cmd Act -> E * R.
Variable dummy : bool.
Notation venv := (@venv E Act R).
Notation send_at := (send_at estep dummy).
Notation send_all := (send_all estep dummy).
Notation recv_at := (@recv_at E Act R dummy).
Notation recv_all := (@recv_all E Act R dummy).

(** ** Frames *)
Lemma send_at_frame (v : venv) i c : exists ws, fst (send_at v i c) = set_workers v ws /\ length ws = length (workers v).
Proof.
  unfold VenvModel.send_at. destruct (norm_index _ _); [|exists (workers v); destruct v; split; reflexivity].
  destruct (nth_error _ _); cbn; [eexists; split; [reflexivity|apply upd_length]|exists (workers v); destruct v; split; reflexivity].
Qed.
Lemma recv_at_frame (v : venv) i : exists ws, fst (recv_at v i) = set_workers v ws /\ length ws = length (workers v).
Proof.
  unfold VenvModel.recv_at, recv_conn. destruct (norm_index _ _); [|exists (workers v); destruct v; split; reflexivity].
  destruct (nth_error _ _); [destruct (wrecv _ _); cbn; eexists; split; [reflexivity|apply upd_length]|exists (workers v); destruct v; split; reflexivity].
Qed.
Lemma send_all_app : forall l l' (v v1 : venv), send_all v l = (v1, Ok tt) -> send_all v (l ++ l') = send_all v1 l'.
Proof.
  induction l as [|[i c] l IH]; intros l' v v1 H; cbn [VenvModel.send_all app] in *.
  - injection H as <-. reflexivity.
  - destruct (send_at v i c) as [v2 [u|e]]; [apply IH, H|discriminate].
Qed.
Lemma recv_all_app : forall l l' (v v1 v2 : venv) r r', recv_all v l = (v1, Ok r) -> recv_all v1 l' = (v2, Ok r') -> recv_all v (l ++ l') = (v2, Ok (r ++ r')).
Proof.
  induction l as [|i l IH]; intros l' v v1 v2 r r' H H'; cbn [VenvModel.recv_all app] in *.
  - injection H as <- <-. exact H'.
  - destruct (recv_at v i) as [v3 [x|e]]; [|discriminate]. destruct (recv_all v3 l) as [v4 [y|e]] eqn:F; [|discriminate]. injection H as <- <-.
    rewrite (IH _ _ _ _ _ _ F H'). reflexivity.
Qed.
Lemma send_all_frame : forall l (v : venv), exists ws, fst (send_all v l) = set_workers v ws /\ length ws = length (workers v).
Proof.
  induction l as [|[i c] l IH]; intros v; cbn [VenvModel.send_all]; [exists (workers v); destruct v; split; reflexivity|].
  destruct (send_at_frame v i c) as (ws & F & L). destruct (send_at v i c) as [v1 [u|e]]; cbn in F; subst v1; [|exists ws; split; [reflexivity|exact L]].
  destruct (IH (set_workers v ws)) as (ws' & F' & L'). exists ws'. split; [exact F'|]. cbn in L'. congruence.
Qed.
Lemma recv_all_frame : forall l (v : venv), exists ws, fst (recv_all v l) = set_workers v ws /\ length ws = length (workers v).
Proof.
  induction l as [|i l IH]; intros v; cbn [VenvModel.recv_all]; [exists (workers v); destruct v; split; reflexivity|].
  destruct (recv_at_frame v i) as (ws & F & L). destruct (recv_at v i) as [v1 [u|e]]; cbn in F; subst v1; [|exists ws; split; [reflexivity|exact L]].
  destruct (IH (set_workers v ws)) as (ws' & F' & L'). destruct (recv_all _ _) as [v2 [y|e]]; cbn in F' |- *; subst v2; exists ws'; (split; [reflexivity|cbn in L'; congruence]).
Qed.

(** ** A receive that would succeed commutes with a later send *)
Definition same_at (n : nat) (i j : Z) : Prop := exists k, norm_index n i = Ok k /\ norm_index n j = Ok k.
Lemma upd_comm {X} : forall (l : list X) i j x y, i <> j -> upd (upd l i x) j y = upd (upd l j y) i x.
Proof. induction l as [|z l IH]; intros [|i] [|j] x y N; cbn; try reflexivity; [contradiction|f_equal; apply IH; congruence]. Qed.
Lemma upd_upd {X} : forall (l : list X) i x y, upd (upd l i x) i y = upd l i y.
Proof. induction l as [|z l IH]; intros [|i] x y; cbn; try reflexivity. f_equal. apply IH. Qed.

Lemma send_recv_comm : forall (v v1 v2 : venv) i c j r, (dummy = true -> ~ same_at (env_num v) i j) ->
  recv_at v j = (v1, Ok r) -> send_at v1 i c = (v2, Ok tt) ->
  exists v3, send_at v i c = (v3, Ok tt) /\ recv_at v3 j = (v2, Ok r).
Proof.
  intros v v1 v2 i c j r Hd Hr Hs. unfold VenvModel.recv_at, recv_conn in Hr.
  destruct (norm_index (env_num v) j) as [kj|] eqn:Ej; [|discriminate]. destruct (nth_error (workers v) kj) as [wj|] eqn:Wj; [|discriminate].
  destruct (wrecv dummy wj) as [wj' rj] eqn:Fj. injection Hr as <- ->.
  unfold VenvModel.send_at in Hs. unfold env_num in Hs. cbn [set_workers workers] in Hs. rewrite upd_length in Hs. fold (env_num v) in Hs.
  unfold VenvModel.send_at. destruct (norm_index (env_num v) i) as [ki|] eqn:Ei; [|discriminate].
  assert (Lj : kj < length (workers v)) by (apply nth_error_Some; congruence).
  destruct (Nat.eq_dec ki kj) as [->|N].
  - assert (D : dummy = false) by (destruct dummy; [exfalso; apply (Hd eq_refl); exists kj; auto|reflexivity]).
    rewrite nth_error_upd_same in Hs by exact Lj. injection Hs as <-. rewrite Wj. eexists. split; [reflexivity|].
    unfold VenvModel.recv_at, recv_conn, env_num. cbn [set_workers workers]. rewrite upd_length. fold (env_num v). rewrite Ej, nth_error_upd_same by exact Lj.
    clear Hd. subst dummy. unfold wrecv in Fj |- *. destruct (w_q wj) as [|r0 q] eqn:Q; [discriminate|]. injection Fj as <- <-.
    unfold wsend. cbn [w_env w_q w_hist w_closed w_closes]. destruct (estep (w_env wj) c) as [e x]. cbn [w_q]. rewrite Q. cbn [app w_env w_hist w_closed w_closes]. rewrite !upd_upd. reflexivity.
  - rewrite nth_error_upd_other in Hs by congruence. destruct (nth_error (workers v) ki) as [wi|] eqn:Wi; [|discriminate]. injection Hs as <-.
    eexists. split; [reflexivity|]. unfold VenvModel.recv_at, recv_conn, env_num. cbn [set_workers workers]. rewrite upd_length. fold (env_num v). rewrite Ej, nth_error_upd_other by congruence. rewrite Wj, Fj.
    unfold set_workers. cbn. rewrite upd_comm by congruence. reflexivity.
Qed.

Lemma env_num_frame (v v' : venv) ws : v' = set_workers v ws -> length ws = length (workers v) -> env_num v' = env_num v.
Proof. intros -> L. exact L. Qed.
Lemma recv_at_num (v v1 : venv) j r : recv_at v j = (v1, r) -> env_num v1 = env_num v.
Proof. intros H. destruct (recv_at_frame v j) as (ws & F & L). rewrite H in F. exact (env_num_frame _ _ _ F L). Qed.
Lemma send_at_num (v v1 : venv) i c r : send_at v i c = (v1, r) -> env_num v1 = env_num v.
Proof. intros H. destruct (send_at_frame v i c) as (ws & F & L). rewrite H in F. exact (env_num_frame _ _ _ F L). Qed.
Lemma send_all_num (v v1 : venv) l r : send_all v l = (v1, r) -> env_num v1 = env_num v.
Proof. intros H. destruct (send_all_frame l v) as (ws & F & L). rewrite H in F. exact (env_num_frame _ _ _ F L). Qed.
Lemma recv_all_num (v v1 : venv) l r : recv_all v l = (v1, r) -> env_num v1 = env_num v.
Proof. intros H. destruct (recv_all_frame l v) as (ws & F & L). rewrite H in F. exact (env_num_frame _ _ _ F L). Qed.

Lemma send_recv_all_comm : forall ids (v v1 v2 : venv) i c r, (dummy = true -> forall j, In j ids -> ~ same_at (env_num v) i j) ->
  recv_all v ids = (v1, Ok r) -> send_at v1 i c = (v2, Ok tt) ->
  exists v3, send_at v i c = (v3, Ok tt) /\ recv_all v3 ids = (v2, Ok r).
Proof.
  induction ids as [|j ids IH]; intros v v1 v2 i c r Hd Hr Hs; cbn [VenvModel.recv_all] in Hr.
  - injection Hr as <- <-. exists v2. split; [exact Hs|reflexivity].
  - destruct (recv_at v j) as [va [x|]] eqn:Ra; [|discriminate]. destruct (recv_all va ids) as [vb [y|]] eqn:Rb; [|discriminate]. injection Hr as <- <-.
    destruct (IH va vb v2 i c y) as (v3 & S3 & R3); [rewrite (recv_at_num _ _ _ _ Ra); intros D k Hk; apply (Hd D); right; exact Hk|exact Rb|exact Hs|].
    destruct (send_recv_comm v va v3 i c j x) as (v4 & S4 & R4); [intros D; apply (Hd D); left; reflexivity|exact Ra|exact S3|].
    exists v4. split; [exact S4|]. cbn [VenvModel.recv_all]. rewrite R4, R3. reflexivity.
Qed.
Lemma sends_recv_comm : forall l ids (v v1 v2 : venv) r, (dummy = true -> forall i j, In i (map fst l) -> In j ids -> ~ same_at (env_num v) i j) ->
  recv_all v ids = (v1, Ok r) -> send_all v1 l = (v2, Ok tt) ->
  exists v3, send_all v l = (v3, Ok tt) /\ recv_all v3 ids = (v2, Ok r).
Proof.
  induction l as [|[i c] l IH]; intros ids v v1 v2 r Hd Hr Hs; cbn [VenvModel.send_all] in Hs.
  - injection Hs as <-. exists v. split; [reflexivity|exact Hr].
  - destruct (send_at v1 i c) as [va [[]|]] eqn:Sa; [|discriminate].
    destruct (send_recv_all_comm ids v v1 va i c r) as (v3 & S3 & R3); [intros D j Hj; apply (Hd D); [left; reflexivity|exact Hj]|exact Hr|exact Sa|].
    destruct (IH ids v3 va v2 r) as (v4 & S4 & R4); [rewrite (send_at_num _ _ _ _ _ S3); intros D i' j Hi Hj; apply (Hd D); [right; exact Hi|exact Hj]|exact R3|exact Hs|].
    exists v4. cbn [VenvModel.send_all]. rewrite S3. split; assumption.
Qed.

(** The exchange behind step and reset: all sends, then all receives. *)
Definition exch (v : venv) (ids : list Z) (l : list (Z * cmd Act)) : venv * res (list (Z * R)) :=
  match send_all v l with
  | (v, Err e) => (v, Err e)
  | (v, Ok _) => recv_all v ids
  end.
Lemma exch_app : forall (v v1 v2 : venv) ids1 l1 ids2 l2 r1 r2,
  (dummy = true -> forall i j, In i (map fst l2) -> In j ids1 -> ~ same_at (env_num v) i j) ->
  exch v ids1 l1 = (v1, Ok r1) -> exch v1 ids2 l2 = (v2, Ok r2) -> exch v (ids1 ++ ids2) (l1 ++ l2) = (v2, Ok (r1 ++ r2)).
Proof.
  unfold exch. intros v v1 v2 ids1 l1 ids2 l2 r1 r2 Hd H1 H2.
  destruct (send_all v l1) as [va [[]|]] eqn:S1; [|discriminate]. destruct (send_all v1 l2) as [vb [[]|]] eqn:S2; [|discriminate].
  destruct (sends_recv_comm l2 ids1 va v1 vb r1) as (v3 & S3 & R3); [rewrite (send_all_num _ _ _ _ S1); exact Hd|exact H1|exact S2|].
  rewrite (send_all_app _ _ _ _ S1), S3. exact (recv_all_app _ _ _ _ _ _ _ R3 H2).
Qed.
Lemma exch_frame (v : venv) ids l : exists ws, fst (exch v ids l) = set_workers v ws /\ length ws = length (workers v).
Proof.
  unfold exch. destruct (send_all_frame l v) as (ws & F & L). destruct (send_all v l) as [v1 [u|e]]; cbn in F; subst v1; [|exists ws; split; [reflexivity|exact L]].
  destruct (recv_all_frame ids (set_workers v ws)) as (ws' & F' & L'). exists ws'. split; [exact F'|]. cbn in L'. congruence.
Qed.

Lemma v_step_exch (v v1 : venv) acts ids rounds r : is_async v = false ->
  (v_step estep dummy v (Some acts) (Some ids) rounds = (v1, Ok r) <-> is_closed v = false /\ length acts = length ids /\ ids <> [] /\ exch v ids (combine ids (map CStep acts)) = (v1, Ok r)).
Proof.
  intros Ha. unfold v_step, step_sync. rewrite Ha. cbn [wrap_id]. destruct (is_closed v); [split; [discriminate|intros (? & _); discriminate]|].
  destruct (Nat.eqb_spec (length acts) (length ids)) as [El|Nl]; cbn [negb]; [|split; [discriminate|intros (_ & ? & _); contradiction]].
  unfold exch. destruct (send_all v _) as [v2 [u|e]].
  - destruct ids as [|i ids]; [split; [discriminate|intros (_ & _ & N & _); destruct N; reflexivity]|]. split; [intros H; repeat split; [exact El|discriminate|exact H]|intros (_ & _ & _ & H); exact H].
  - split; [discriminate|intros (_ & _ & _ & H); discriminate].
Qed.
Lemma v_reset_exch (v v1 : venv) ids r : is_async v = false ->
  (v_reset estep dummy v (Some ids) = (v1, Ok r) <-> is_closed v = false /\ ids <> [] /\ exch v ids (map (fun i => (i, CReset)) ids) = (v1, Ok r)).
Proof.
  intros Ha. unfold v_reset. rewrite Ha. cbn [wrap_id andb]. destruct (is_closed v); [split; [discriminate|intros (? & _); discriminate]|].
  unfold exch. destruct (send_all v _) as [v2 [u|e]].
  - destruct ids as [|i ids]; [split; [discriminate|intros (_ & N & _); destruct N; reflexivity]|]. split; [intros H; repeat split; [discriminate|exact H]|intros (_ & _ & H); exact H].
  - split; [discriminate|intros (_ & _ & H); discriminate].
Qed.
Lemma combine_app' {X Y} : forall (a a' : list X) (b b' : list Y), length a = length b -> combine (a ++ a') (b ++ b') = combine a b ++ combine a' b'.
Proof. induction a as [|x a IH]; intros a' [|y b] b' H; try discriminate; [reflexivity|]. cbn. f_equal. apply IH. injection H; auto. Qed.
Lemma fst_combine {X Y} : forall (a : list X) (b : list Y) x, In x (map fst (combine a b)) -> In x a.
Proof. induction a as [|y a IH]; intros [|z b] x H; cbn in *; try contradiction. destruct H as [->|H]; [left; reflexivity|right; exact (IH _ _ H)]. Qed.
End Laws.

(** C331.  In synchronous mode, stepping some environments and then others gives what stepping
    all of them in one call gives: the same vector environment (all workers with their pending
    results and histories) and the two results one after the other.  With subprocess workers this
    holds for all ids, also shared ones; with dummy workers the two calls must not share an
    environment. *)
Lemma C331_step_lemma : forall (E Act R : Type) (estep : E -> cmd Act -> E * R) (dummy : bool) (v v1 v2 : @venv E Act R) acts1 acts2 ids1 ids2 rounds r1 r2,
  is_async v = false ->
  (dummy = true -> forall i j k, In i ids1 -> In j ids2 -> norm_index (length (workers v)) i = Ok k -> norm_index (length (workers v)) j <> Ok k) ->
  v_step estep dummy v (Some acts1) (Some ids1) rounds = (v1, Ok r1) ->
  v_step estep dummy v1 (Some acts2) (Some ids2) rounds = (v2, Ok r2) ->
  v_step estep dummy v (Some (acts1 ++ acts2)) (Some (ids1 ++ ids2)) rounds = (v2, Ok (r1 ++ r2)).
Proof.
  intros E Act R estep dummy v v1 v2 acts1 acts2 ids1 ids2 rounds r1 r2 Ha Hd H1 H2.
  apply v_step_exch in H1; [|exact Ha]. destruct H1 as (C1 & L1 & N1 & X1).
  destruct (exch_frame estep dummy v ids1 (combine ids1 (map CStep acts1))) as (ws & F & L). rewrite X1 in F. cbn in F.
  apply v_step_exch in H2; [|rewrite F; exact Ha]. destruct H2 as (C2 & L2 & N2 & X2).
  apply v_step_exch; [exact Ha|]. split; [exact C1|]. split; [rewrite !app_length; congruence|]. split; [destruct ids1; [destruct N1; reflexivity|discriminate]|].
  rewrite map_app, combine_app' by (rewrite map_length; congruence). refine (exch_app estep dummy v v1 v2 _ _ _ _ r1 r2 _ X1 X2).
  intros D i j Hi Hj (k & K1 & K2). apply fst_combine in Hi. exact (Hd D j i k Hj Hi K2 K1).
Qed.
(** C331.  So does resetting. *)
Lemma C331_reset_lemma : forall (E Act R : Type) (estep : E -> cmd Act -> E * R) (dummy : bool) (v v1 v2 : @venv E Act R) ids1 ids2 r1 r2,
  is_async v = false ->
  (dummy = true -> forall i j k, In i ids1 -> In j ids2 -> norm_index (length (workers v)) i = Ok k -> norm_index (length (workers v)) j <> Ok k) ->
  v_reset estep dummy v (Some ids1) = (v1, Ok r1) ->
  v_reset estep dummy v1 (Some ids2) = (v2, Ok r2) ->
  v_reset estep dummy v (Some (ids1 ++ ids2)) = (v2, Ok (r1 ++ r2)).
Proof.
  intros E Act R estep dummy v v1 v2 ids1 ids2 r1 r2 Ha Hd H1 H2.
  apply v_reset_exch in H1; [|exact Ha]. destruct H1 as (C1 & N1 & X1).
  destruct (exch_frame estep dummy v ids1 (map (fun i => (i, CReset)) ids1)) as (ws & F & L). rewrite X1 in F. cbn in F.
  apply v_reset_exch in H2; [|rewrite F; exact Ha]. destruct H2 as (C2 & N2 & X2).
  apply v_reset_exch; [exact Ha|]. split; [exact C1|]. split; [destruct ids1; [destruct N1; reflexivity|discriminate]|].
  rewrite map_app. refine (exch_app estep dummy v v1 v2 _ _ _ _ r1 r2 _ X1 X2).
  intros D i j Hi Hj (k & K1 & K2). rewrite map_map in Hi. cbn in Hi. rewrite map_id in Hi. exact (Hd D j i k Hj Hi K2 K1).
Qed.

(** ** Order of distinct ids *)
Section Perm.
Context {E Act R : Type}.
Variable estep : E -> cmd Act -> E * R.
Variable dummy : bool.
Notation venv := (@venv E Act R).
Notation send_at := (send_at estep dummy).
Notation send_all := (send_all estep dummy).
Notation recv_at := (@recv_at E Act R dummy).
Notation recv_all := (@recv_all E Act R dummy).

Lemma send_send (v v1 v2 : venv) i c j d : norm_index (env_num v) i <> norm_index (env_num v) j ->
  send_at v i c = (v1, Ok tt) -> send_at v1 j d = (v2, Ok tt) ->
  exists v3, send_at v j d = (v3, Ok tt) /\ send_at v3 i c = (v2, Ok tt).
Proof.
  intros N Hi Hj. unfold VenvModel.send_at in *. destruct (norm_index (env_num v) i) as [ki|] eqn:Ei; [|discriminate].
  destruct (nth_error (workers v) ki) as [wi|] eqn:Wi; [|discriminate]. injection Hi as <-. unfold env_num in Hj. cbn [set_workers workers] in Hj. rewrite upd_length in Hj. fold (env_num v) in Hj.
  destruct (norm_index (env_num v) j) as [kj|] eqn:Ej; [|discriminate]. assert (N' : ki <> kj) by congruence.
  rewrite nth_error_upd_other in Hj by congruence. destruct (nth_error (workers v) kj) as [wj|] eqn:Wj; [|discriminate]. injection Hj as <-.
  eexists. split; [reflexivity|]. unfold env_num. cbn [set_workers workers]. rewrite upd_length. fold (env_num v). rewrite Ei, nth_error_upd_other, Wi by congruence.
  unfold set_workers. cbn. rewrite upd_comm by congruence. reflexivity.
Qed.
Lemma recv_recv (v v1 v2 : venv) i j x y : norm_index (env_num v) i <> norm_index (env_num v) j ->
  recv_at v i = (v1, Ok x) -> recv_at v1 j = (v2, Ok y) ->
  exists v3, recv_at v j = (v3, Ok y) /\ recv_at v3 i = (v2, Ok x).
Proof.
  intros N Hi Hj. unfold VenvModel.recv_at, recv_conn in *. destruct (norm_index (env_num v) i) as [ki|] eqn:Ei; [|discriminate].
  destruct (nth_error (workers v) ki) as [wi|] eqn:Wi; [|discriminate]. destruct (wrecv dummy wi) as [wi' ri] eqn:Fi. injection Hi as <- ->. unfold env_num in Hj. cbn [set_workers workers] in Hj. rewrite upd_length in Hj. fold (env_num v) in Hj.
  destruct (norm_index (env_num v) j) as [kj|] eqn:Ej; [|discriminate]. assert (N' : ki <> kj) by congruence.
  rewrite nth_error_upd_other in Hj by congruence. destruct (nth_error (workers v) kj) as [wj|] eqn:Wj; [|discriminate]. destruct (wrecv dummy wj) as [wj' rj] eqn:Fj. injection Hj as <- ->.
  eexists. split; [reflexivity|]. unfold env_num. cbn [set_workers workers]. rewrite upd_length. fold (env_num v). rewrite Ei, nth_error_upd_other, Wi, Fi by congruence.
  unfold set_workers. cbn. rewrite upd_comm by congruence. reflexivity.
Qed.
Lemma send_all_perm l l' : Permutation l l' -> forall v v1 : venv, NoDup (map (norm_index (env_num v)) (map fst l)) ->
  send_all v l = (v1, Ok tt) -> send_all v l' = (v1, Ok tt).
Proof.
  intros P. induction P as [|[i c] l l' P IH|[i c] [j d] l|l l' l'' P IH P' IH']; intros v v1 N H.
  - exact H.
  - cbn [VenvModel.send_all map fst] in *. destruct (send_at v i c) as [v2 [[]|]] eqn:S; [|discriminate]. apply IH; [|exact H]. rewrite (send_at_num _ _ _ _ _ _ _ S). inversion N; assumption.
  - cbn [VenvModel.send_all map fst] in *. destruct (send_at v j d) as [v2 [[]|]] eqn:S; [|discriminate]. destruct (send_at v2 i c) as [v3 [[]|]] eqn:S'; [|discriminate].
    destruct (send_send v v2 v3 j d i c) as (v4 & A & B); [|exact S|exact S'|rewrite A, B; exact H]. inversion N as [|? ? N1]; subst. intros F. apply N1. left. symmetry. exact F.
  - apply IH'; [|apply IH; assumption]. apply (Permutation_NoDup (Permutation_map _ (Permutation_map _ P))). exact N.
Qed.
Lemma recv_all_perm l l' : Permutation l l' -> forall (v v1 : venv) r, NoDup (map (norm_index (env_num v)) l) ->
  recv_all v l = (v1, Ok r) -> exists r', recv_all v l' = (v1, Ok r') /\ Permutation r r'.
Proof.
  intros P. induction P as [|i l l' P IH|i j l|l l' l'' P IH P' IH']; intros v v1 r N H.
  - exists r. split; [exact H|apply Permutation_refl].
  - cbn [VenvModel.recv_all map] in *. destruct (recv_at v i) as [v2 [x|]] eqn:S; [|discriminate]. destruct (recv_all v2 l) as [v3 [y|]] eqn:T; [|discriminate]. injection H as <- <-.
    destruct (IH v2 v3 y) as (r' & A & B); [rewrite (recv_at_num _ _ _ _ _ S); inversion N; assumption|exact T|]. rewrite A. eexists. split; [reflexivity|]. apply perm_skip, B.
  - cbn [VenvModel.recv_all map] in *. destruct (recv_at v j) as [v2 [x|]] eqn:S; [|discriminate]. destruct (recv_at v2 i) as [v3 [y|]] eqn:S'; [|discriminate]. destruct (recv_all v3 l) as [v4 [z|]] eqn:T; [|discriminate]. injection H as <- <-.
    destruct (recv_recv v v2 v3 j i x y) as (v5 & A & B); [inversion N as [|? ? N1]; subst; intros F; apply N1; left; symmetry; exact F|exact S|exact S'|]. rewrite A, B, T. eexists. split; [reflexivity|]. apply perm_swap.
  - destruct (IH v v1 r N H) as (r' & A & B). destruct (IH' v v1 r') as (r'' & A' & B'); [apply (Permutation_NoDup (Permutation_map _ P)); exact N|exact A|]. exists r''. split; [exact A'|]. exact (Permutation_trans B B').
Qed.
End Perm.

(** C331.  With distinct environments the order of the pairs of id and action does not matter:
    the vector environment afterwards is the same and the results (each with its id) are
    permuted. *)
Lemma C331_order_lemma : forall (E Act R : Type) (estep : E -> cmd Act -> E * R) (dummy : bool) (v v' : @venv E Act R) (l l' : list (Z * Act)) rounds r,
  is_async v = false -> Permutation l l' -> NoDup (map (norm_index (length (workers v))) (map fst l)) ->
  v_step estep dummy v (Some (map snd l)) (Some (map fst l)) rounds = (v', Ok r) ->
  exists r', v_step estep dummy v (Some (map snd l')) (Some (map fst l')) rounds = (v', Ok r') /\ Permutation r r'.
Proof.
  intros E Act R estep dummy v v' l l' rounds r Ha P N H.
  assert (C : forall m : list (Z * Act), combine (map fst m) (map CStep (map snd m)) = map (fun p => (fst p, CStep (snd p))) m) by (induction m as [|[i a] m IH]; [reflexivity|cbn; rewrite IH; reflexivity]).
  apply v_step_exch in H; [|exact Ha]. destruct H as (C1 & L1 & N1 & X1). rewrite C in X1. unfold exch in X1.
  destruct (send_all estep dummy v _) as [v1 [[]|]] eqn:S; [|discriminate].
  pose proof (send_all_num _ _ _ _ _ _ S) as En.
  apply (send_all_perm estep dummy _ _ (Permutation_map (fun p => (fst p, CStep (snd p))) P)) in S; [|rewrite !map_map; cbn; rewrite map_map in N; exact N].
  destruct (recv_all_perm dummy _ _ (Permutation_map fst P) v1 v' r) as (r' & A & B); [rewrite En; exact N|exact X1|].
  exists r'. split; [|exact B]. apply v_step_exch; [exact Ha|]. split; [exact C1|]. split; [rewrite !map_length; reflexivity|]. split.
  - intros F. apply N1. apply Permutation_length in P. rewrite <- (map_length fst l), <- (map_length fst l'), F in P. destruct (map fst l); [reflexivity|discriminate].
  - unfold exch. rewrite C, S. exact A.
Qed.

(** ** Asynchronous steps in which all environments finish *)
Section AllDone.
Context {E Act R : Type}.
Notation venv := (@venv E Act R).

Lemma index_pop {X} : forall c (l : list nat) (m : list X) wi, index_of c l = Some wi -> length m = length l ->
  Permutation l (c :: pop wi l) /\ exists x, nth_error m wi = Some x /\ length (pop wi m) = length (pop wi l)
  /\ nth_error l wi = Some c.
Proof.
  intros c. induction l as [|y l IH]; intros [|x m] wi H L; cbn in H; try discriminate. destruct (Nat.eqb_spec y c) as [->|N].
  - injection H as <-. cbn. split; [apply Permutation_refl|]. exists x. injection L as L. auto.
  - destruct (index_of c l) as [w|] eqn:Ei; [|discriminate]. injection H as <-. injection L as L. destruct (IH m w eq_refl L) as (P & z & A & B & C). cbn. split.
    + apply (Permutation_trans (perm_skip y P)). apply perm_swap.
    + exists z. split; [exact A|]. split; [congruence|exact C].
Qed.
Lemma pop_map {X Y} (f : X -> Y) : forall l n, pop n (map f l) = map f (pop n l).
Proof. induction l as [|x l IH]; intros [|n]; cbn; try reflexivity. f_equal. apply IH. Qed.

Lemma collect_recv (dummy : bool) : forall conns (v v' u : venv) r, workers u = workers v -> Forall (fun k => k < length (workers v)) conns ->
  waiting_id v = map Z.of_nat (waiting_conn v) -> VenvModel.collect dummy v conns = (v', Ok r) ->
  exists u', recv_all dummy u (map Z.of_nat conns) = (u', Ok r) /\ workers u' = workers v' /\ is_closed v' = is_closed v
    /\ Permutation (waiting_conn v) (conns ++ waiting_conn v') /\ waiting_id v' = map Z.of_nat (waiting_conn v') /\ ready_id v' = ready_id v ++ map Z.of_nat conns.
Proof.
  induction conns as [|c conns IH]; intros v v' u r W F I H; cbn [VenvModel.collect] in H.
  - injection H as <- <-. exists u. split; [reflexivity|]. cbn. rewrite app_nil_r. auto using Permutation_refl.
  - inversion F as [|? ? Fc F']; subst. destruct (collect_one dummy v c) as [v1 [x|]] eqn:C; [|discriminate]. destruct (VenvModel.collect dummy v1 conns) as [v2 [y|]] eqn:D; [|discriminate]. injection H as <- <-.
    unfold collect_one in C. destruct (index_of c (waiting_conn v)) as [wi|] eqn:Ei; [|discriminate].
    destruct (index_pop c (waiting_conn v) (waiting_id v) wi Ei) as (P & z & Z1 & _ & Z2); [rewrite I; apply map_length|]. rewrite Z1 in C.
    assert (z = Z.of_nat c) as ->. { rewrite I, nth_error_map, Z2 in Z1. injection Z1 as <-. reflexivity. }
    unfold recv_conn in C. cbn [set_waiting workers] in C. destruct (nth_error (workers v) c) as [w|] eqn:Ew; [|discriminate]. destruct (wrecv dummy w) as [w' rr] eqn:Er. destruct rr as [r1|]; [|discriminate]. injection C as <- <-.
    cbn [map VenvModel.recv_all]. unfold recv_at, norm_index, env_num. rewrite W. replace ((0 <=? Z.of_nat c)%Z && (Z.of_nat c <? Z.of_nat (length (workers v)))%Z)%bool with true by (symmetry; apply andb_true_intro; split; lia).
    rewrite Nat2Z.id. unfold recv_conn. rewrite W, Ew, Er.
    eapply (IH _ _ (set_workers u (upd (workers v) c w'))) in D; [|reflexivity|cbn; rewrite upd_length; exact F'|cbn; rewrite I; apply pop_map].
    destruct D as (u' & U & W' & Cl & Pm & I' & Rd). rewrite U. exists u'. split; [reflexivity|]. split; [exact W'|]. split; [exact Cl|]. cbn [set_ready set_waiting set_workers waiting_conn ready_id] in Pm, Rd. split; [|split; [exact I'|]].
    + apply (Permutation_trans P). cbn [app]. apply perm_skip. exact Pm.
    + rewrite Rd, <- app_assoc. reflexivity.
Qed.
Lemma collect_len (dummy : bool) : forall conns (v v' : venv) r, VenvModel.collect dummy v conns = (v', Ok r) -> length r = length conns.
Proof.
  induction conns as [|c conns IH]; intros v v' r H; cbn [VenvModel.collect] in H; [injection H as <- <-; reflexivity|].
  destruct (collect_one dummy v c) as [v1 [x|]]; [|discriminate]. destruct (VenvModel.collect dummy v1 conns) as [v2 [y|]] eqn:D; [|discriminate]. injection H as <- <-. cbn. f_equal. apply (IH _ _ _ D).
Qed.
Lemma filter_part {X} (f : X -> bool) : forall l, Permutation l (filter (fun x => negb (f x)) l ++ filter f l).
Proof.
  induction l as [|x l IH]; [apply Permutation_refl|]. cbn. destruct (f x); cbn [negb].
  - apply Permutation_cons_app. exact IH.
  - cbn. apply perm_skip. exact IH.
Qed.
End AllDone.

(** C333.  An asynchronous step (subprocess workers, nothing running before) that returns a result
    for every environment it was asked to step - whatever the order and the rounds in which they
    finished - does what the synchronous step does: all workers end in the same state, the results
    are a permutation of those of the synchronous step, nothing is running and the same
    environments are ready. *)
Lemma C333_all_lemma : forall (E Act R : Type) (estep : E -> cmd Act -> E * R) (v v' : @venv E Act R) acts ks rounds r,
  is_async v = true -> waiting_conn v = [] -> waiting_id v = [] -> NoDup (ready_id v) -> NoDup ks -> ks <> [] -> Forall (fun k => k < length (workers v)) ks ->
  v_step estep false v (Some acts) (Some (map Z.of_nat ks)) rounds = (v', Ok r) -> length r = length ks ->
  let sync := mkV (workers v) (wait_num v) (timed v) false [] [] (ready_id v) (is_closed v) in
  exists sync' rs, v_step estep false sync (Some acts) (Some (map Z.of_nat ks)) [] = (sync', Ok rs)
    /\ workers v' = workers sync' /\ Permutation rs r
    /\ waiting_conn v' = [] /\ waiting_id v' = [] /\ Permutation (ready_id v') (ready_id v).
Proof.
  intros E Act R estep v v' acts ks rounds r Ha Hwc Hwi Nr Nk Ne Hf H L sync. unfold v_step in H. rewrite Ha in H. destruct (is_closed v) eqn:Hc; [discriminate|]. cbn [wrap_id] in H. unfold step_async in H.
  destruct (assert_id v (map Z.of_nat ks)) eqn:As; [|discriminate]. cbn [negb] in H. destruct (Nat.eqb_spec (length acts) (length (map Z.of_nat ks))) as [El|]; [|discriminate]. cbn [negb] in H.
  set (l := combine (map Z.of_nat ks) (map CStep acts)) in *.
  assert (Fl : map fst l = map Z.of_nat ks). { unfold l. clear - El. rewrite map_length in El. revert acts El. induction ks as [|k ks IH]; intros [|a acts] H; try discriminate; [reflexivity|]. cbn. f_equal. apply IH. injection H; auto. }
  destruct (send_async_eq estep false l v ks) as (v1 & S1 & S2 & ws & Ev & Lw); [rewrite Fl; apply norm_of_nat, Hf|]. rewrite S2 in H. unfold fetch in H.
  cbn [set_ready set_waiting waiting_conn wait_num timed] in H. rewrite Hwc, Hwi in H. cbn [app] in H.
  destruct (wait_until _ _ _ rounds ks) as [ready|] eqn:Wt; [|discriminate]. apply wait_until_ok in Wt. destruct Wt as (_ & Nd & Inc & _).
  pose proof (collect_len _ _ _ _ _ H) as Lr. rewrite L in Lr.
  assert (P : Permutation ready ks). { apply NoDup_Permutation_bis; [exact Nd|lia|exact Inc]. }
  assert (Fr : Forall (fun k => k < length ws) ready). { rewrite Forall_forall in Hf |- *. intros k Hk. rewrite Lw. apply Hf, Inc, Hk. }
  assert (SS : send_all estep false sync l = (set_workers sync ws, Ok tt)).
  { destruct (send_async_eq estep false l sync ks) as (v2 & T1 & _ & ws2 & Ev2 & _); [rewrite Fl; apply norm_of_nat, Hf|].
    rewrite T1. subst v1 v2. f_equal. f_equal.
    destruct (send_all_nodup estep false l v ks) as (wa & A1 & A2 & A3 & A4); [rewrite Fl; apply norm_of_nat, Hf|exact Nk|].
    destruct (send_all_nodup estep false l sync ks) as (wb & B1 & B2 & B3 & B4); [rewrite Fl; apply norm_of_nat, Hf|exact Nk|].
    rewrite S1 in A1. injection A1 as A1. rewrite T1 in B1. injection B1 as B1. subst wa wb. apply nth_error_ext. intros k. destruct (in_dec Nat.eq_dec k ks) as [Hk|Hk]; [|rewrite A3, B3 by exact Hk; reflexivity].
    apply In_nth_error in Hk as [j Hj]. destruct (nth_error (map snd l) j) as [c|] eqn:Ec.
    - destruct (A4 j k c Hj Ec) as (w & W1 & W2). destruct (B4 j k c Hj Ec) as (w2 & W3 & W4). cbn in W3. congruence.
    - apply nth_error_None in Ec. assert (j < length ks) by (apply nth_error_Some; congruence). rewrite map_length, <- (map_length fst), Fl, map_length in Ec. lia. }
  apply (collect_recv false _ _ _ (set_workers sync ws)) in H; [|subst v1; reflexivity|subst v1; exact Fr|cbn; exact Fl].
  destruct H as (u' & U & W' & _ & Pm & I' & Rd). cbn [set_ready set_waiting waiting_conn ready_id] in Pm, Rd.
  assert (Zw : waiting_conn v' = []). { apply Permutation_length in Pm. rewrite app_length in Pm. destruct (waiting_conn v'); [reflexivity|cbn in Pm; lia]. }
  destruct (recv_all_perm false (map Z.of_nat ready) (map Z.of_nat ks) (Permutation_map _ P) (set_workers sync ws) u' r) as (rs & V1 & V2); [|exact U|].
  { unfold env_num. cbn [set_workers workers]. rewrite Lw, map_map. clear - Nd Fr Lw. unfold env_num. induction ready as [|k l IH]; [constructor|]. inversion Nd as [|? ? N1 N2]; subst. inversion Fr as [|? ? F1 F2]; subst. cbn. constructor; [|apply IH; assumption].
    intros F. apply in_map_iff in F. destruct F as (k' & F & Hk'). pose proof (proj1 (Forall_forall _ _) F2 k' Hk') as F3. cbn in F3. unfold env_num in Lw.
    unfold norm_index in F. replace ((0 <=? Z.of_nat k')%Z && (Z.of_nat k' <? Z.of_nat (length (workers v)))%Z)%bool with true in F by (symmetry; apply andb_true_intro; split; lia).
    replace ((0 <=? Z.of_nat k)%Z && (Z.of_nat k <? Z.of_nat (length (workers v)))%Z)%bool with true in F by (symmetry; apply andb_true_intro; split; lia). rewrite !Nat2Z.id in F. injection F as ->. contradiction. }
  exists u', rs. split; [|split; [|split; [|split; [|split]]]].
  - unfold v_step, step_sync. cbn [sync is_closed is_async wrap_id]. try rewrite Hc. rewrite (proj2 (Nat.eqb_eq _ _) El). cbn [negb]. fold sync l. rewrite SS. destruct (map Z.of_nat ks) as [|z zs] eqn:Ez; [destruct ks; [destruct Ne; reflexivity|discriminate]|]. exact V1.
  - symmetry. exact W'.
  - apply Permutation_sym, V2.
  - exact Zw.
  - rewrite I', Zw. reflexivity.
  - rewrite Rd. subst v1. cbn [set_workers ready_id]. apply Permutation_sym. apply (Permutation_trans (filter_part (fun x => existsb (Z.eqb x) (map Z.of_nat ks)) (ready_id v))). apply Permutation_app_head.
    apply (Permutation_trans (l' := map Z.of_nat ks)); [|apply Permutation_map, Permutation_sym, P].
    apply NoDup_Permutation; [apply NoDup_filter, Nr|apply FinFun.Injective_map_NoDup; [intros a b; apply Nat2Z.inj|exact Nk]|].
    intros x. rewrite filter_In. unfold assert_id in As. rewrite forallb_forall in As. split.
    + intros [_ X]. apply existsb_exists in X as (y & Y & Eq). apply Z.eqb_eq in Eq as ->. exact Y.
    + intros X. specialize (As x X). apply andb_prop in As as [_ As]. apply existsb_exists in As as (y & Y & Eq). apply Z.eqb_eq in Eq as ->. split; [exact Y|]. apply existsb_exists. exists y. split; [exact X|apply Z.eqb_refl].
Qed.
