(** * Proofs of property C385: resets do not mix up the answers of Ray workers *)
From Verif Require Import Py PyLemmas RayModel RayProofs ArayModel AraySpec ArayProofs AonceSpec AonceProofs AresrModel AresrSpec.
From Coq Require Import Permutation.
Open Scope nat_scope.

Lemma reset_fold : forall ids v,
  let w := fold_left reset_one ids v in
  a_conn w = a_conn v /\ a_wait w = a_wait v /\ a_ready w = a_ready v /\ a_next w = a_next v + length ids /\
  (forall j, ~ In j ids -> a_handle w j = a_handle v j) /\
  (NoDup ids -> map (fun i => (i, a_handle w i)) ids = combine ids (seq (a_next v) (length ids))).
Proof.
  induction ids as [|i ids IH]; intros v w; subst w.
  - cbn [fold_left length]. rewrite Nat.add_0_r. repeat split.
  - cbn [fold_left length]. destruct (IH (reset_one v i)) as (I1 & I2 & I3 & I4 & I5 & I6). rewrite I1, I2, I3, I4. cbn [reset_one a_conn a_wait a_ready a_next].
    split; [reflexivity|]. split; [reflexivity|]. split; [reflexivity|]. split; [lia|]. split.
    + intros j Hj. rewrite I5 by (intros Hc; apply Hj; right; exact Hc). cbn [reset_one a_handle]. destruct (j =? i) eqn:E; [|reflexivity]. apply Nat.eqb_eq in E. exfalso. apply Hj. left. symmetry. exact E.
    + intros N. inversion N as [|i' l' Hi N']; subst i' l'. cbn [map seq combine]. rewrite (I5 i Hi). cbn [reset_one a_handle]. rewrite Nat.eqb_refl. f_equal. rewrite (I6 N'). reflexivity.
Qed.

Lemma reset_ok : forall n v ids, av_ok n v -> NoDup ids -> (forall i, In i ids -> In i (a_ready v)) ->
  let w := snd (a_reset v ids) in
  av_ok n w /\ owed w = owed v /\ a_wait w = a_wait v /\ a_ready w = a_ready v /\ a_next w = a_next v + length ids /\
  fst (a_reset v ids) = Ok (combine ids (seq (a_next v) (length ids))).
Proof.
  intros n v ids K N I w. pose proof (ready_ids_ok n v ids K I) as O. pose proof O as D. rewrite ids_ok_iff in D. subst w. unfold a_reset. rewrite O. cbn [fst snd].
  destruct (reset_fold ids v) as (R1 & R2 & R3 & R4 & R5 & R6). set (w := fold_left reset_one ids v) in *.
  assert (H : forall j, In j (a_wait v) -> a_handle w j = a_handle v j) by (intros j Hj; apply R5; intros Hc; apply (proj1 (D j Hc)); exact Hj).
  assert (M : map (a_handle w) (a_wait v) = map (a_handle v) (a_wait v)) by (apply map_ext_in; exact H).
  assert (Ow : owed w = owed v) by (unfold owed; rewrite R2; apply map_ext_in; intros j Hj; rewrite H by exact Hj; reflexivity).
  destruct K as (E & P & Nh & F). split; [|split; [exact Ow|split; [exact R2|split; [exact R3|split; [exact R4|rewrite (R6 N); reflexivity]]]]].
  split; [congruence|]. split; [rewrite R2, R3; exact P|]. split; [rewrite R2, M; exact Nh|]. rewrite R2. apply Forall_forall. intros j Hj. rewrite (H j Hj), R4. rewrite Forall_forall in F. specialize (F j Hj). lia.
Qed.

Lemma tagged : forall kind b ids s, map (fun p => (fst (fst p), snd p)) (filter (fun p : nat * bool * nat => Bool.eqb (snd (fst p)) kind) (combine (map (fun i : nat => (i, b)) ids) s))
  = if Bool.eqb b kind then combine ids s else [].
Proof.
  intros kind b. induction ids as [|i ids IH]; intros s; [destruct (Bool.eqb b kind); reflexivity|]. destruct s as [|h s]; [destruct (Bool.eqb b kind); reflexivity|].
  cbn [map combine filter fst snd]. specialize (IH s). destruct (Bool.eqb b kind); cbn [map fst snd]; rewrite IH; reflexivity.
Qed.
Lemma entries_app : forall kind log b ids, entries kind (log ++ map (fun i => (i, b)) ids) =
  entries kind log ++ (if Bool.eqb b kind then combine ids (seq (length log) (length ids)) else []).
Proof.
  intros kind log b ids. unfold entries. rewrite app_length, seq_app, combine_app by (rewrite seq_length; reflexivity). rewrite filter_app, map_app, tagged, map_length. reflexivity.
Qed.

Lemma rhist_ok : forall timed num n v log out rout, r_hist timed num n v log out rout ->
  av_ok n v /\ a_next v = length log /\ Permutation (out ++ owed v) (entries true log) /\ rout = entries false log.
Proof.
  intros timed num n v log out rout H. induction H as [|v log out rout sent rounds H IH Ns Is|v log out rout ids H IH Ns Is].
  - split; [|split; [reflexivity|split; [apply Permutation_refl|reflexivity]]]. split; [reflexivity|]. split; [apply Permutation_refl|]. split; constructor.
  - destruct IH as (K & NX & P & Q). destruct (sent_state_ok n v sent K Ns Is) as (K1 & O1 & N1 & E1). rewrite E1. set (s := sent_state v sent) in *. set (ids := sent_ids sent) in *.
    pose proof (after_owed timed num n s rounds K1) as A. destruct (after_send timed num s rounds) as [r w]. cbn [fst snd]. cbv zeta in A. set (o := match r with Ok o => o | Err _ => [] end) in *.
    destruct A as (K2 & P2 & N2 & _). rewrite !entries_app. cbn [Bool.eqb]. rewrite app_nil_r. split; [exact K2|]. split; [rewrite N2, N1, NX, app_length, map_length; reflexivity|]. split; [|exact Q].
    rewrite <- app_assoc. rewrite P2, O1, app_assoc, NX. apply Permutation_app_tail. exact P.
  - destruct IH as (K & NX & P & Q). destruct (reset_ok n v ids K Ns Is) as (K1 & O1 & _ & _ & N1 & R1). rewrite !entries_app. cbn [Bool.eqb]. rewrite app_nil_r, R1, O1. split; [exact K1|].
    split; [rewrite N1, NX, app_length, map_length; reflexivity|]. split; [exact P|]. rewrite Q, NX. reflexivity.
Qed.

(** C385.  Whatever is stepped and reset in between, every action is answered once by a step, under its own environment, or
    owed by a waiting environment; and the resets return exactly what was sent as a reset, in this order. *)
Lemma C385_apart_lemma : forall (timed : bool) (num n : nat) (v : av) (log : list (nat * bool)) (out rout : list (nat * nat)),
  r_hist timed num n v log out rout -> Permutation (out ++ owed v) (entries true log) /\ rout = entries false log.
Proof. intros timed num n v log out rout H. destruct (rhist_ok timed num n v log out rout H) as (_ & _ & P & Q). split; assumption. Qed.

(** C385.  A reset of ready environments always returns, one answer for each, and leaves the waiting environments, what they
    owe and the ready ones as they were. *)
Lemma C385_reset_lemma : forall (timed : bool) (num n : nat) (v : av) (log : list (nat * bool)) (out rout : list (nat * nat)) (ids : list nat),
  r_hist timed num n v log out rout -> NoDup ids -> (forall i, In i ids -> In i (a_ready v)) ->
  exists w, a_reset v ids = (Ok (combine ids (seq (length log) (length ids))), w) /\ owed w = owed v /\ a_wait w = a_wait v /\ a_ready w = a_ready v.
Proof.
  intros timed num n v log out rout ids H N I. destruct (rhist_ok timed num n v log out rout H) as (K & NX & _). destruct (reset_ok n v ids K N I) as (_ & O & W & R & _ & F).
  exists (snd (a_reset v ids)). rewrite NX in F. split; [rewrite <- F; apply surjective_pairing|]. repeat split; assumption.
Qed.

(** C385.  A reset that names an environment that is not ready, such as one of all while some are waiting, raises an
    AssertionError and changes nothing. *)
Lemma C385_waiting_lemma : forall (v : av) (ids : list nat) (i : nat), In i ids -> ~ In i (a_ready v) -> a_reset v ids = (Err AssertionError, v).
Proof.
  intros v ids i Hi Hr. unfold a_reset. destruct (ids_ok v ids) eqn:O; [|reflexivity]. exfalso. apply Hr. rewrite ids_ok_iff in O. apply (proj2 (O i Hi)).
Qed.
