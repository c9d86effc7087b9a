(** * Proofs about [compute_episodic_return] and [compute_nstep_return] on reachable buffers *)
From Verif Require Import Py PyLemmas Num BufferModel BufferSpec BufferProofs BufferWalkProofs BufferMainProofs.
From Verif Require Import ManagerModel ManagerSpec ManagerProofs ManagerWalkProofs ManagerMainProofs.
From Verif Require Import ReturnsModel ReturnsSpec ReturnsProofs.
Open Scope nat_scope.

Lemma nth_error_fold_upd {T} (v : T) u : forall l i,
  nth_error (fold_left (fun l i => upd l i v) u l) i
  = match nth_error l i with None => None | Some x => if existsb (Nat.eqb i) u then Some v else Some x end.
Proof.
  induction u as [|j u IH]; intros l i; cbn [fold_left existsb].
  - destruct (nth_error l i); reflexivity.
  - rewrite IH, nth_error_upd. destruct (Nat.eqb_spec i j) as [->|Hij].
    + rewrite Nat.eqb_refl. cbn [orb]. destruct (Nat.ltb_spec j (length l)) as [H|H].
      * destruct (nth_error l j) eqn:E; [|apply nth_error_None in E; lia]. destruct (existsb _ _); reflexivity.
      * rewrite (proj2 (nth_error_None l j)) by lia. reflexivity.
    + destruct (Nat.eqb_spec j i); [congruence|]. reflexivity.
Qed.

Section View.
Context {Ob A Inf : Type}.
Notation slot := (slot Ob A Inf Qc).
Notation ibuf := (ibuf Ob A Inf).

(** What the return computations see of a buffer: queues [qs], position [x] at index [adr x]. *)
Record iview (I : ibuf) (qs : list (list slot)) (adr : nat * nat -> nat) : Prop := {
  v_meta : exists l, ib_meta I = Some l /\ forall x s,
     nth_error (qat qs (fst x)) (snd x) = Some s -> nth_error l (adr x) = Some (Some s);
  v_next : forall xs, xs <> [] -> (forall x, In x xs -> stored qs x) ->
     ib_next I (map (fun x => Z.of_nat (adr x)) xs)
     = Ok (map (fun x => Z.of_nat (adr (fst x, succ_of (qat qs (fst x)) (snd x)))) xs);
  v_unf : exists u, ib_unfinished I = Ok u /\ forall i, In i u <-> exists x, stored qs x /\ i = adr x
     /\ S (snd x) = length (qat qs (fst x)) /\ qdone (qat qs (fst x)) (snd x) = false;
  v_inj : forall x y, stored qs x -> stored qs y -> adr x = adr y -> x = y;
  v_done : forall x s, nth_error (qat qs (fst x)) (snd x) = Some s -> s_done s = s_term s || s_trunc s
}.

Variables (I : ibuf) (qs : list (list slot)) (adr : nat * nat -> nat).
Hypothesis V : iview I qs adr.
Notation Q x := (qat qs (fst x)).
Notation za x := (Z.of_nat (adr x)).

Definition aend (x : nat * nat) : bool := qend (Q x) (snd x).
Definition astep (n : nat) (x : nat * nat) : nat * nat := (fst x, walk (Q x) n (snd x)).

Lemma stored_some x : stored qs x -> exists s, nth_error (Q x) (snd x) = Some s.
Proof.
  intros H. apply stored_iff in H. destruct (nth_error (Q x) (snd x)) as [s|] eqn:E; [eauto|].
  apply nth_error_None in E. lia.
Qed.

Lemma column_at {T} (f : slot -> T) zero g : (forall x s, nth_error (Q x) (snd x) = Some s -> f s = g x) ->
  exists c, column f zero I = Ok c /\ forall x, stored qs x -> nth_error c (adr x) = Some (g x).
Proof.
  intros Hg. destruct (v_meta _ _ _ V) as (l & El & Hl). unfold column. rewrite El. eexists. split; [reflexivity|].
  intros x Hx. destruct (stored_some x Hx) as [s Es]. rewrite nth_error_map, (Hl x s Es). cbn. f_equal. apply Hg, Es.
Qed.

Lemma mapM_at {T} (c : list T) (g : nat * nat -> T) xs : (forall x, In x xs -> nth_error c (adr x) = Some (g x)) ->
  mapM (zget c) (map (fun x => za x) xs) = Ok (map g xs).
Proof.
  induction xs as [|x xs IH]; intros H; [reflexivity|]. cbn [map mapM].
  rewrite (zget_nth_error _ _ _ (H x (or_introl eq_refl))). cbn [bind].
  rewrite IH by (intros y Hy; apply H; right; exact Hy). reflexivity.
Qed.

Lemma value_mask_ok xs : (forall x, In x xs -> stored qs x) ->
  value_mask I (map (fun x => za x) xs) = Ok (map (fun x => negb (term_at (Q x) (snd x))) xs).
Proof.
  intros Hxs. unfold value_mask.
  destruct (column_at s_term false (fun x => term_at (Q x) (snd x))) as (c & Ec & Hc).
  { intros x s Es. unfold term_at. rewrite Es. reflexivity. }
  rewrite Ec. cbn [bind]. rewrite (mapM_at c (fun x => term_at (Q x) (snd x))) by auto. cbn [bind].
  rewrite map_map. reflexivity.
Qed.

Lemma done_qdone x : stored qs x -> term_at (Q x) (snd x) || trunc_at (Q x) (snd x) = qdone (Q x) (snd x).
Proof.
  intros Hx. destruct (stored_some x Hx) as [s Es]. unfold term_at, trunc_at, qdone. rewrite Es.
  symmetry. apply (v_done _ _ _ V x s Es).
Qed.

Lemma unf_at u x : (forall i, In i u <-> exists x, stored qs x /\ i = adr x
     /\ S (snd x) = length (Q x) /\ qdone (Q x) (snd x) = false) -> stored qs x ->
  qdone (Q x) (snd x) || existsb (Nat.eqb (adr x)) u = aend x.
Proof.
  intros Hu Hx. unfold aend, qend. pose proof (proj1 (stored_iff qs x) Hx) as Hlt.
  destruct (qdone (Q x) (snd x)) eqn:Ed; [reflexivity|]. cbn [orb].
  apply eq_true_iff_eq. rewrite existsb_exists, Nat.eqb_eq. split.
  - intros (i & Hi & E). apply Nat.eqb_eq in E. subst i. apply Hu in Hi as (y & Hy & Ey & HS & _).
    apply (v_inj _ _ _ V) in Ey; auto. subst y. lia.
  - intros E. exists (adr x). split; [|apply Nat.eqb_refl]. apply Hu. exists x. repeat split; auto. lia.
Qed.

(** ** n-step *)
Lemma astep_stored n x : stored qs x -> stored qs (astep n x).
Proof. rewrite !stored_iff. unfold astep. cbn [fst snd]. apply walk_lt. Qed.

Lemma stack_ok : forall n k xs, xs <> [] -> (forall x, In x xs -> stored qs x) ->
  stack_indices I n (map (fun x => za (astep k x)) xs)
  = Ok (map (fun j => map (fun x => za (astep j x)) xs) (seq k (S n))).
Proof.
  induction n as [|n IH]; intros k xs Hne Hxs; [reflexivity|]. cbn [stack_indices].
  rewrite <- (map_map (astep k) (fun x => za x)). rewrite (v_next _ _ _ V).
  2:{ destruct xs; [contradiction|discriminate]. }
  2:{ intros x Hx. apply in_map_iff in Hx as (y & <- & Hy). apply astep_stored, Hxs, Hy. }
  cbn [bind]. rewrite map_map.
  rewrite (map_ext_in _ (fun x => za (astep (S k) x))).
  2:{ intros x Hx. unfold astep. cbn [fst snd]. rewrite walk_S by (apply stored_iff, Hxs, Hx). reflexivity. }
  rewrite IH by assumption. cbn [bind]. rewrite map_map. reflexivity.
Qed.

Variables (gamma : Qc) (N : nat).

Definition nlast (x : nat * nat) : nat := last_of (Q x) (snd x) - snd x.
Definition gnum (n : nat) (x : nat * nat) : nat := Nat.min N (Nat.max n (nlast x) + 1).
Definition arew (x : nat * nat) : Qc := rew_at (Q x) (snd x).
Definition csum (n : nat) (x : nat * nat) : Qc :=
  sum_n (gnum n x - n) (fun l => (gamma ^ l * arew (astep (n + l)%nat x))%Qc).

Lemma csum_step n x : n < N -> stored qs x ->
  (gnum n x, csum n x)
  = (if aend (astep n x) then n + 1 else gnum (S n) x,
     (arew (astep n x) + gamma * (if aend (astep n x) then 0 else csum (S n) x))%Qc).
Proof.
  intros Hn Hx. pose proof (proj1 (stored_iff qs x) Hx) as Hlt.
  destruct (last_of_spec (Q x) (snd x) Hlt) as (HL & _ & _).
  assert (Ee : aend (astep n x) = (nlast x <=? n)).
  { unfold aend, astep, nlast. cbn [fst snd]. rewrite (last_of_end (Q x) (snd x)).
    2: exact Hlt. 2: unfold walk; lia. unfold walk. apply eq_true_iff_eq. rewrite Nat.eqb_eq, Nat.leb_le. lia. }
  rewrite Ee. unfold csum. destruct (Nat.leb_spec (nlast x) n) as [H|H].
  - assert (Eg : gnum n x = n + 1) by (unfold gnum; lia). rewrite Eg. f_equal.
    replace (n + 1 - n) with 1 by lia. rewrite sum_n_S, sum_n_0, Nat.add_0_r. cbn [Qcpower]. ring.
  - assert (Eg : gnum n x = gnum (S n) x) by (unfold gnum; lia). rewrite Eg. f_equal.
    assert (E2 : gnum (S n) x - n = S (gnum (S n) x - S n)) by (unfold gnum; lia). rewrite E2, sum_n_S, Nat.add_0_r.
    rewrite (sum_n_ext _ (fun l => (gamma ^ S l * arew (astep (n + S l)%nat x))%Qc)
               (fun l => (gamma * (gamma ^ l * arew (astep (S n + l)%nat x)))%Qc)).
    2:{ intros l _. rewrite qcpow_S. replace (n + S l) with (S n + l) by lia. ring. }
    rewrite sum_n_scale. cbn [Qcpower]. ring.
Qed.

Definition nst (n : nat) (xs : list (nat * nat)) (target : list (list Qc)) : list (nat * list Qc) :=
  map (fun y : nat * nat * list Qc => (gnum n (fst y), map (fun _ => csum n (fst y)) (snd y))) (combine xs target).

Lemma turn_ok rew_B end_B n xs target : n < N -> length target = length xs ->
  (forall x, stored qs x -> nth_error rew_B (adr x) = Some (arew x)) ->
  (forall x, stored qs x -> nth_error end_B (adr x) = Some (aend x)) ->
  (forall x, In x xs -> stored qs x) ->
  nstep_turn rew_B end_B gamma (nst (S n) xs target) (n, map (fun x => za (astep n x)) xs) = Ok (nst n xs target).
Proof.
  intros Hn Hl Hr He Hxs. unfold nstep_turn.
  rewrite <- (map_map (astep n) (fun x => za x)).
  rewrite (mapM_at end_B aend).
  2:{ intros x Hx. apply in_map_iff in Hx as (y & <- & Hy). apply He, astep_stored, Hxs, Hy. }
  cbn [bind]. rewrite (mapM_at rew_B arew).
  2:{ intros x Hx. apply in_map_iff in Hx as (y & <- & Hy). apply Hr, astep_stored, Hxs, Hy. }
  cbn [bind]. f_equal. unfold nst. rewrite !map_map. clear Hr He. revert target Hl Hxs.
  induction xs as [|x xs IH]; intros [|t target] Hl Hxs; try discriminate; [reflexivity|].
  cbn [combine map]. cbn [length] in Hl. injection Hl as Hl. f_equal.
  - cbn [fst snd]. pose proof (csum_step n x Hn (Hxs x (or_introl eq_refl))) as E.
    apply (f_equal fst) in E as E1. apply (f_equal snd) in E as E2. cbn [fst snd] in E1, E2.
    rewrite E1, E2. f_equal. destruct (aend (astep n x)); rewrite ?map_map; apply map_ext; intros _; reflexivity.
  - apply IH; [exact Hl|]. intros y Hy. apply Hxs. right. exact Hy.
Qed.

Lemma combine_map_r {X Y Z0} (f : Y -> Z0) (l : list X) (l' : list Y) :
  combine l (map f l') = map (fun y => (fst y, f (snd y))) (combine l l').
Proof. revert l'; induction l as [|x l IH]; intros [|y l']; cbn; auto. f_equal. apply IH. Qed.
Lemma combine_map_self {X Y} (f : X -> Y) (l : list X) : combine l (map f l) = map (fun x => (x, f x)) l.
Proof. induction l as [|x l IH]; cbn; auto. f_equal. exact IH. Qed.

Lemma turns_ok rew_B end_B xs target : length target = length xs ->
  (forall x, stored qs x -> nth_error rew_B (adr x) = Some (arew x)) ->
  (forall x, stored qs x -> nth_error end_B (adr x) = Some (aend x)) ->
  (forall x, In x xs -> stored qs x) ->
  forall n, n <= N ->
  foldM (nstep_turn rew_B end_B gamma) (rev (map (fun j => (j, map (fun x => za (astep j x)) xs)) (seq 0 n))) (nst n xs target)
  = Ok (nst 0 xs target).
Proof.
  intros Hl Hr He Hxs. induction n as [|n IH]; intros Hn; [reflexivity|].
  rewrite seq_S, map_app, rev_app_distr. cbn [map rev app foldM Nat.add].
  rewrite turn_ok by (assumption || lia). cbn [bind]. apply IH. lia.
Qed.

Lemma nstep_ok xs (tq : list Z -> list (list Qc)) : 0 < N -> xs <> [] -> (forall x, In x xs -> stored qs x) ->
  (forall l, length (tq l) = length l) ->
  compute_nstep_return I (length xs) (map (fun x => za x) xs) tq gamma N false
  = Ok (map (fun y => nstep_target (Q (fst y)) gamma N (snd (fst y)) (snd y))
         (combine xs (tq (map (fun x => za (fst x, nstep_reached (Q x) N (snd x))) xs)))).
Proof.
  intros HN Hne Hxs Htq. unfold compute_nstep_return, guard. cbn [negb].
  rewrite map_length, Nat.eqb_refl.
  assert (E0 : map (fun x => za x) xs = map (fun x => za (astep 0 x)) xs).
  { apply map_ext_in. intros x Hx. unfold astep. rewrite walk_0 by (apply stored_iff, Hxs, Hx). destruct x; reflexivity. }
  rewrite E0, stack_ok by assumption. cbn [bind]. replace (S (N - 1)) with N by lia.
  assert (El : last (map (fun j => map (fun x => za (astep j x)) xs) (seq 0 N)) (map (fun x => za (astep 0 x)) xs)
               = map (fun x => za (astep (N - 1) x)) xs).
  { replace N with (S (N - 1)) at 1 by lia. rewrite seq_S, map_app. cbn [map]. rewrite last_last. reflexivity. }
  rewrite El.
  assert (Ea : map (fun x => za (astep (N - 1) x)) xs
               = map (fun x => za (fst x, nstep_reached (Q x) N (snd x))) xs).
  { apply map_ext_in. intros x Hx. unfold astep, walk, nstep_reached. do 3 f_equal.
    destruct (last_of_spec (Q x) (snd x)) as (HL & _ & _); [apply stored_iff, Hxs, Hx|]. lia. }
  rewrite <- Ea. set (target := tq _).
  assert (Hlt : length target = length xs) by (unfold target; rewrite Htq, map_length; reflexivity).
  rewrite <- (map_map (astep (N - 1)) (fun x => za x)), value_mask_ok.
  2:{ intros x Hx. apply in_map_iff in Hx as (y & <- & Hy). apply astep_stored, Hxs, Hy. }
  cbn [bind]. rewrite map_map.
  destruct (column_at s_done false (fun x => qdone (Q x) (snd x))) as (dn & Ed & Hd).
  { intros x s Es. unfold qdone. rewrite Es. reflexivity. }
  rewrite Ed. cbn [bind]. destruct (v_unf _ _ _ V) as (u & Eu & Hu). rewrite Eu. cbn [bind].
  destruct (column_at s_rew 0%Qc arew) as (rw & Er & Hr).
  { intros x s Es. unfold arew, rew_at. rewrite Es. reflexivity. }
  rewrite Er. cbn [bind]. unfold nstep_return.
  set (tg := map _ (combine target _)).
  assert (Etg : tg = map (fun y : nat * nat * list Qc => map (fun v => (v * b2q (negb (term_at (Q (fst y)) (snd (astep (N - 1) (fst y))))))%Qc) (snd y)) (combine xs target)).
  { unfold tg. clear - Hlt. revert Hlt. generalize target as tg0. induction xs as [|x l IH]; intros [|t tg0] Hlt; try discriminate; [reflexivity|].
    cbn [combine map fst snd]. f_equal. apply IH. cbn in Hlt. lia. }
  assert (Hltg : length tg = length xs) by (rewrite Etg, map_length, combine_length; lia).
  assert (Einit : map (fun q : list Qc => (N, map (fun _ => 0%Qc) q)) tg = nst N xs tg).
  { unfold nst. clear - Hltg. revert Hltg. generalize tg as t0. induction xs as [|x l IH]; intros [|t t0] Hlt; try discriminate; [reflexivity|].
    cbn [combine map fst snd]. cbn [length] in Hlt. f_equal; [|apply IH; lia].
    unfold csum. assert (Eg : gnum N x = N) by (unfold gnum; lia). rewrite Eg, Nat.sub_diag, sum_n_0. reflexivity. }
  rewrite Einit, combine_map_self, turns_ok; auto.
  2:{ intros x Hx. rewrite nth_error_fold_upd, (Hd x Hx). pose proof (unf_at u x Hu Hx) as Hux.
      destruct (existsb _ _); rewrite <- Hux; [rewrite orb_true_r|rewrite orb_false_r]; reflexivity. }
  cbn [bind]. f_equal. unfold nst. rewrite Etg.
  clear - Hlt HN Hxs. revert Hlt Hxs. generalize target as t0. induction xs as [|x l IH]; intros [|t t0] Hlt Hxs; try discriminate; [reflexivity|].
  cbn [length] in Hlt. cbn [combine map fst snd]. f_equal.
  - unfold nstep_target. destruct (last_of_spec (Q x) (snd x)) as (HL & _ & _); [apply stored_iff, Hxs; left; reflexivity|].
    assert (Eg : gnum 0 x = Nat.min N (last_of (Q x) (snd x) + 1 - snd x)) by (unfold gnum, nlast; lia).
    rewrite gamma_buffer_nth by lia. rewrite Eg.
    replace (snd (astep (N - 1) x)) with (snd x + Nat.min N (last_of (Q x) (snd x) + 1 - snd x) - 1)
      by (unfold astep, walk; cbn [fst snd]; lia).
    assert (Ec : csum 0 x = sum_n (Nat.min N (last_of (Q x) (snd x) + 1 - snd x)) (fun j => (gamma ^ j * rew_at (Q x) (snd x + j)%nat)%Qc)).
    { unfold csum. rewrite Eg, Nat.sub_0_r. apply sum_n_ext. intros j Hj. unfold arew, astep, walk. cbn [fst snd]. do 2 f_equal. lia. }
    rewrite Ec. induction t as [|v t IHt]; [reflexivity|]. cbn [map combine fst snd]. f_equal; [|exact IHt].
    destruct (term_at _ _); cbn [negb b2q]; ring.
  - apply IH; [lia|]. intros y Hy. apply Hxs. right. exact Hy.
Qed.

(** ** Episodic returns *)
Variable lam : Qc.
Notation q_ := (qat qs).

Lemma is_end_iff x : stored qs x -> (is_end q_ x <-> aend x = true).
Proof.
  intros Hx. pose proof (proj1 (stored_iff qs x) Hx) as Hlt. unfold is_end, aend.
  destruct (last_of_spec (Q x) (snd x) Hlt) as (HL & _ & _).
  rewrite (last_of_end (Q x) (snd x) (snd x)) by lia. rewrite Nat.eqb_eq. lia.
Qed.

Lemma run_rest : forall xs x, (forall y, In y (x :: xs) -> stored qs y) -> whole_episodes q_ (x :: xs) ->
  firstn (run_length (map aend (x :: xs))) (x :: xs) = map (pair (fst x)) (rest_of_episode (Q x) (snd x)).
Proof.
  induction xs as [|y xs IH]; intros x Hs Hw; cbn [map run_length].
  - destruct Hw as [He _]. apply is_end_iff in He; [|apply Hs; left; reflexivity]. rewrite He.
    pose proof He as He'. apply is_end_iff in He'; [|apply Hs; left; reflexivity]. unfold is_end in He'.
    unfold rest_of_episode. rewrite He'. replace (snd x + 1 - snd x) with 1 by lia.
    cbn [firstn seq map]. destruct x; reflexivity.
  - assert (Hx : stored qs x) by (apply Hs; left; reflexivity).
    destruct Hw as [Hw1 Hw2]. destruct (aend x) eqn:Ee.
    + apply (is_end_iff x Hx) in Ee. unfold is_end in Ee.
      unfold rest_of_episode. rewrite Ee. replace (snd x + 1 - snd x) with 1 by lia.
      cbn [firstn seq map]. destruct x; reflexivity.
    + destruct Hw1 as [Hw1|Ey]; [apply (is_end_iff x Hx) in Hw1; congruence|].
      cbn [firstn]. specialize (IH y (fun z Hz => Hs z (or_intror Hz)) Hw2).
      cbn [map run_length] in IH. rewrite IH. subst y. cbn [fst snd].
      pose proof (proj1 (stored_iff qs x) Hx) as Hlt.
      destruct (last_of_spec (Q x) (snd x) Hlt) as (HL & Hnd & _).
      assert (Hne : last_of (Q x) (snd x) <> snd x).
      { intros E. assert (aend x = true) by (apply is_end_iff; assumption). congruence. }
      assert (Hl2 : last_of (Q x) (S (snd x)) = last_of (Q x) (snd x)).
      { unfold last_of. replace (length (Q x) - 1 - snd x) with (S (length (Q x) - 1 - S (snd x))) by lia.
        cbn [last_of_]. rewrite Hnd by lia. reflexivity. }
      unfold rest_of_episode. rewrite Hl2.
      replace (last_of (Q x) (snd x) + 1 - snd x) with (S (last_of (Q x) (snd x) + 1 - S (snd x))) by lia.
      cbn [seq map]. destruct x; reflexivity.
Qed.

Variable v : nat * nat -> Qc.
Definition vnext (x : nat * nat) : Qc := next_value (Q x) (fun j => v (fst x, j)) (snd x).

Lemma sfx_target xs : (forall y, In y xs -> stored qs y) -> whole_episodes q_ xs ->
  sfx (lamF arew vnext aend gamma lam) xs = map (target_of q_ v gamma lam) xs.
Proof.
  induction xs as [|x xs IH]; intros Hs Hw; [reflexivity|]. cbn [sfx map]. f_equal.
  - unfold lamF. rewrite run_rest by assumption. unfold target_of. rewrite map_map. reflexivity.
  - apply IH; [intros y Hy; apply Hs; right; exact Hy|apply Hw].
Qed.

Lemma episodic_ok xs v_s_ v_s : (forall x, In x xs -> stored qs x) -> whole_episodes q_ xs ->
  (v_s_ = Some (map v xs) \/ v_s_ = None /\ isclose1 lam = true /\ forall x, v x = 0%Qc) ->
  match v_s with Some vs => length vs = length xs /\ chain vnext aend xs vs | None => True end ->
  let base := match v_s with Some vs => vs | None => roll1 (map vnext xs) end in
  exists adv,
  compute_episodic_return I (map (fun x => (arew x, term_at (Q x) (snd x), trunc_at (Q x) (snd x))) xs)
    (map (fun x => za x) xs) v_s_ v_s gamma lam = Ok (map (target_of q_ v gamma lam) xs, adv)
  /\ adv = map (fun y => (fst y - snd y)%Qc) (combine (map (target_of q_ v gamma lam) xs) base).
Proof.
  intros Hs Hw Hv Hvs base. unfold compute_episodic_return.
  set (bt := map (fun x => (arew x, _, _)) xs).
  assert (Er : map (fun x : Qc * bool * bool => fst (fst x)) bt = map arew xs).
  { unfold bt. rewrite map_map. reflexivity. }
  rewrite Er.
  assert (E1 : match v_s_ with
               | None => guard (isclose1 lam) AssertionError (Ok (map (fun _ => 0%Qc) (map arew xs)))
               | Some v0 =>
                   let* mask := value_mask I (map (fun x => za x) xs) in
                   guard (length v0 =? length mask) ValueError
                   (Ok (map (fun x => (fst x * b2q (snd x))%Qc) (combine v0 mask)))
               end = Ok (map vnext xs)).
  { destruct Hv as [->|(-> & Hl & H0)].
    - rewrite value_mask_ok by assumption. cbn [bind]. rewrite !map_length, Nat.eqb_refl. unfold guard. f_equal.
      clear. induction xs as [|x xs IH]; [reflexivity|]. cbn [map combine fst snd]. f_equal; [|exact IH].
      unfold vnext, next_value. destruct x as [k p]. cbn [fst snd]. destruct (term_at _ _); cbn [negb b2q]; ring.
    - rewrite Hl. unfold guard. f_equal. rewrite map_map. apply map_ext. intros x. unfold vnext, next_value.
      rewrite H0. destruct (term_at _ _); reflexivity. }
  rewrite E1. cbn [bind].
  destruct (v_unf _ _ _ V) as (u & Eu & Hu). rewrite Eu. cbn [bind].
  assert (Hbase : length base = length xs /\ chain vnext aend xs base).
  { unfold base. destruct v_s as [vs|]; [exact Hvs|]. split; [rewrite roll1_length, map_length; reflexivity|apply chain_roll]. }
  change (match v_s with Some v0 => v0 | None => roll1 (map vnext xs) end) with base.
  destruct Hbase as [Hb1 Hb2]. rewrite !map_length, Hb1, !Nat.eqb_refl. cbn [andb guard].
  set (ef := map _ (combine bt _)).
  assert (Eef : ef = map aend xs).
  { unfold ef, bt. clear - V Hs Hu. induction xs as [|x xs IH]; [reflexivity|]. cbn [map combine]. f_equal.
    - assert (Hx : stored qs x) by (apply Hs; left; reflexivity).
      rewrite <- (unf_at u x Hu Hx), <- (done_qdone x Hx). f_equal.
      clear. induction u as [|i u IH]; [reflexivity|]. cbn [existsb]. rewrite IH. f_equal.
      apply eq_true_iff_eq. rewrite Z.eqb_eq, Nat.eqb_eq. lia.
    - apply IH. intros y Hy. apply Hs. right. exact Hy. }
  rewrite Eef.
  pose proof (gae_lambda arew vnext aend gamma lam xs base Hb1 Hb2) as G. rewrite G, sfx_target by assumption.
  eexists. split; [reflexivity|]. rewrite <- sfx_target, <- G by assumption.
  assert (Hlen : length (gae_return base (map vnext xs) (map arew xs) (map aend xs) gamma lam) = length base).
  { unfold gae_return. rewrite gae_loop_length; rewrite !map_length, ?combine_length, ?map_length; lia. }
  revert Hlen. generalize (gae_return base (map vnext xs) (map arew xs) (map aend xs) gamma lam) as a. generalize base as b.
  clear. induction b as [|x b IH]; intros [|y a] Hl; try discriminate; [reflexivity|].
  cbn [combine map fst snd]. f_equal; [ring|]. apply IH. cbn [length] in Hl. lia.
Qed.

End View.

Lemma nth_error_roll1 {T} (l : list T) i x : nth_error l i = Some x -> S i < length l -> nth_error (roll1 l) (S i) = Some x.
Proof.
  destruct l as [|a l]; [destruct i; discriminate|]. unfold roll1. intros Hx Hi. cbn [nth_error].
  destruct (@exists_last _ (a :: l)) as (l' & z & E); [discriminate|]. rewrite E in *. rewrite removelast_last.
  rewrite app_length in Hi. cbn [length] in Hi. rewrite nth_error_app1 in Hx by lia. exact Hx.
Qed.

Lemma chain_w {X} (vn : X -> Qc) e (w : X -> Qc) xs :
  (forall i x y, nth_error xs i = Some x -> nth_error xs (S i) = Some y -> e x = false -> w y = vn x) ->
  chain vn e xs (map w xs).
Proof.
  induction xs as [|x [|y xs] IH]; intros H; try exact Logic.I. cbn [map chain]. split.
  - intros He. apply (H 0 x y); auto.
  - apply IH. intros i a b Ha Hb. apply (H (S i)); assumption.
Qed.

Lemma whole_step {Ob A Inf} (q : nat -> list (slot Ob A Inf Qc)) xs : whole_episodes q xs ->
  forall i x y, nth_error xs i = Some x -> nth_error xs (S i) = Some y -> is_end q x \/ y = (fst x, S (snd x)).
Proof.
  induction xs as [|a xs IH]; intros Hw i x y Hx Hy; [destruct i; discriminate|].
  destruct Hw as [H1 H2]. destruct i as [|i].
  - cbn in Hx. injection Hx as <-. destruct xs as [|b xs]; [discriminate|]. cbn in Hy. injection Hy as <-. exact H1.
  - apply (IH H2 i); assumption.
Qed.

Lemma episodic_full {Ob A Inf} (I : ibuf Ob A Inf) qs adr gamma lam v xs v_s_ v_s :
  iview I qs adr -> (forall x, In x xs -> stored qs x) -> whole_episodes (qat qs) xs ->
  (v_s_ = Some (map v xs) \/ v_s_ = None /\ isclose1 lam = true /\ forall x, v x = 0%Qc) ->
  (v_s = None \/ exists w, v_s = Some (map w xs) /\ forall k p, last_of (qat qs k) p <> p ->
     w (k, S p) = next_value (qat qs k) (fun j => v (k, j)) p) ->
  exists adv,
  compute_episodic_return I (map (fun x => (rew_at (qat qs (fst x)) (snd x), term_at (qat qs (fst x)) (snd x),
                                            trunc_at (qat qs (fst x)) (snd x))) xs)
    (map (fun x => Z.of_nat (adr x)) xs) v_s_ v_s gamma lam = Ok (map (target_of (qat qs) v gamma lam) xs, adv)
  /\ (forall w, v_s = Some (map w xs) -> adv = map (fun x => (target_of (qat qs) v gamma lam x - w x)%Qc) xs)
  /\ (v_s = None -> forall i x y, nth_error xs i = Some x -> nth_error xs (S i) = Some y ->
      nth_error adv (S i) = Some (target_of (qat qs) v gamma lam y
                                  - next_value (qat qs (fst x)) (fun j => v (fst x, j)) (snd x))%Qc).
Proof.
  intros V Hs Hw Hv Hvs.
  destruct (episodic_ok I qs adr V gamma 0 lam v xs v_s_ v_s Hs Hw Hv) as (adv & E & Eadv).
  { destruct Hvs as [->|(w & -> & Hw')]; [exact Logic.I|]. split; [apply map_length|].
    apply chain_w. intros i x y Hx Hy He. pose proof (whole_step _ _ Hw i x y Hx Hy) as [H|H].
    - apply is_end_iff in H; [congruence|]. apply Hs, (nth_error_In _ _ Hx).
    - subst y. unfold vnext. apply Hw'. intros Hl.
      assert (aend qs x = true) by (apply is_end_iff; [apply Hs, (nth_error_In _ _ Hx)|exact Hl]). congruence. }
  exists adv. split; [exact E|]. split.
  - intros w ->. rewrite Eadv. clear. induction xs as [|x xs IH]; [reflexivity|]. cbn [map combine fst snd]. f_equal. exact IH.
  - intros -> i x y Hx Hy. rewrite Eadv, nth_error_map, nth_error_combine, nth_error_map, Hy. cbn [option_map].
    rewrite (nth_error_roll1 _ i (vnext qs v x)); [reflexivity|rewrite nth_error_map, Hx; reflexivity|].
    rewrite map_length. apply nth_error_Some. congruence.
Qed.

(** ** The two kinds of buffer *)
Section Instances.
Context {Ob A Inf : Type}.
Notation slot := (slot Ob A Inf Qc).
Notation buf := (buf Ob A Inf Qc).
Notation mgr := (mgr Ob A Inf Qc).

Definition rows_done (q : list slot) : Prop := forall s, In s q -> s_done s = s_term s || s_trunc s.

Lemma push_done n (q xs : list slot) : rows_done q -> rows_done xs -> rows_done (push n q xs).
Proof.
  intros H1 H2 s Hs. unfold push, lastn in Hs.
  assert (Hin : In s (q ++ xs)).
  { rewrite <- (firstn_skipn (length (q ++ xs) - n) (q ++ xs)). apply in_app_iff. right. exact Hs. }
  apply in_app_iff in Hin as [?|?]; auto.
Qed.
Lemma kept_done lf o t : rows_done [kept (Ob := Ob) (A := A) (Inf := Inf) (R := Qc) lf o t].
Proof. intros s [<-|[]]. reflexivity. Qed.

Lemma reach_done r0 radd lf o n (b : buf) q : reach r0 radd lf o n b q -> rows_done q.
Proof.
  induction 1; try (intros s []).
  - apply push_done; [assumption|apply kept_done].
  - apply push_done; assumption.
Qed.
Lemma queue_done lf o n ops : forall q, rows_done q -> rows_done (queue_from (Ob := Ob) (A := A) (Inf := Inf) (R := Qc) lf o n q ops).
Proof.
  induction ops as [|[t|keep] ops IH]; intros q Hq; cbn [queue_from]; [exact Hq| |].
  - apply IH, push_done; [exact Hq|apply kept_done].
  - apply IH. intros s [].
Qed.

Lemma buf_iview n (b : buf) q : inv n b q -> q <> [] -> rows_done q ->
  iview (buf_view b) [q] (fun x => pos (b_st b) (snd x)).
Proof.
  intros H Hne Hd. pose proof (i_s _ _ _ H) as Hs. pose proof (i_len _ _ _ H) as Hl.
  destruct (inv_meta n b q H Hne) as [l El].
  assert (F : forall x, stored [q] x -> fst x = 0 /\ snd x < length q).
  { intros x Hx. destruct Hx as (q' & Hq & Hp). destruct (fst x) as [|[|k]]; try discriminate. injection Hq as <-. auto. }
  split.
  - exists l. split; [exact El|]. intros x s Es.
    assert (stored [q] x) as Hx by (apply stored_iff, nth_error_Some; congruence).
    destruct (F x Hx) as [E0 _]. rewrite E0 in Es.
    pose proof (i_data _ _ _ H _ _ Es) as G. rewrite El in G. exact G.
  - intros xs Hxs Hall. cbn [buf_view ib_next].
    rewrite <- (map_map snd (fun p => Z.of_nat (pos (b_st b) p))).
    change (fun p => Z.of_nat (pos (b_st b) p)) with (zpos b).
    rewrite (next_ok n b q) by (try assumption; intros p Hp; apply in_map_iff in Hp as (x & <- & Hx); apply F, Hall, Hx).
    rewrite map_map. f_equal. apply map_ext_in. intros x Hx. destruct (F x (Hall x Hx)) as [E0 _]. unfold zpos. rewrite E0. reflexivity.
  - cbn [buf_view ib_unfinished]. rewrite (unfinished_ok n b q H) by congruence. eexists. split; [reflexivity|].
    assert (Hlq : 0 < length q) by (destruct q; [contradiction|cbn; lia]).
    destruct (Nat.eqb_spec (length q) 0); [lia|]. cbn [orb]. intros i. split.
    + destruct (qdone q (length q - 1)) eqn:Eq; [intros []|]. intros [<-|[]]. exists (0, length q - 1).
      split; [apply stored_iff; cbn; lia|]. cbn [fst snd qat nth]. repeat split; [lia|exact Eq].
    + intros (x & Hx & -> & HS & Hdn). destruct (F x Hx) as [E0 Hp]. rewrite E0 in *. cbn [qat nth] in *.
      replace (length q - 1) with (snd x) by lia. rewrite Hdn. left. reflexivity.
  - intros x y Hx Hy E. destruct (F x Hx) as [E0 Hp], (F y Hy) as [E1 Hp'].
    apply (pos_inj n (b_st b)) in E; try assumption; try lia.
    destruct x, y; cbn in *; congruence.
  - intros x s Es. apply Hd. assert (stored [q] x) as Hx by (apply stored_iff, nth_error_Some; congruence).
    destruct (F x Hx) as [E0 _]. rewrite E0 in Es. apply (nth_error_In _ _ Es).
Qed.

Lemma mgr_iview ns (m : mgr) qs : mview ns m qs -> m_meta m <> None -> (forall q, In q qs -> rows_done q) ->
  iview (mgr_view m) qs (mpos ns m).
Proof.
  intros Hv Hm Hd.
  assert (Hz : forall x, stored qs x -> Z.of_nat (mpos ns m x) = maddr ns m x).
  { intros x Hx. destruct (mview_at ns m qs x Hv Hx) as (bs & b & c & l & _ & _ & _ & _ & _ & _ & _ & _ & _ & _ & E).
    unfold mpos. rewrite E. lia. }
  assert (St : forall x s, nth_error (qat qs (fst x)) (snd x) = Some s -> stored qs x).
  { intros x s Es. apply stored_iff, nth_error_Some. congruence. }
  split.
  - destruct (m_meta m) as [l|] eqn:El; [|contradiction]. exists l. split; [exact El|]. intros x s Es.
    destruct (mview_at ns m qs x Hv (St x s Es)) as (bs & b & c & l' & Hsim & Hb & Hi & Hc & Hst & Hic & Hl' & Hm' & Hp & Hlt & E).
    rewrite El in Hl'. injection Hl' as <-.
    pose proof (i_data _ _ _ Hic _ _ Es) as G. rewrite Hm' in G. cbn [meta_rows] in G. rewrite Hst in G.
    unfold mpos. rewrite E, Nat2Z.id. unfold slice in G.
    rewrite nth_error_firstn in G. destruct (_ <? _); [|discriminate]. rewrite nth_error_skipn in G. exact G.
  - intros xs Hne Hxs. cbn [mgr_view ib_next].
    rewrite (map_ext_in _ (maddr ns m)) by (intros x Hx; apply Hz, Hxs, Hx).
    rewrite (proj2 (m_prev_ok ns m qs xs Hv Hne Hxs)). f_equal. apply map_ext_in. intros x Hx. symmetry. apply Hz.
    apply stored_iff. cbn [fst snd]. apply succ_of_lt, stored_iff, Hxs, Hx.
  - cbn [mgr_view ib_unfinished]. rewrite (m_unfinished_ok ns m qs Hv Hm). eexists. split; [reflexivity|].
    destruct (children_nth_inv ns m qs Hv) as (Hln & _).
    intros i. rewrite in_concat. split.
    + intros (l & Hl & Hi). apply in_map_iff in Hl as (k & <- & Hk).
      destruct (Nat.eqb_spec (length (qat qs k)) 0) as [E0|E0]; cbn [orb] in Hi; [destruct Hi|].
      destruct (qdone (qat qs k) (length (qat qs k) - 1)) eqn:Eq; [destruct Hi|]. destruct Hi as [<-|[]].
      exists (k, length (qat qs k) - 1). split; [apply stored_iff; cbn [fst snd]; lia|].
      cbn [fst snd]. repeat split; [lia|exact Eq].
    + intros (x & Hx & -> & HS & Hdn). eexists. split.
      * apply in_map_iff. exists (fst x). split; [reflexivity|]. apply in_seq. split; [lia|]. cbn [Nat.add].
        rewrite <- Hln. destruct Hx as (q & Hq & _). apply nth_error_Some. congruence.
      * destruct (Nat.eqb_spec (length (qat qs (fst x))) 0); [lia|]. cbn [orb].
        replace (length (qat qs (fst x)) - 1) with (snd x) by lia. rewrite Hdn. left. destruct x; reflexivity.
  - intros x y Hx Hy E.
    destruct (mview_at ns m qs x Hv Hx) as (bs & b & c & l & Hsim & Hb & Hi & Hc & Hst & Hic & Hl & Hm' & Hp & Hlt & Ex).
    destruct (mview_at ns m qs y Hv Hy) as (bs' & b' & c' & l' & Hsim' & Hb' & Hi' & Hc' & Hst' & Hic' & Hl' & Hm'' & Hp' & Hlt' & Ey).
    assert (E' : off ns (fst x) + pos (b_st b) (snd x) = off ns (fst y) + pos (b_st b') (snd y)).
    { unfold mpos in E. rewrite Ex, Ey, !Nat2Z.id in E. exact E. }
    assert (Hn : nth_error ns (fst x) = Some (bmax b)).
    { rewrite <- (s_sizes _ _ _ Hsim), nth_error_map, Hb. reflexivity. }
    assert (Hn' : nth_error ns (fst y) = Some (bmax b')).
    { rewrite <- (s_sizes _ _ _ Hsim'), nth_error_map, Hb'. reflexivity. }
    destruct (Nat.eq_dec (fst x) (fst y)) as [Ef|Ef].
    + rewrite Ef in *. rewrite Hc in Hc'. injection Hc' as <-. rewrite <- Hst, <- Hst' in E'.
      assert (snd x = snd y).
      { apply (pos_inj _ _ _ _ (i_s _ _ _ Hic)); rewrite <- ?(i_len _ _ _ Hic); try assumption. lia. }
      destruct x, y; cbn in *; congruence.
    + exfalso. apply (off_disjoint ns (fst y) (fst x) (bmax b') (bmax b) (off ns (fst x) + pos (b_st b) (snd x))); try assumption; lia.
  - intros x s Es. destruct (St x s Es) as (q & Hq & _). apply (Hd q (nth_error_In _ _ Hq)).
    unfold qat in Es. rewrite (nth_error_nth _ _ _ Hq) in Es. apply (nth_error_In _ _ Es).
Qed.
End Instances.

Lemma whole_all {Ob A Inf} (q : nat -> list (slot Ob A Inf Qc)) num : whole_episodes q (all_positions q num).
Proof.
  assert (G1 : forall k d p rest, p + d = length (q k) -> whole_episodes q rest ->
               whole_episodes q (map (pair k) (seq p d) ++ rest)).
  { induction d as [|d IH]; intros p rest Hd Hr; [exact Hr|]. cbn [seq map app whole_episodes]. split.
    - destruct d as [|d].
      + assert (E : is_end q (k, p)).
        { unfold is_end. cbn [fst snd]. unfold last_of. replace (length (q k) - 1 - p) with 0 by lia. reflexivity. }
        destruct rest; cbn [seq map app]; auto.
      + cbn [seq map app]. right. reflexivity.
    - apply IH; [lia|exact Hr]. }
  unfold all_positions. generalize (seq 0 num) as ks. induction ks as [|k ks IH]; [exact Logic.I|].
  cbn [flat_map]. apply G1; [lia|exact IH].
Qed.

(** C22.  [compute_episodic_return] on a reachable buffer and a batch of whole episodes: every
    return is the TD(lambda) target of its own episode; with given state values the advantages are
    the differences; without, the value of a state is taken from the preceding batch element. *)
Lemma C22_episodic_return_buffer_lemma : forall (Ob A Inf : Type) (r0 : Qc) radd (last_frame : Ob -> Ob) o n
    (b : buf Ob A Inf Qc) q rnd idx ps (v : nat -> Qc) v_s_ v_s gamma lam,
  0 < n -> reach r0 radd last_frame o n b q -> q <> [] ->
  sample_indices plain b rnd (Some 0%Z) = Ok idx ->
  (forall p, In p ps -> p < length q) -> whole_episodes (fun _ => q) (map (pair 0) ps) ->
  (v_s_ = Some (map v ps) \/ v_s_ = None /\ lam = 1%Qc /\ forall p, v p = 0%Qc) ->
  (v_s = None \/ exists w, v_s = Some (map w ps) /\ forall p, last_of q p <> p -> w (S p) = next_value q v p) ->
  let at_ p := Z.of_nat (nth p idx 0) in
  let target p := lambda_return gamma lam
                    (map (fun j => (rew_at q j, next_value q v j)) (rest_of_episode q p)) in
  exists adv,
  compute_episodic_return (buf_view b) (map (fun p => (rew_at q p, term_at q p, trunc_at q p)) ps)
    (map at_ ps) v_s_ v_s gamma lam = Ok (map target ps, adv)
  /\ (forall w, v_s = Some (map w ps) -> adv = map (fun p => (target p - w p)%Qc) ps)
  /\ (v_s = None -> forall i p p', nth_error ps i = Some p -> nth_error ps (S i) = Some p' ->
      nth_error adv (S i) = Some (target p' - next_value q v p)%Qc).
Proof.
  intros Ob A Inf r0 radd lf o n b q rnd idx ps v v_s_ v_s gamma lam Hn Hr Hne Hidx Hps Hw Hv Hvs at_ target.
  pose proof (reach_inv r0 radd lf o n b q Hr Hn) as Hi.
  destruct (inv_meta n b q Hi Hne) as [l El].
  pose proof (buf_iview n b q Hi Hne (reach_done _ _ _ _ _ _ _ Hr)) as V.
  assert (Eat : forall p, p < length q -> at_ p = Z.of_nat (pos (b_st b) p)).
  { intros p Hp. unfold at_.
    destruct (sample_zero_ok n b q plain rnd Hi (Nat.lt_0_1)) as [E _]; [congruence|]. rewrite E in Hidx. injection Hidx as <-.
    unfold avail_positions. cbn [plain stack_num Nat.eqb orb]. rewrite filter_true by reflexivity.
    erewrite nth_error_nth; [reflexivity|]. rewrite nth_error_map_seq. destruct (Nat.ltb_spec p (length q)); [reflexivity|lia]. }
  destruct (episodic_full (buf_view b) [q] _ gamma lam (fun x => v (snd x)) (map (pair 0) ps) v_s_ v_s V) as (adv & E & A1 & A2).
  - intros x Hx. apply in_map_iff in Hx as (p & <- & Hp). apply stored_iff. cbn [fst snd]. apply Hps, Hp.
  - clear - Hw Hps. assert (G : forall xs, (forall x, In x xs -> fst x = 0) -> whole_episodes (fun _ => q) xs -> whole_episodes (qat [q]) xs).
    { induction xs as [|x xs IH]; intros H0 Hx; [exact Logic.I|]. destruct Hx as [H1 H2]. split; [|apply IH; [intros y Hy; apply H0; right; exact Hy|exact H2]].
      unfold is_end in *. rewrite (H0 x (or_introl eq_refl)) in *. exact H1. }
    apply G; [|exact Hw]. intros x Hx. apply in_map_iff in Hx as (p & <- & _). reflexivity.
  - rewrite map_map. cbn [snd]. destruct Hv as [Hv|(Hv & -> & Hv0)]; [left; exact Hv|right].
    split; [exact Hv|]. split; [reflexivity|]. intros x. apply Hv0.
  - destruct Hvs as [Hvs|(w & Hvs & Hw')]; [left; exact Hvs|right]. exists (fun x => w (snd x)). rewrite map_map.
    split; [exact Hvs|]. intros k p Hl. cbn [snd].
    destruct k as [|k]; [apply Hw', Hl|]. exfalso. apply Hl. destruct k; reflexivity.
  - exists adv. rewrite !map_map in E. cbn [fst snd] in E.
    rewrite (map_ext_in _ at_) in E by (intros p Hp; symmetry; apply Eat, Hps, Hp).
    split; [exact E|]. split.
    + intros w Hw'. rewrite (A1 (fun x => w (snd x))) by (rewrite map_map; exact Hw'). rewrite map_map. reflexivity.
    + intros Hn' i p p' Hp Hp'. apply (A2 Hn' i (0, p) (0, p')); rewrite nth_error_map; [rewrite Hp|rewrite Hp']; reflexivity.
Qed.

(** C22.  The same for a buffer manager, e.g. a VectorReplayBuffer. *)
Lemma C22_episodic_return_manager_lemma : forall (Ob A Inf : Type) (r0 : Qc) radd (last_frame : Ob -> Ob) o ns
    (ops : list (mop Ob A Inf Qc)) m outs xs (v : nat * nat -> Qc) v_s_ v_s gamma lam,
  (forall n, In n ns -> 0 < n) ->
  m_run r0 radd last_frame o (m_init r0 ns) ops = Ok (m, outs) ->
  (exists ids ts, In (MAdd ids ts) ops) ->
  let q k := mqueue last_frame o ns ops k in
  (forall x, In x xs -> snd x < length (q (fst x))) -> whole_episodes q xs ->
  (v_s_ = Some (map v xs) \/ v_s_ = None /\ lam = 1%Qc /\ forall x, v x = 0%Qc) ->
  (v_s = None \/ exists w, v_s = Some (map w xs) /\ forall k p, last_of (q k) p <> p ->
     w (k, S p) = next_value (q k) (fun j => v (k, j)) p) ->
  exists adv,
  compute_episodic_return (mgr_view m)
    (map (fun x => (rew_at (q (fst x)) (snd x), term_at (q (fst x)) (snd x), trunc_at (q (fst x)) (snd x))) xs)
    (map (fun x => Z.of_nat (maddress ns ops x)) xs) v_s_ v_s gamma lam
  = Ok (map (target_of q v gamma lam) xs, adv)
  /\ (forall w, v_s = Some (map w xs) -> adv = map (fun x => (target_of q v gamma lam x - w x)%Qc) xs)
  /\ (v_s = None -> forall i x y, nth_error xs i = Some x -> nth_error xs (S i) = Some y ->
      nth_error adv (S i) = Some (target_of q v gamma lam y
                                  - next_value (q (fst x)) (fun j => v (fst x, j)) (snd x))%Qc).
Proof.
  intros Ob A Inf r0 radd lf o ns ops m outs xs v v_s_ v_s gamma lam Hpos Hrun Hadd q Hxs Hw Hv Hvs.
  destruct (run_view r0 radd lf o ns ops m outs Hpos Hrun) as (Hv' & Hm & Hadr & _). specialize (Hm Hadd).
  set (qs := map (mqueue lf o ns ops) (seq 0 (length ns))) in *.
  assert (Eq : forall k, qat qs k = q k) by (intros k; apply qat_mqueue).
  assert (V : iview (mgr_view m) qs (mpos ns m)).
  { apply mgr_iview; try assumption. intros q0 Hq0. apply in_map_iff in Hq0 as (k & <- & _). unfold mqueue.
    destruct (nth_error ns k); [apply queue_done|]; intros s []. }
  assert (Hst : forall x, In x xs -> stored qs x) by (intros x Hx; apply stored_mqueue, Hxs, Hx).
  assert (Hw2 : whole_episodes (qat qs) xs).
  { clear - Hw Eq. induction xs as [|x xs IH]; [exact Logic.I|]. destruct Hw as [H1 H2]. split; [|apply IH, H2].
    unfold is_end in *. rewrite Eq. exact H1. }
  assert (Et : forall x, target_of (qat qs) v gamma lam x = target_of q v gamma lam x).
  { intros x. unfold target_of. rewrite Eq. reflexivity. }
  destruct (episodic_full (mgr_view m) qs _ gamma lam v xs v_s_ v_s V Hst Hw2) as (adv & E & A1 & A2).
  - destruct Hv as [Hv|(Hv & -> & Hv0)]; [left; exact Hv|right]. auto.
  - destruct Hvs as [Hvs|(w & Hvs & Hw')]; [left; exact Hvs|right]. exists w. split; [exact Hvs|].
    intros k p. rewrite Eq. apply Hw'.
  - exists adv. rewrite (map_ext _ _ Et) in E.
    rewrite (map_ext_in (fun x => Z.of_nat (mpos ns m x)) (fun x => Z.of_nat (maddress ns ops x))) in E.
    2:{ intros x Hx. unfold mpos. rewrite (Hadr x (Hst x Hx)), Nat2Z.id. reflexivity. }
    rewrite (map_ext _ (fun x => (rew_at (q (fst x)) (snd x), term_at (q (fst x)) (snd x), trunc_at (q (fst x)) (snd x)))) in E
      by (intros x; rewrite Eq; reflexivity).
    split; [exact E|]. split.
    + intros w Hw'. rewrite (A1 w Hw'). apply map_ext. intros x. rewrite Et. reflexivity.
    + intros Hn' i x y Hx Hy. rewrite (A2 Hn' i x y Hx Hy), Et, Eq. reflexivity.
Qed.

(** C22.  The batch returned by [sample(0)], all stored positions in order, is such a batch. *)
Lemma C22_full_batch_lemma : forall (Ob A Inf : Type) (q : nat -> list (slot Ob A Inf Qc)) num,
  whole_episodes q (all_positions q num).
Proof. intros. apply whole_all. Qed.

(** C22.  With lambda = 1 the target is the discounted sum of the rewards of the rest of the
    episode plus the discounted value of the state after it. *)
Lemma C22_lambda_one_lemma : forall gamma steps, steps <> [] ->
  lambda_return gamma 1 steps
  = (sum_n (length steps) (fun l => (gamma ^ l * fst (nth l steps (0, 0)))%Qc)
     + gamma ^ length steps * snd (last steps (0, 0)))%Qc.
Proof.
  intros gamma steps _. induction steps as [|[r v] [|[r' v'] rest] IH].
  - cbn. ring.
  - cbn [lambda_return length nth last fst snd]. rewrite sum_n_S, sum_n_0. cbn [nth fst Qcpower]. ring.
  - change (lambda_return gamma 1 ((r, v) :: (r', v') :: rest))
      with (r + gamma * ((1 - 1) * v + 1 * lambda_return gamma 1 ((r', v') :: rest)))%Qc.
    rewrite IH. set (t := (r', v') :: rest). change (length ((r, v) :: t)) with (S (length t)).
    change (last ((r, v) :: t) (0%Qc, 0%Qc)) with (last t (0%Qc, 0%Qc)). rewrite sum_n_S.
    rewrite (sum_n_ext _ (fun l => (gamma ^ S l * fst (nth (S l) ((r, v) :: t) (0, 0)))%Qc)
               (fun l => (gamma * (gamma ^ l * fst (nth l t (0, 0))))%Qc)).
    2:{ intros l _. rewrite qcpow_S. cbn [nth]. ring. }
    rewrite sum_n_scale, qcpow_S. cbn [nth fst Qcpower]. ring.
Qed.

(** C23.  [compute_nstep_return] on a reachable buffer: every return sums at most [N] rewards, stops
    at the end of the episode (or at the newest stored step), and bootstraps with the right power of
    gamma from the state after the last step used, unless that step is terminal. *)
Lemma C23_nstep_buffer_lemma : forall (Ob A Inf : Type) (r0 : Qc) radd (last_frame : Ob -> Ob) o n
    (b : buf Ob A Inf Qc) q rnd idx ps (target_q_fn : list Z -> list (list Qc)) gamma N,
  0 < n -> reach r0 radd last_frame o n b q -> q <> [] ->
  sample_indices plain b rnd (Some 0%Z) = Ok idx ->
  (forall p, In p ps -> p < length q) -> ps <> [] -> 0 < N ->
  (forall l, length (target_q_fn l) = length l) ->
  let at_ p := Z.of_nat (nth p idx 0) in
  compute_nstep_return (buf_view b) (length ps) (map at_ ps) target_q_fn gamma N false
  = Ok (map (fun y => nstep_target q gamma N (fst y) (snd y))
         (combine ps (target_q_fn (map (fun p => at_ (nstep_reached q N p)) ps)))).
Proof.
  intros Ob A Inf r0 radd lf o n b q rnd idx ps tq gamma N Hn Hr Hne Hidx Hps Hpne HN Htq at_.
  pose proof (reach_inv r0 radd lf o n b q Hr Hn) as Hi.
  destruct (inv_meta n b q Hi Hne) as [l El].
  pose proof (buf_iview n b q Hi Hne (reach_done _ _ _ _ _ _ _ Hr)) as V.
  assert (Eat : forall p, p < length q -> at_ p = Z.of_nat (pos (b_st b) p)).
  { intros p Hp. unfold at_.
    destruct (sample_zero_ok n b q plain rnd Hi (Nat.lt_0_1)) as [E _]; [congruence|]. rewrite E in Hidx. injection Hidx as <-.
    unfold avail_positions. cbn [plain stack_num Nat.eqb orb]. rewrite filter_true by reflexivity.
    erewrite nth_error_nth; [reflexivity|]. rewrite nth_error_map_seq. destruct (Nat.ltb_spec p (length q)); [reflexivity|lia]. }
  assert (Hrl : forall p, p < length q -> nstep_reached q N p < length q).
  { intros p Hp. destruct (last_of_spec q p Hp) as (HL & _ & _). unfold nstep_reached. lia. }
  pose proof (nstep_ok (buf_view b) [q] _ V gamma N (map (pair 0) ps) tq HN) as G.
  rewrite !map_map, map_length in G. cbn [fst snd qat nth] in G.
  rewrite (map_ext_in _ at_) in G by (intros p Hp; symmetry; apply Eat, Hps, Hp).
  rewrite (map_ext_in (fun x => Z.of_nat (pos (b_st b) (nstep_reached q N x))) (fun p => at_ (nstep_reached q N p))) in G by (intros p Hp; symmetry; apply Eat, Hrl, Hps, Hp).
  rewrite G.
  - f_equal. generalize (tq (map (fun p => at_ (nstep_reached q N p)) ps)) as tl. clear.
    induction ps as [|p ps IH]; intros [|t tl]; try reflexivity. cbn [map combine fst snd qat nth]. f_equal. apply IH.
  - destruct ps; [contradiction|discriminate].
  - intros x Hx. apply in_map_iff in Hx as (p & <- & Hp). apply stored_iff. cbn [fst snd]. apply Hps, Hp.
  - exact Htq.
Qed.

(** C23.  The same for a buffer manager. *)
Lemma C23_nstep_manager_lemma : forall (Ob A Inf : Type) (r0 : Qc) radd (last_frame : Ob -> Ob) o ns
    (ops : list (mop Ob A Inf Qc)) m outs xs (target_q_fn : list Z -> list (list Qc)) gamma N,
  (forall n, In n ns -> 0 < n) ->
  m_run r0 radd last_frame o (m_init r0 ns) ops = Ok (m, outs) ->
  let q k := mqueue last_frame o ns ops k in
  let at_ x := Z.of_nat (maddress ns ops x) in
  (forall x, In x xs -> snd x < length (q (fst x))) -> xs <> [] -> 0 < N ->
  (forall l, length (target_q_fn l) = length l) ->
  compute_nstep_return (mgr_view m) (length xs) (map at_ xs) target_q_fn gamma N false
  = Ok (map (fun y => nstep_target (q (fst (fst y))) gamma N (snd (fst y)) (snd y))
         (combine xs (target_q_fn (map (fun x => at_ (fst x, nstep_reached (q (fst x)) N (snd x))) xs)))).
Proof.
  intros Ob A Inf r0 radd lf o ns ops m outs xs tq gamma N Hpos Hrun q at_ Hxs Hne HN Htq.
  destruct (run_view r0 radd lf o ns ops m outs Hpos Hrun) as (Hv' & Hm & Hadr & _).
  set (qs := map (mqueue lf o ns ops) (seq 0 (length ns))) in *.
  assert (Eq : forall k, qat qs k = q k) by (intros k; apply qat_mqueue).
  assert (Hst : forall x, In x xs -> stored qs x) by (intros x Hx; apply stored_mqueue, Hxs, Hx).
  assert (Hmeta : m_meta m <> None).
  { destruct xs as [|x xs]; [contradiction|].
    destruct (mview_at ns m qs x Hv' (Hst x (or_introl eq_refl))) as (bs & b & c & l & _ & _ & _ & _ & _ & _ & E & _). congruence. }
  assert (V : iview (mgr_view m) qs (mpos ns m)).
  { apply mgr_iview; try assumption. intros q0 Hq0. apply in_map_iff in Hq0 as (k & <- & _). unfold mqueue.
    destruct (nth_error ns k); [apply queue_done|]; intros s []. }
  assert (Ha : forall x, stored qs x -> Z.of_nat (mpos ns m x) = at_ x).
  { intros x Hx. unfold mpos, at_. rewrite (Hadr x Hx), Nat2Z.id. reflexivity. }
  pose proof (nstep_ok (mgr_view m) qs _ V gamma N xs tq HN Hne Hst Htq) as G.
  rewrite (map_ext_in _ at_) in G by (intros x Hx; apply Ha, Hst, Hx).
  rewrite (map_ext_in (fun x => Z.of_nat (mpos ns m (fst x, nstep_reached (qat qs (fst x)) N (snd x)))) (fun x => at_ (fst x, nstep_reached (q (fst x)) N (snd x)))) in G.
  2:{ intros x Hx. rewrite Eq. apply Ha, stored_iff. cbn [fst snd]. rewrite Eq.
      destruct (last_of_spec (q (fst x)) (snd x) (Hxs x Hx)) as (HL & _ & _). unfold nstep_reached. lia. }
  rewrite G. f_equal. apply map_ext. intros y. rewrite Eq. reflexivity.
Qed.

Lemma buf_run_reach {Ob A Inf R} (r0 : R) radd (lf : Ob -> Ob) o n : forall ops (b : buf Ob A Inf R) q b' rs,
  reach r0 radd lf o n b q -> buf_run r0 radd lf o b ops = Ok (b', rs) ->
  reach r0 radd lf o n b' (queue_from lf o n q ops).
Proof.
  induction ops as [|[t|keep] ops IH]; intros b q b' rs Hr E; cbn [buf_run queue_from] in *.
  - injection E as <- _. exact Hr.
  - destruct (add r0 radd lf o b t) as [[b1 r1]|e] eqn:Ea; [|discriminate]. cbn [bind fst snd] in E.
    destruct (buf_run r0 radd lf o b1 ops) as [[b2 r2]|e] eqn:Er; [|discriminate]. cbn [bind fst snd] in E.
    injection E as <- _. apply (IH b1 _ b2 r2); [|exact Er]. eapply reach_add; eassumption.
  - apply (IH _ _ _ _ (reach_reset _ _ _ _ _ _ _ _ Hr) E).
Qed.

(** Concrete buffers with rational rewards. *)
Definition qz (z : Z) : Qc := Q2Qc (inject_Z z).
Definition qt (k : nat) (term trunc : bool) : trans nat nat unit Qc :=
  mkTrans k k (qz (Z.of_nat k)) term trunc (S k) tt.
Definition qbuf (n : nat) (ts : list (trans nat nat unit Qc)) : buf nat nat unit Qc :=
  match buf_run 0%Qc Qcplus (fun x => x) plain (buf_init 0%Qc n) (map OpAdd ts) with
  | Ok (b, _) => b
  | Err _ => buf_init 0%Qc n
  end.
Definition qqueue (n : nat) (ts : list (trans nat nat unit Qc)) :=
  queue (fun x => x) plain n (map OpAdd ts).
Lemma qbuf_reach n ts : 0 < n -> reach 0%Qc Qcplus (fun x => x) plain n (qbuf n ts) (qqueue n ts).
Proof.
  intros Hn. unfold qbuf. destruct (C02_episode_report_lemma nat nat unit Qc 0%Qc Qcplus (fun x => x) plain n (map OpAdd ts) Hn) as [b E].
  rewrite E. apply (buf_run_reach _ _ _ _ _ _ _ _ _ _ (reach_init _ _ _ _ _) E).
Qed.

(** C59.  When the state values are not passed, the advantage of the first step of an episode depends
    on the value estimate of another episode of the batch. *)
Lemma C59_own_episode_refuted_lemma : exists n (b : buf nat nat unit Qc) q v v' ret ret' adv adv' idx,
  reach 0%Qc Qcplus (fun x => x) plain n b q /\ length q = 2
  /\ last_of q 0 = 0 /\ last_of q 1 = 1
  /\ sample_indices plain b (fun _ => 0) (Some 0%Z) = Ok idx
  /\ (forall p, p <> 0 -> v p = v' p)
  /\ (let batch := map (fun p => (rew_at q p, term_at q p, trunc_at q p)) [0; 1] in
      compute_episodic_return (buf_view b) batch (map Z.of_nat idx) (Some (map v [0; 1])) None 1 1 = Ok (ret, adv)
      /\ compute_episodic_return (buf_view b) batch (map Z.of_nat idx) (Some (map v' [0; 1])) None 1 1 = Ok (ret', adv'))
  /\ nth_error ret 1 = nth_error ret' 1 /\ nth_error adv 1 <> nth_error adv' 1.
Proof.
  exists 3, (qbuf 3 [qt 1 false true; qt 2 false true]), (qqueue 3 [qt 1 false true; qt 2 false true]),
    (fun _ => 0%Qc), (fun p => if p =? 0 then 1%Qc else 0%Qc). do 4 eexists. exists [0; 1].
  split; [apply qbuf_reach; lia|]. split; [reflexivity|]. split; [reflexivity|]. split; [reflexivity|].
  split; [vm_compute; reflexivity|]. split; [intros [|p] Hp; [contradiction|reflexivity]|].
  cbv zeta. split; [split; vm_compute; reflexivity|]. split; [vm_compute; reflexivity|]. vm_compute. discriminate.
Qed.
