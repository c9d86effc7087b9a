(** * Proofs of property C381: bounds and special cases of the exploration noise *)
From Verif Require Import Py PyLemmas Num ActorModel ActorProofs ExpnModel ExpnProofs.
Open Scope nat_scope.

(** C381.  OUNoise with theta dt = 1 is GaussianNoise with the same mean and sigma sqrt(dt), in every
    sequence of calls and from every state. *)
Lemma C381_gauss_lemma : forall (mu beta : Qc) (x0 : ouval) (steps : list cstep),
  expl_run (NOU mu 1%Qc beta x0) steps = expl_run (NGauss mu beta) steps.
Proof.
  intros mu beta x0 steps. revert x0. induction steps as [|s steps IH]; intros x0; [reflexivity|]. rewrite ou_step, IH. cbn [expl_run expl_noise noise_call]. do 4 f_equal.
  unfold ou_call. cbn [fst size_len]. apply map_ext. intros j. ring.
Qed.

Lemma within_mix : forall al be mu v z m zm : Qc, (0 <= al)%Qc -> (al <= 1)%Qc -> (0 <= be)%Qc ->
  (be * zm <= al * m)%Qc -> (mu - m <= v)%Qc -> (v <= mu + m)%Qc -> (- zm <= z)%Qc -> (z <= zm)%Qc ->
  (mu - m <= v + al * (mu - v) + be * z)%Qc /\ (v + al * (mu - v) + be * z <= mu + m)%Qc.
Proof.
  intros al be mu v z m zm A0 A1 B0 H V1 V2 Z1 Z2.
  assert (P : forall x y : Qc, (x <= y)%Qc <-> (0 <= y - x)%Qc).
  { intros x y. split; intros Q; [apply Qcle_minus_iff in Q; replace (y - x)%Qc with (y + - x)%Qc by ring; exact Q|apply Qcle_minus_iff; replace (y + - x)%Qc with (y - x)%Qc by ring; exact Q]. }
  assert (S : forall x y : Qc, (0 <= x)%Qc -> (0 <= y)%Qc -> (0 <= x * y)%Qc).
  { intros x y Hx Hy. rewrite <- (Qcmult_0_l y). apply Qcmult_le_compat_r; assumption. }
  assert (T : forall x y : Qc, (0 <= x)%Qc -> (0 <= y)%Qc -> (0 <= x + y)%Qc).
  { intros x y Hx Hy. replace 0%Qc with (0 + 0)%Qc by ring. apply Qcplus_le_compat; assumption. }
  apply P in A1, H, V1, V2, Z1, Z2. split; apply P.
  - replace (v + al * (mu - v) + be * z - (mu - m))%Qc with ((1 - al) * (v - (mu - m)) + (be * (z - - zm) + (al * m - be * zm)))%Qc by ring.
    apply T; [apply S; assumption|]. apply T; [apply S; assumption|exact H].
  - replace (mu + m - (v + al * (mu - v) + be * z))%Qc with ((1 - al) * (mu + m - v) + (be * (zm - z) + (al * m - be * zm)))%Qc by ring.
    apply T; [apply S; assumption|]. apply T; [apply S; assumption|exact H].
Qed.

Lemma ou_in : forall al be mu m zm n z x, (0 <= al)%Qc -> (al <= 1)%Qc -> (0 <= be)%Qc -> (be * zm <= al * m)%Qc ->
  (mu - m <= 0)%Qc -> (0 <= mu + m)%Qc ->
  (forall j, (mu - m <= ou_get x j)%Qc /\ (ou_get x j <= mu + m)%Qc) -> (forall j, (- zm <= nth j z 0)%Qc /\ (nth j z 0 <= zm)%Qc) ->
  forall j, (mu - m <= ou_get (OUArr (fst (ou_call mu al be (SizeTuple n) z x))) j)%Qc /\ (ou_get (OUArr (fst (ou_call mu al be (SizeTuple n) z x))) j <= mu + m)%Qc.
Proof.
  intros al be mu m zm n z x A0 A1 B0 H M1 M2 X Z j. cbn [ou_get]. destruct (le_lt_dec n j) as [L|L].
  - rewrite nth_overflow; [split; assumption|]. rewrite ou_len1. exact L.
  - unfold ou_call. cbn [fst size_len]. rewrite nth_map_seq by exact L.
    assert (R : (mu - m <= ou_get (ou_restart x (SizeTuple n)) j)%Qc /\ (ou_get (ou_restart x (SizeTuple n)) j <= mu + m)%Qc).
    { destruct x as [|v|l]; cbn [ou_restart ou_get]; [split; assumption|apply (X j)|]. destruct (length l =? n); [apply (X j)|split; assumption]. }
    destruct (Z j) as [Z1 Z2]. destruct R as [R1 R2]. apply (within_mix al be mu _ _ m zm); assumption.
Qed.

(** C381.  With 0 <= theta dt <= 1 and draws in [-zm, zm], the noise stays within m of mu in every sequence of calls,
    if m theta dt >= sigma sqrt(dt) zm and the starting values 0 and x0 are that near. *)
Lemma C381_bounded_lemma : forall (mu alpha beta m zm : Qc) (x0 : ouval) (steps : list cstep) (k j i : nat) (s : cstep) (a : Qc),
  (0 <= alpha)%Qc -> (alpha <= 1)%Qc -> (0 <= beta)%Qc -> (beta * zm <= alpha * m)%Qc ->
  (mu - m <= 0)%Qc -> (0 <= mu + m)%Qc -> (forall j, (mu - m <= ou_get x0 j)%Qc /\ (ou_get x0 j <= mu + m)%Qc) ->
  Forall (fun s => cstep_ok s /\ forall j, (- zm <= nth j (cs_z s) 0)%Qc /\ (nth j (cs_z s) 0 <= zm)%Qc) steps ->
  nth_error steps k = Some s -> nth_error (cs_ids s) j = Some i -> nth_error (cs_act s) j = Some a ->
  exists l v, nth_error (expl_run (NOU mu alpha beta x0) steps) k = Some l /\ nth_error l j = Some (i, (a + v)%Qc)
    /\ (mu - m <= v)%Qc /\ (v <= mu + m)%Qc.
Proof.
  intros mu al be m zm x0 steps k j i s a A0 A1 B0 H M1 M2. revert x0 k. induction steps as [|s0 steps IH]; intros x0 k X F Hs Hi Ha; [destruct k; discriminate|].
  inversion F as [|s1 l1 [F0 Z0] F1]; subst s1 l1. rewrite ou_step.
  pose proof (ou_in al be mu m zm (length (cs_act s0)) (cs_z s0) x0 A0 A1 B0 H M1 M2 X Z0) as Q. destruct k as [|k].
  - cbn [nth_error] in Hs. injection Hs as ->. eexists. eexists. split; [reflexivity|]. split; [apply row_of; [exact F0|rewrite ou_len1; exact F0|exact Hi|exact Ha]|].
    specialize (Q j). cbn [ou_get] in Q. exact Q.
  - cbn [nth_error]. apply (IH _ k Q F1 Hs Hi Ha).
Qed.

(** C381.  Once the number of ready environments has changed, earlier noise, x0 included, does not matter any more. *)
Lemma C381_forget_lemma : forall (mu alpha beta : Qc) (x0 : ouval) (s t : cstep) (steps : list cstep) (before : list cstep),
  length (cs_act s) <> length (cs_act t) ->
  skipn (S (length before)) (expl_run (NOU mu alpha beta x0) (before ++ s :: t :: steps)) =
  expl_run (NOU mu alpha beta OUNone) (t :: steps).
Proof.
  intros mu al be x0 s t steps before L. revert x0. induction before as [|b before IH]; intros x0.
  - cbn [app length]. rewrite ou_step. cbn [skipn]. rewrite !ou_step.
    assert (E : forall l, length l = length (cs_act s) -> ou_call mu al be (SizeTuple (length (cs_act t))) (cs_z t) (OUArr l) = ou_call mu al be (SizeTuple (length (cs_act t))) (cs_z t) OUNone).
    { intros l Hl. unfold ou_call. cbn [ou_restart]. replace (length l =? length (cs_act t)) with false by (symmetry; apply Nat.eqb_neq; congruence). reflexivity. }
    rewrite !E by apply ou_len1. reflexivity.
  - cbn [app length]. rewrite ou_step. cbn [skipn]. apply IH.
Qed.

(** C381.  Two noises that differ only in where they start approach each other: with equal draws and equally many ready
    environments their difference shrinks by 1 - theta dt in every step. *)
Lemma C381_contract_lemma : forall (mu alpha beta : Qc) (n : nat) (zs : list (list Qc)) (x0 y0 : ouval) (k j : nat) (r q : list Qc),
  match x0 with OUArr l => length l = n | _ => True end -> match y0 with OUArr l => length l = n | _ => True end -> j < n ->
  nth_error (ou_run mu alpha beta (map (pair (SizeTuple n)) zs) x0) k = Some r ->
  nth_error (ou_run mu alpha beta (map (pair (SizeTuple n)) zs) y0) k = Some q ->
  (nth j r 0 - nth j q 0 = Qcpower (1 - alpha) (S k) * (ou_get x0 j - ou_get y0 j))%Qc.
Proof.
  intros mu al be n zs x0 y0 k j r q X Y J R Q.
  destruct (C172_process_partial_lemma mu al be n zs x0 X) as (_ & P1). destruct (P1 k r R) as (_ & V1).
  destruct (C172_process_partial_lemma mu al be n zs y0 Y) as (_ & P2). destruct (P2 k q Q) as (_ & V2). rewrite (V1 j J), (V2 j J). ring.
Qed.
