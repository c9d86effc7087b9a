(** * Exact rational arithmetic ([Qc]: canonical rationals with Leibniz equality)
    and a tactic that discharges linear goals over it. *)
From Coq Require Export QArith Qcanon Lqa.
From Coq Require Import List Lia.
Export ListNotations.
Open Scope Qc_scope.

Lemma Qc_eq_Qeq (x y : Qc) : x = y <-> (this x == this y)%Q.
Proof. split; [intros ->; reflexivity | apply Qc_is_canon]. Qed.

Lemma this_plus (x y : Qc) : (this (x + y) == this x + this y)%Q.
Proof. unfold Qcplus, Q2Qc; cbn [this]; apply Qred_correct. Qed.
Lemma this_mult (x y : Qc) : (this (x * y) == this x * this y)%Q.
Proof. unfold Qcmult, Q2Qc; cbn [this]; apply Qred_correct. Qed.
Lemma this_opp (x : Qc) : (this (- x) == - this x)%Q.
Proof. unfold Qcopp, Q2Qc; cbn [this]; apply Qred_correct. Qed.
Lemma this_minus (x y : Qc) : (this (x - y) == this x - this y)%Q.
Proof. unfold Qcminus; rewrite this_plus, this_opp; reflexivity. Qed.
Lemma this_Q2Qc (q : Q) : (this (Q2Qc q) == q)%Q.
Proof. unfold Q2Qc; cbn [this]; apply Qred_correct. Qed.
Lemma this_0 : (this 0 == 0)%Q. Proof. reflexivity. Qed.
Lemma this_1 : (this 1 == 1)%Q. Proof. reflexivity. Qed.

(** [qclra]: linear arithmetic over [Qc], by translation to [Q]. *)
Ltac qcify :=
  repeat match goal with
  | H : @eq Qc _ _ |- _ => apply Qc_eq_Qeq in H
  | H : _ /\ _ |- _ => destruct H
  | |- @eq Qc _ _ => apply Qc_eq_Qeq
  | |- ~ _ => intro
  end;
  unfold Qclt, Qcle in *;
  repeat (rewrite this_plus in * || rewrite this_minus in * || rewrite this_opp in *
          || rewrite this_mult in * || rewrite this_Q2Qc in * || rewrite this_0 in *
          || rewrite this_1 in *).
Ltac qclra := qcify; lra.
Ltac qcnra := qcify; nra.

(** Boolean comparisons. *)
Definition Qcleb (x y : Qc) : bool := Qle_bool (this x) (this y).
Definition Qcltb (x y : Qc) : bool := negb (Qle_bool (this y) (this x)).
Definition Qceqb (x y : Qc) : bool := Qeq_bool (this x) (this y).

Lemma Qcleb_spec (x y : Qc) : BoolSpec (x <= y) (y < x) (Qcleb x y).
Proof.
  unfold Qcleb. destruct (Qle_bool x y) eqn:E; constructor.
  - apply Qle_bool_iff in E. exact E.
  - unfold Qclt. apply Qnot_le_lt. intro H. apply Qle_bool_iff in H. congruence.
Qed.

Lemma Qcltb_spec (x y : Qc) : BoolSpec (x < y) (y <= x) (Qcltb x y).
Proof.
  unfold Qcltb. destruct (Qle_bool y x) eqn:E; constructor.
  - apply Qle_bool_iff in E. exact E.
  - unfold Qclt. apply Qnot_le_lt. intro H. apply Qle_bool_iff in H. congruence.
Qed.

Lemma Qceqb_spec (x y : Qc) : reflect (x = y) (Qceqb x y).
Proof.
  unfold Qceqb. destruct (Qeq_bool x y) eqn:E; constructor.
  - apply Qc_is_canon, Qeq_bool_iff, E.
  - intros ->. assert (Qeq_bool y y = true) by (apply Qeq_bool_iff; reflexivity). congruence.
Qed.

(** Sum of a list, left to right as a Python loop starting from 0 would do. *)
Fixpoint qsum (l : list Qc) : Qc :=
  match l with [] => 0 | x :: t => x + qsum t end.

Definition Qcmaxb (x y : Qc) : Qc := if Qcleb x y then y else x.
Definition Qcminb (x y : Qc) : Qc := if Qcleb x y then x else y.

Lemma qsum_app (a b : list Qc) : qsum (a ++ b) = qsum a + qsum b.
Proof. induction a as [|x a IH]; simpl; [ring | rewrite IH; ring]. Qed.
