(** * Summary statistics: properties *)
From Coq Require Import Permutation.
From Verif Require Import Py PyLemmas Num StatModel EvalModel EvalSpec EvalProofs.
Open Scope nat_scope.
Open Scope list_scope.

(** C217. Minimum and maximum are elements that bound all the others, the mean lies between them, and the
    variance is at most (max - mean) (mean - min); it is zero exactly for constant sequences. *)
Theorem C217_bounds : forall l, l <> [] -> let s := from_sequence l in
  In (s_max s) l /\ In (s_min s) l /\ (forall x, In x l -> (s_min s <= x)%Qc /\ (x <= s_max s)%Qc) /\
  (s_mean s * sq (length l) = qsum l)%Qc /\ (s_min s <= s_mean s)%Qc /\ (s_mean s <= s_max s)%Qc /\
  (0 <= s_var s)%Qc /\ (s_var s <= (s_max s - s_mean s) * (s_mean s - s_min s))%Qc /\
  (s_var s = 0%Qc <-> forall x y, In x l -> In y l -> x = y).
Proof. exact C217_bounds_lemma. Qed.
Print Assumptions C217_bounds.

(** C217. The order of the elements is irrelevant. *)
Theorem C217_permutation : forall l l', Permutation l l' -> from_sequence l = from_sequence l'.
Proof. exact C217_permutation_lemma. Qed.
Print Assumptions C217_permutation.

(** C217. Rescaled and shifted data; a negative factor exchanges minimum and maximum. *)
Theorem C217_affine : forall l a b, l <> [] -> let s := from_sequence l in
  from_sequence (map (fun x => (a * x + b)%Qc) l) =
  mkSum (a * s_mean s + b) (a * a * s_var s)
    (a * (if Qcleb 0 a then s_max s else s_min s) + b) (a * (if Qcleb 0 a then s_min s else s_max s) + b).
Proof. exact C217_affine_lemma. Qed.
Print Assumptions C217_affine.

(** C217. Two sequences put together: the mean is the weighted mean, the variance is the weighted variance
    plus the variance between the two. *)
Theorem C217_concatenation : forall l l', l <> [] -> l' <> [] ->
  let s := from_sequence l in let s' := from_sequence l' in let t := from_sequence (l ++ l') in
  let n := sq (length l) in let n' := sq (length l') in
  (s_mean t * (n + n') = s_mean s * n + s_mean s' * n')%Qc /\
  (s_var t * (n + n') = s_var s * n + s_var s' * n' + n * (s_mean s - s_mean t) * (s_mean s - s_mean t) + n' * (s_mean s' - s_mean t) * (s_mean s' - s_mean t))%Qc /\
  s_max t = Qcmaxb (s_max s) (s_max s') /\ s_min t = Qcminb (s_min s) (s_min s').
Proof. exact C217_concatenation_lemma. Qed.
Print Assumptions C217_concatenation.

(** C217. An empty sequence gives zeros; the rows of an array are summarised one by one. *)
Theorem C217_rows : from_sequence [] = mkSum 0 0 0 0 /\
  forall rows, map fst (dim_stats rows) = seq 0 (length rows) /\
    forall i r, nth_error rows i = Some r -> nth_error (dim_stats rows) i = Some (i, from_sequence r).
Proof. exact C217_rows_lemma. Qed.
Print Assumptions C217_rows.

(** ** Examples *)
Ltac summ := let E := fresh in assert (E : forall a b, s_mean a = s_mean b -> s_var a = s_var b -> s_max a = s_max b -> s_min a = s_min b -> a = b) by (intros [] []; cbn; congruence); apply E; apply Qc_is_canon; vm_compute; reflexivity.
Definition q (z : Z) : Qc := Q2Qc (inject_Z z).
Example C217_ex : from_sequence [q 1; q 4; q 1] = mkSum (q 2) (q 2) (q 4) (q 1) /\ from_sequence [q 4; q 1; q 1] = from_sequence [q 1; q 4; q 1] /\
  from_sequence (map (fun x => (- (1 + 1) * x + 1)%Qc) [q 1; q 4; q 1]) = mkSum (q (-3)) (q 8) (q (-1)) (q (-7)) /\
  from_sequence ([q 1; q 4] ++ [q 1]) = mkSum (q 2) (q 2) (q 4) (q 1).
Proof. split; [summ|]. split; [summ|]. split; summ. Qed.
Example C217_bound_ex : s_var (from_sequence [q 1; q 3]) = ((s_max (from_sequence [q 1; q 3]) - q 2) * (q 2 - s_min (from_sequence [q 1; q 3])))%Qc /\
  s_var (from_sequence [q 3; q 3]) = 0%Qc.
Proof. split; apply Qc_is_canon; vm_compute; reflexivity. Qed.
Example C217_rows_ex : dim_stats [[q 1]; []] = [(0, mkSum (q 1) 0 (q 1) (q 1)); (1, mkSum 0 0 0 0)].
Proof. unfold dim_stats. cbn [length seq map combine]. repeat f_equal; try summ. Qed.
