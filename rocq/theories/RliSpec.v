(** * Evaluation plots: notions used in the statements *)
From Verif Require Import Py Num StatModel EvalModel RliModel.
Open Scope nat_scope.

Definition ascending (l : list Qc) : Prop := forall i j x y, i <= j -> nth_error l i = Some x -> nth_error l j = Some y -> (x <= y)%Qc.
Definition descending (l : list Qc) : Prop := forall i j x y, i <= j -> nth_error l i = Some x -> nth_error l j = Some y -> (y <= x)%Qc.
(** [m] is the least, or the greatest, of [l]. *)
Definition least (m : Qc) (l : list Qc) : Prop := In m l /\ forall x, In x l -> (m <= x)%Qc.
Definition greatest (m : Qc) (l : list Qc) : Prop := In m l /\ forall x, In x l -> (x <= m)%Qc.
(** A table of [n] rows (n > 0) and [k] columns. *)
Definition table (t : list (list Qc)) (n k : nat) : Prop := length t = n /\ 0 < n /\ forall row, In row t -> length row = k.
(** The returns and the steps of a scope. *)
Definition scope_returns (r : result) (s : scope) : list (list Qc) := match s with Train => r_train r | _ => r_test r end.
Definition scope_steps (r : result) (s : scope) : list Qc := match s with Train => r_steps_train r | _ => r_steps r end.
