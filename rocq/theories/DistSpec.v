(** * Terms used in the statements about the distributional learners *)
From Verif Require Export Py Num.
Open Scope nat_scope.
(** Action [k] of row [i] is available. *)
Definition allowed (mask : option (list (list bool))) (i k : nat) : Prop :=
  match mask with None => True | Some m => exists r, nth_error m i = Some r /\ nth_error r k = Some true end.
(** A mask for [b] rows of [a] actions. *)
Definition mask_fits (mask : option (list (list bool))) (b a : nat) : Prop :=
  match mask with None => True | Some m => length m = b /\ forall r, In r m -> length r = a end.
(** [k] is an available action of row [i] whose value is at least that of every other one. *)
Definition best (mask : option (list (list bool))) (a i k : nat) (value : nat -> Qc) : Prop :=
  k < a /\ allowed mask i k /\ forall k', k' < a -> allowed mask i k' -> (value k' <= value k)%Qc.
(** The expectation of a function of the index. *)
Definition expectation (p : list Qc) (f : nat -> Qc) : Qc := qsum (map (fun j => (nth j p 0 * f j)%Qc) (seq 0 (length p))).
