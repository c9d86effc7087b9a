(** * Notions used in the statements about forward passes *)
From Verif Require Export FwdModel.
Open Scope nat_scope.

(** The indices of an array of shape [s]. *)
Inductive index_of : list nat -> list nat -> Prop :=
| io_nil : index_of [] []
| io_cons : forall d s x i, x < d -> index_of s i -> index_of (d :: s) (x :: i).

(** What a bounded number becomes in [low, high]. *)
Definition into_range (scaling : bool) (low high a : Qc) : Qc :=
  if scaling then (low + (high - low) * (a + 1) / (1 + 1))%Qc else a.

(** The data learned from in a history of a PSRL policy, and the number of maximal runs of calls
    of forward without learning in between; [fresh]: nothing was called since the last learning. *)
Section History.
Context {R : Type}.
Fixpoint learned (l : list (pop R)) : list R :=
  match l with [] => [] | PAct _ :: l => learned l | PLearn r :: l => r :: learned l end.
Fixpoint runs (fresh : bool) (l : list (pop R)) : nat :=
  match l with
  | [] => 0
  | PAct _ :: l => (if fresh then 1 else 0) + runs false l
  | PLearn _ :: l => runs true l
  end.
End History.

(** Bounding to [-1, 1] as documented (base.py:377-380). *)
Definition bounded (tanh : Qc -> Qc) (m : bound_method) (x : Qc) : Qc :=
  match m with
  | BClip => if Qcltb x (-(1))%Qc then (-(1))%Qc else if Qcltb 1%Qc x then 1%Qc else x
  | BTanh => tanh x
  | BNone => x
  end.
(** A one-dimensional array. *)
Definition arr1 (l : list Qc) : arr := mkArr [length l] (fun i => nth (hd 0 i) l 0%Qc).
