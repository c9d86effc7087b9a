(** * Buffers that are never overwritten *)
From Verif Require Export BufferModel BufferSpec ManagerModel ManagerSpec.
Open Scope nat_scope.
(** [roomy n c ops]: with [c] rows added since the last reset, [ops] never makes it more than [n]. *)
Fixpoint roomy {Ob A Inf R : Type} (n c : nat) (ops : list (aop Ob A Inf R)) : Prop :=
  match ops with
  | [] => True
  | OpAdd _ :: ops => S c <= n /\ roomy n (S c) ops
  | OpReset _ :: ops => roomy n 0 ops
  end.
