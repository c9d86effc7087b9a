(** * What is read from a buffer, oldest first *)
From Verif Require Export Py BufferModel.
Open Scope nat_scope.

(** [buffer[buffer.sample_indices(0)]] of a buffer without frame stacking (base.py:488-524,
    584-628). *)
Definition stored {Ob A Inf R : Type} (b : buf Ob A Inf R) : res (list (option (slot Ob A Inf R))) :=
  let* idx := sample_indices (mkOpts 1 true false false) b (fun _ => 0) (Some 0%Z) in
  rows_at b (map Z.of_nat idx).
