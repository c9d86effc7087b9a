(** * Definitions for the restrictions of refuted properties *)
From Verif Require Export Py Num BufferModel PrioModel.
Open Scope nat_scope.
(** prio.py:112-113 [set_beta] of PrioritizedReplayBuffer, inherited by PrioritizedReplayBufferManager: the object's own field. *)
Definition own_set_beta (b : betas) (beta : Qc) : betas := mkBetas beta (be_children b).
