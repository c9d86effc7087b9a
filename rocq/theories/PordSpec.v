(** * Weights that a prioritized buffer can have *)
From Verif Require Export Py Num PrioModel.
Open Scope nat_scope.
(** Both kinds of prioritized buffers change their weights by [init_weight] (prio.py:46-47) and [update_weight] (prio.py:81-90) only. *)
Inductive reached (pw : Qc -> Qc) (eps : Qc) (n : nat) : prio -> Prop :=
| reached_init : reached pw eps n (prio_init n)
| reached_add p index p' : reached pw eps n p -> init_weight pw p index = Ok p' -> reached pw eps n p'
| reached_update p index ws p' : reached pw eps n p -> update_weight pw eps p index ws = Ok p' -> reached pw eps n p'.
(** One new weight for each of some legal indices. *)
Definition fit (n : nat) (index : list Z) (ws : list Qc) : Prop := index <> [] /\ length ws = length index /\ forall i, In i index -> (0 <= i < Z.of_nat n)%Z.
