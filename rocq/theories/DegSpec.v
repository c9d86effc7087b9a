(** * Specification of components at the ends of their parameters *)
From Verif Require Export Py Num BufferModel BufferSpec HerModel HerSpec PrioModel PrioSpec MaModel.
Open Scope nat_scope.

(** The rational of a natural number. *)
Definition frac (k : nat) : Qc := Q2Qc (inject_Z (Z.of_nat k)).
(** The index that the draw [r] gets when the interval from 0 to 1 is cut into [m] equal parts, each
    including its end (and the first one its beginning). *)
Definition equal_part (m : nat) (r : Qc) (j : nat) : Prop :=
  j < m /\ (r * frac m <= frac (S j))%Qc /\ (j = 0 \/ (frac j < r * frac m)%Qc).
(** No episode is relabelled. *)
Definition no_relabel {Ob0 G A Inf R} (op : hop Ob0 G A Inf R) : Prop :=
  match op with HSample _ _ _ _ hsel => forall e, hsel e = false | _ => True end.
