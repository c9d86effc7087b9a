(** * Abstract specification of the segment tree: a plain array with slice sums.
    Independent of [SegTreeModel]'s helpers. *)
From Verif Require Export Py Num.
Open Scope nat_scope.

(** A call [tree[index] = value] is legal when the arrays have the same non-zero length and
    every index is inside the array. *)
Definition legal (size : nat) (index : list Z) (value : list Qc) : bool :=
  (length index =? length value) && negb (length index =? 0)
  && forallb (fun i => (0 <=? i)%Z && (i <? Z.of_nat size)%Z) index.

(** One assignment after the other: the last value written to a position stays. *)
Fixpoint write_all (arr : list Qc) (index : list Z) (value : list Qc) : list Qc :=
  match index, value with
  | i :: is, v :: vs => write_all (upd arr (Z.to_nat i) v) is vs
  | _, _ => arr
  end.

Definition spec_step (arr : list Qc) (o : list Z * list Qc) : list Qc :=
  if legal (length arr) (fst o) (snd o) then write_all arr (fst o) (snd o) else arr.

Definition spec_run (size : nat) (ops : list (list Z * list Qc)) : list Qc :=
  fold_left spec_step ops (repeat 0%Qc size).

(** Sum of [arr[a:b]] (empty when [b <= a]). *)
Definition slice_sum (arr : list Qc) (a b : nat) : Qc := qsum (firstn (b - a) (skipn a arr)).
