(** * What the laws of batches say *)
From Verif Require Import Py BatchModel BatchSpec.
Open Scope nat_scope.

(** Two batches hold the same: the same arrays at the same paths, the same keys in every nested
    batch (perhaps in another order). *)
Definition same_batch (b b' : bval) : Prop :=
  forall p, match at_path p b, at_path p b' with
            | Some (Leaf k a), Some (Leaf k' a') => k = k' /\ a = a'
            | Some (Node l), Some (Node l') => same_keys l l'
            | Some NoneV, Some NoneV => True
            | None, None => True
            | _, _ => False
            end.

(** The index that picks, out of the rows [ps], what [jx] (which selects the positions [qs] of
    them) picks. *)
Definition through (ps qs : list nat) (jx : index) : index :=
  let at_ q := Z.of_nat (nth q ps 0) in
  match jx with IInt _ => IInt (at_ (hd 0 qs)) | _ => IArr (map at_ qs) end.

(** The slices between consecutive cuts. *)
Fixpoint pieces (a : nat) (cuts : list nat) : list (nat * nat) :=
  match cuts with [] => [] | c :: cuts => (a, c) :: pieces c cuts end.

(** A batch that is not empty. *)
Definition nonempty (b : bval) : Prop := exists l, b = Node l /\ l <> [].
