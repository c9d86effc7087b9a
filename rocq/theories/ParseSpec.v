(** * What building a Batch from Python values is meant to do *)
From Verif Require Import ParseModel BatchSpec.
Open Scope nat_scope.

(** Neither a list nor an array nor a Batch. *)
Definition scalar (x : py) : Prop :=
  match x with PNum _ _ | PStr _ | PNone | PObj _ | PDict _ => True | _ => False end.
(** A nested list with the given number of elements on each level, as many everywhere. *)
Fixpoint rect (sh : list nat) (x : py) : Prop :=
  match sh with
  | [] => scalar x
  | n :: sh => exists l, x = PSeq l /\ length l = n /\ (n = 0 -> sh = []) /\ forall y, In y l -> rect sh y
  end.
(** The element at a position of a nested list. *)
Fixpoint elem_at (p : list nat) (x : py) : option py :=
  match p, x with
  | i :: p, PSeq l => match nth_error l i with Some y => elem_at p y | None => None end
  | [], PSeq _ => None
  | [], _ => Some x
  | _, _ => None
  end.
Definition is_num (x : py) : Prop := match x with PNum _ _ => True | _ => False end.
Definition is_int (x : py) : Prop := match x with PNum KInt _ => True | _ => False end.
Definition is_str (x : py) : Prop := match x with PStr _ => True | _ => False end.
(** The dimensions of an array, whatever it holds. *)
Definition has_shape (sh : list nat) (a : nd) : Prop := typed KObj sh a.
(** Numbers are int or float. *)
Definition sane (x : py) : Prop := forall p k q, elem_at p x = Some (PNum k q) -> k = KInt \/ k = KFloat.
(** An element as it is found in an object array. *)
Definition as_is (id_of : py -> nat) (x : py) : cell :=
  match x with PNum _ q => CN q | PNone => CO None | _ => CO (Some (id_of x)) end.
(** The value stored under a key. *)
Definition field (l : list (string * bval)) (k : string) : option bval :=
  option_map snd (find (fun kv => String.eqb k (fst kv)) l).
(** A number array with the given dimensions, of which there is at least one. *)
Definition num_array (sh : list nat) (x : py) : Prop :=
  exists k a, x = PArr k a /\ k <> KObj /\ has_shape sh a /\ sh <> [].
(** A list or an array with [n] rows. *)
Definition sized (n : nat) (x : py) : Prop :=
  match x with PSeq l => length l = n | PArr _ (Ar _ l) => length l = n | _ => False end.
(** No Batch and no object array of dicts anywhere inside. *)
Definition ordinary (x : py) : Prop :=
  forall p y, elem_at p x = Some y -> scalar y \/ exists k a, y = PArr k a.
Definition dict_or_batch (x : py) : Prop :=
  match x with PDict _ | PBatch (Node _) => True | _ => False end.
