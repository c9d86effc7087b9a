(** * What the storage must hold after a history of writes *)
From Verif Require Import BatchModel BatchSpec StoreModel.
From Coq Require Import String.
Import List BatchModel.
Open Scope string_scope.
Open Scope list_scope.
Open Scope nat_scope.

(** The rows a write gives for the array at path [p]: one for a single transition, otherwise those
    of the leading axis; padding if the written batch has nothing there. *)
Definition given (ty : list string -> akind * list nat) (p : list string) (o : wop) : list nd :=
  match at_path p (w_batch o) with
  | Some (Leaf _ a) => if w_single o then [a] else match a with Ar _ l => l | Sc _ => [] end
  | _ => repeat (padding (fst (ty p)) (snd (ty p))) (length (w_rows o))
  end.
(** The row [r] after the history: the latest write to it. *)
Fixpoint latest (ty : list string -> akind * list nat) (p : list string) (newest_first : list wop) (r : nat) : nd :=
  match newest_first with
  | [] => padding (fst (ty p)) (snd (ty p))
  | o :: older => match write_at (w_rows o) (given ty p o) r with Some x => x | None => latest ty p older r end
  end.
Definition contents (ty : list string -> akind * list nat) (size : nat) (ops : list wop) (p : list string) : list nd :=
  map (latest ty p (rev ops)) (seq 0 size).

(** Every entry is 0 or 1. *)
Fixpoint binary (a : nd) : Prop :=
  match a with
  | Sc c => c = CN 0%Qc \/ c = CN 1%Qc
  | Ar _ l => (fix go l := match l with [] => True | x :: l => binary x /\ go l end) l
  end.

(** An admissible write: arrays of the kind and shape that belong to their path (the reward may
    be an integer array), rows that exist, no None, reward and flags present. *)
Record wop_ok (ty : list string -> akind * list nat) (size : nat) (o : wop) : Prop := {
  wk_node : exists l, w_batch o = Node l;
  wk_distinct : distinct (w_batch o);
  wk_none : no_none (w_batch o);
  wk_leaf : forall p k a, at_path p (w_batch o) = Some (Leaf k a) ->
      typed (fst (ty p)) (if w_single o then snd (ty p) else length (w_rows o) :: snd (ty p)) a /\ (k = fst (ty p) \/ p = ["rew"]);
  wk_rows : Forall (fun r => r < size) (w_rows o);
  wk_single : w_single o = true -> length (w_rows o) = 1;
  wk_rew : fst (ty ["rew"]) = KFloat /\ exists k a, at_path ["rew"] (w_batch o) = Some (Leaf k a);
  wk_flags : forall s, In s ["done"; "terminated"; "truncated"] ->
      fst (ty [s]) = KInt /\ exists k a, at_path [s] (w_batch o) = Some (Leaf k a) /\ binary a }.

(** [later] fits what [earlier] wrote: nothing that was an array is a batch now, and only an empty
    batch may become an array. *)
Definition fits_after (earlier later : wop) : Prop :=
  forall p l k a,
    ~ (at_path p (w_batch earlier) = Some (Leaf k a) /\ at_path p (w_batch later) = Some (Node l)) /\
    (at_path p (w_batch earlier) = Some (Node l) -> at_path p (w_batch later) = Some (Leaf k a) -> l = []).
