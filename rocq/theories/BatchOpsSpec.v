(** * What the smaller batch operations are meant to do *)
From Verif Require Import BatchModel BatchSpec BatchOpsModel.
From Coq Require Import String.
Import List BatchModel.
Open Scope string_scope.
Open Scope list_scope.
Open Scope nat_scope.

(** Two batches with the same keys in the same order and arrays of equal shape; the second may
    have integers where the first has floats.  No objects and no None. *)
Inductive alike : bval -> bval -> Prop :=
| al_leaf k k' sh x y : k <> KObj -> k' = k \/ k' = KInt -> typed k sh x -> typed k' sh y -> alike (Leaf k x) (Leaf k' y)
| al_node l lv : Forall2 (fun kx kv => fst kx = fst kv /\ alike (snd kx) (snd kv)) l lv -> alike (Node l) (Node lv).
(** The same with equal kinds. *)
Inductive twins : bval -> bval -> Prop :=
| tw_leaf k sh x y : k <> KObj -> typed k sh x -> typed k sh y -> twins (Leaf k x) (Leaf k y)
| tw_node l lv : Forall2 (fun kx kv => fst kx = fst kv /\ twins (snd kx) (snd kv)) l lv -> twins (Node l) (Node lv).
(** A batch of numbers; a batch of floats. *)
Definition numeric (b : bval) : Prop := twins b b.
Inductive floats : bval -> Prop :=
| fl_leaf sh x : typed KFloat sh x -> floats (Leaf KFloat x)
| fl_node l : Forall (fun kx => floats (snd kx)) l -> floats (Node l).

(** An integer, or any number for a batch of floats. *)
Definition number_for (k' : akind) (q : Qc) (b : bval) : Prop := (k' = KInt /\ Qden q = 1%positive /\ numeric b) \/ (k' = KFloat /\ floats b).

(** Sum and product of two numbers or NaN. *)
Definition csum (c d : cell) : cell := match c, d with CN x, CN y => CN (x + y)%Qc | _, _ => CNan end.
Definition cprod (c d : cell) : cell := match c, d with CN x, CN y => CN (x * y)%Qc | _, _ => CNan end.
Definition cquot (c d : cell) : cell := match c, d with CN x, CN y => CN (x / y)%Qc | _, _ => CNan end.
(** [r] has the keys of [b] and at every array of [b] the result of [f] applied to it. *)
Definition leafwise (b r : bval) (f : list string -> list nat -> cell -> option cell) : Prop :=
  forall p, match at_path p b with
            | Some (Leaf k x) => exists z, at_path p r = Some (Leaf k z) /\ shape z = shape x /\
                forall q, cell_at q z = match cell_at q x with Some c => f p q c | None => None end
            | Some (Node l) => exists l', at_path p r = Some (Node l') /\ map fst l' = map fst l
            | Some NoneV => True
            | None => at_path p r = None
            end.
(** The number of [v] at a path and position. *)
Definition number_at (p : list string) (q : list nat) (v : bval) : option cell :=
  match at_path p v with Some (Leaf _ y) => cell_at q y | _ => None end.

(** Same keys, kinds and shapes. *)
Definition same_layout (b r : bval) : Prop :=
  forall p, match at_path p b with
            | Some (Leaf k x) => exists z, at_path p r = Some (Leaf k z) /\ shape z = shape x
            | Some (Node l) => exists l', at_path p r = Some (Node l') /\ map fst l' = map fst l
            | o => at_path p r = o
            end.

(** No None, no empty batch, and every array has at least one row. *)
Definition solid (b : bval) : Prop :=
  forall p, match at_path p b with
            | Some (Leaf _ (Ar _ l)) => l <> []
            | Some (Leaf _ (Sc _)) => False
            | Some (Node l) => l <> []
            | Some NoneV => False
            | None => True
            end.

(** [b'] is [b] with padding in the rows [ps]; with padding everywhere. *)
Definition cleared (ps : list nat) (b b' : bval) : Prop :=
  forall p, match at_path p b with
            | Some (Leaf k (Ar rs l)) => exists l', at_path p b' = Some (Leaf k (Ar rs l')) /\ length l' = length l /\
                forall r, r < length l -> nth_error l' r = if in_dec Nat.eq_dec r ps then Some (padding k rs) else nth_error l r
            | Some (Leaf k (Sc _)) => False
            | Some (Node l) => exists l', at_path p b' = Some (Node l') /\ map fst l' = map fst l
            | o => at_path p b' = o
            end.
Definition wiped (b b' : bval) : Prop :=
  forall p, match at_path p b with
            | Some (Leaf k a) => at_path p b' = Some (Leaf k (padding k (shape a)))
            | Some (Node l) => exists l', at_path p b' = Some (Node l') /\ map fst l' = map fst l
            | o => at_path p b' = o
            end.
(** [b'] is [b] with None for every empty batch below the root. *)
Definition unemptied (b b' : bval) : Prop :=
  forall p, match at_path p b with
            | Some (Node []) => at_path p b' = Some (match p with [] => Node [] | _ => NoneV end)
            | Some (Node l) => exists l', at_path p b' = Some (Node l') /\ map fst l' = map fst l
            | o => at_path p b' = o
            end.
(** The shortest array has [n] rows. *)
Definition shortest (b : bval) (n : nat) : Prop :=
  (forall p k rs l, at_path p b = Some (Leaf k (Ar rs l)) -> n <= length l) /\
  exists p k rs l, at_path p b = Some (Leaf k (Ar rs l)) /\ length l = n.
