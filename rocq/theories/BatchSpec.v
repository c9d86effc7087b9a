(** * What the batch operations are meant to do, path by path *)
From Verif Require Import BatchModel.
Open Scope nat_scope.

(** The value reached by following keys. *)
Fixpoint at_path (p : list string) (b : bval) : option bval :=
  match p with
  | [] => Some b
  | k :: p =>
      match b with
      | Node l => match find (fun kx => String.eqb k (fst kx)) l with Some kx => at_path p (snd kx) | None => None end
      | _ => None
      end
  end.

(** Keys are distinct at every level. *)
Definition distinct (b : bval) : Prop := forall p l, at_path p b = Some (Node l) -> NoDup (map fst l).

(** Contents allowed in an array of each kind, and the padding value. *)
Definition cell_of (k : akind) (c : cell) : Prop :=
  match k, c with
  | KInt, CN q => Qden q = 1%positive
  | KFloat, CN _ => True
  | KFloat, CNan => True
  | KObj, _ => True
  | _, _ => False
  end.
Definition pad_cell (k : akind) : cell := match k with KInt | KFloat => CN 0%Qc | KObj => CO None end.
(** An array of the given kind and shape. *)
Fixpoint typed (k : akind) (sh : list nat) (a : nd) : Prop :=
  match sh, a with
  | [], Sc c => cell_of k c
  | n :: sh, Ar rs l => rs = sh /\ length l = n /\ Forall (typed k sh) l
  | _, _ => False
  end.
(** The array of that shape filled with padding. *)
Fixpoint padding (k : akind) (sh : list nat) : nd :=
  match sh with [] => Sc (pad_cell k) | n :: sh => Ar sh (repeat (padding k sh) n) end.

(** The array of that shape with [c] everywhere; the number at a position of an array. *)
Fixpoint constant (c : cell) (sh : list nat) : nd :=
  match sh with [] => Sc c | n :: sh => Ar sh (repeat (constant c sh) n) end.
Fixpoint cell_at (q : list nat) (a : nd) : option cell :=
  match q, a with
  | [], Sc c => Some c
  | i :: q, Ar _ l => match nth_error l i with Some x => cell_at q x | None => None end
  | _, _ => None
  end.

(** Which rows of [n] an index selects, None if it is out of range. *)
Definition pick_one (n : nat) (i : Z) : option nat :=
  if ((- Z.of_nat n <=? i) && (i <? Z.of_nat n))%Z then Some (Z.to_nat (i mod Z.of_nat n)%Z) else None.
Definition selected (n : nat) (ix : index) : option (list nat) :=
  match ix with
  | IInt i => option_map (fun x => [x]) (pick_one n i)
  | IArr l => fold_right (fun i o => match pick_one n i, o with Some x, Some r => Some (x :: r) | _, _ => None end) (Some []) l
  | ISlice a b => Some (filter (fun i => (a <=? i) && (i <? b)) (seq 0 n))
  end.
(** The selected rows as an array. *)
Definition picked (ix : index) (rs : list nat) (l : list nd) (ps : list nat) : nd :=
  let r := map (fun i => nth i l (Sc CNan)) ps in
  match ix with IInt _ => nth 0 r (Sc CNan) | _ => Ar rs r end.

(** Every array in [b] has exactly [n] rows. *)
Definition aligned (n : nat) (b : bval) : Prop :=
  forall p k a, at_path p b = Some (Leaf k a) -> exists rs l, a = Ar rs l /\ length l = n.

(** What is written to row [r] when the rows [ps] are assigned [vs]: the last one wins. *)
Definition write_at (ps : list nat) (vs : list nd) (r : nat) : option nd :=
  option_map snd (find (fun px => fst px =? r) (rev (combine ps vs))).
(** The rows assigned to an array with row shape [rs], given the value found at its path. *)
Definition new_rows (ix : index) (k : akind) (rs : list nat) (m : nat) (v : option bval) : list nd :=
  match v with
  | Some (Leaf _ x) => match ix, x with IInt _, _ => [x] | _, Ar _ xs => xs | _, Sc _ => [] end
  | _ => repeat (padding k rs) m
  end.
Definition value_shape (ix : index) (rs : list nat) (m : nat) : list nat := match ix with IInt _ => rs | _ => m :: rs end.
(** [v] can be assigned to the rows [ps] of [b]: its keys are among those of [b], and its arrays
    have the kind and shape of the assigned rows. *)
Definition assignable (b v : bval) (ix : index) (n m : nat) : Prop :=
  forall p,
    match at_path p b with
    | Some (Leaf k a) =>
        exists rs l, a = Ar rs l /\ length l = n /\
        match at_path p v with
        | None => True
        | Some (Leaf _ x) => typed k (value_shape ix rs m) x
        | Some _ => False
        end
    | Some (Node l) =>
        match at_path p v with
        | None => True
        | Some (Node lv) => incl (map fst lv) (map fst l)
        | Some _ => False
        end
    | Some NoneV => False
    | None => True
    end.

(** ** Concatenation *)
Definition same_keys (l l' : list (string * bval)) : Prop := forall k, In k (map fst l) <-> In k (map fst l').
(** Structure up to values: empty batches count as values. *)
Definition structured (o : option bval) : option (option (list (string * bval))) :=
  match o with Some (Node (x :: l)) => Some (Some (x :: l)) | Some _ => Some None | None => None end.
Definition same_structure (b b' : bval) : Prop :=
  forall p, match structured (at_path p b), structured (at_path p b') with
            | None, None => True
            | Some None, Some None => True
            | Some (Some l), Some (Some l') => same_keys l l'
            | _, _ => False
            end.
(** [ty] gives for every path the kind and row shape of the arrays there. *)
Definition well_typed (ty : list string -> akind * list nat) (n : nat) (b : bval) : Prop :=
  (forall p k a, at_path p b = Some (Leaf k a) -> k = fst (ty p) /\ typed k (n :: snd (ty p)) a) /\
  (forall p, at_path p b <> Some NoneV) /\
  distinct b /\
  ((forall p k a, at_path p b <> Some (Leaf k a)) -> n = 0).
(** Rows contributed by one batch of length [n] at a path that holds arrays. *)
Definition contributed (k : akind) (rs : list nat) (n : nat) (o : option bval) : list nd :=
  match o with Some (Leaf _ (Ar _ l)) => l | _ => repeat (padding k rs) n end.
Definition cat_rows (ty : list string -> akind * list nat) (p : list string) (bns : list (bval * nat)) : list nd :=
  flat_map (fun bn => contributed (fst (ty p)) (snd (ty p)) (snd bn) (at_path p (fst bn))) bns.
Definition some_leaf (p : list string) (bs : list bval) : Prop := exists b k a, In b bs /\ at_path p b = Some (Leaf k a).
Definition offset (bns : list (bval * nat)) (i : nat) : nat := fold_right Nat.add 0 (map snd (firstn i bns)).

(** ** Stacking *)
Definition empty_or_missing (o : option bval) : Prop := o = None \/ o = Some (Node []).
(** Arrays at the same path agree in kind and shape, nothing is an array in one batch and a
    non-empty batch in another. *)
Definition stack_typed (ty : list string -> akind * list nat) (bs : list bval) : Prop :=
  forall b, In b bs ->
    distinct b /\ (forall p, at_path p b <> Some NoneV) /\
    (forall p k a, at_path p b = Some (Leaf k a) -> k = fst (ty p) /\ typed k (snd (ty p)) a) /\
    (forall p k a b' l, In b' bs -> at_path p b = Some (Leaf k a) -> at_path p b' = Some (Node l) -> l = []).
(** A key missing from (or empty in) some batch has the same layout in all batches that have it. *)
Definition layout (o : option bval) (l : option bval) : Prop :=
  match o, l with
  | None, None => True
  | Some (Leaf _ _), Some (Leaf _ _) => True
  | Some (Node x), Some (Node y) => same_keys x y
  | _, _ => False
  end.
Definition uniform_partial (bs : list bval) : Prop :=
  forall p b0 b b' q, In b0 bs -> In b bs -> In b' bs ->
    empty_or_missing (at_path p b0) -> ~ empty_or_missing (at_path p b) -> ~ empty_or_missing (at_path p b') ->
    layout (at_path (p ++ q) b) (at_path (p ++ q) b').
Definition stack_rows (ty : list string -> akind * list nat) (p : list string) (bs : list bval) : list nd :=
  map (fun b => match at_path p b with Some (Leaf _ a) => a | _ => padding (fst (ty p)) (snd (ty p)) end) bs.
(** [r] puts the batches [bs] together: at a path that holds an array in some batch it has the
    array with the given rows; otherwise, where some batch has a nested batch, a nested batch with
    the keys of all of them. *)
Definition merged (ty : list string -> akind * list nat) (rows : list string -> list nd) (bs : list bval) (r : bval) : Prop :=
  distinct r /\
  forall p,
    (some_leaf p bs -> at_path p r = Some (Leaf (fst (ty p)) (Ar (snd (ty p)) (rows p)))) /\
    (~ some_leaf p bs -> (exists b l, In b bs /\ at_path p b = Some (Node l)) ->
       exists l', at_path p r = Some (Node l') /\
         forall s, In s (map fst l') <-> exists b l, In b bs /\ at_path p b = Some (Node l) /\ In s (map fst l)) /\
    ((forall b, In b bs -> at_path p b = None) -> at_path p r = None).

Definition no_none (b : bval) : Prop := forall p, at_path p b <> Some NoneV.
(** No top-level key is missing or empty in some of the batches only. *)
Definition no_partial (bs : list bval) : Prop :=
  forall k b b', In b bs -> In b' bs -> empty_or_missing (at_path [k] b) -> empty_or_missing (at_path [k] b').
