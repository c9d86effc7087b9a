(** * What it means for a nested structure to survive a round trip *)
From Verif Require Export HdfModel.

(** The entry at a path of keys: a dict, a Batch, or a leaf with its value. *)
Inductive entry : Type := IsDict | IsBatch | IsLeaf (v : hv).
Fixpoint lookup (k : key) (l : list (key * hv)) : option hv :=
  match l with [] => None | (x, v) :: l => if key_eqb k x then Some v else lookup k l end.
Fixpoint entry_at (p : list key) (v : hv) : option entry :=
  match v, p with
  | HDict _, [] => Some IsDict
  | HBatch _, [] => Some IsBatch
  | HDict l, k :: p | HBatch l, k :: p =>
      (fix find (l : list (key * hv)) : option entry :=
         match l with [] => None | (x, w) :: l => if key_eqb k x then entry_at p w else find l end) l
  | _, [] => Some (IsLeaf v)
  | _, _ => None
  end.
(** Same structure and same values, whatever the order of the keys. *)
Definition same (v w : hv) : Prop := forall p, entry_at p v = entry_at p w.

(** Structures to which the round trip applies: keys are distinct and free of "/"; no number is
    stored under "__data_type__"; no pickled object has a class called "ndarray" or "Tensor".
    [in_batch]: the contents of a Batch, which are never dicts or Python numbers. *)
Inductive storable (in_batch : bool) : hv -> Prop :=
| st_dict l : in_batch = false -> NoDup (map fst l) ->
    (forall k v, In (k, v) l -> (exists s, k = [s]) /\ storable false v) ->
    (forall n, ~ In ([Lit.data_type], HNum n) l) -> storable in_batch (HDict l)
| st_batch l : NoDup (map fst l) ->
    (forall k v, In (k, v) l -> (exists s, k = [s]) /\ storable true v) -> storable in_batch (HBatch l)
| st_tensor d : storable in_batch (HTensor d)
| st_arr d : storable in_batch (HArr d)
| st_objarr n : storable in_batch (HObjArr n)
| st_num n : in_batch = false -> storable in_batch (HNum n)
| st_obj c n : c <> Lit.ndarray -> c <> Lit.tensor -> storable in_batch (HObj c n).

(** The contents of a Batch, with any keys. *)
Inductive batch_value : hv -> Prop :=
| bv_batch l : NoDup (map fst l) -> (forall k v, In (k, v) l -> batch_value v) -> batch_value (HBatch l)
| bv_tensor d : batch_value (HTensor d)
| bv_arr d : batch_value (HArr d)
| bv_objarr n : batch_value (HObjArr n)
| bv_obj c n : batch_value (HObj c n).
