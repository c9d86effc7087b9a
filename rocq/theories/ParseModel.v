(** * Model of what a [Batch] is built from ([tianshou/data/batch.py:80-145, 190-228, 636-658])

    Python values given to the constructor or assigned to a key: numbers, strings, None, dicts,
    batches, lists and tuples of any nesting, numpy arrays.  Left out: torch tensors and
    distributions ([ConvModel], [ViewModel]), booleans, and objects that numpy can turn into
    arrays ([__array__]). *)
From Verif Require Export BatchModel.
Open Scope nat_scope.

Inductive pkey := SKey (s : string) | OKey (n : nat).
(** [PArr] is an array of numbers, or an object array none of whose elements is a dict or a Batch;
    [POArr] is a one-dimensional object array of arbitrary values.  The keys of a dict are distinct.
    [PObj] is any other object. *)
Inductive py :=
| PNum (k : akind) (q : Qc)
| PStr (s : nat)
| PNone
| PObj (n : nat)
| PDict (l : list (pkey * py))
| PBatch (b : bval)
| PSeq (l : list py)
| PArr (k : akind) (a : nd)
| POArr (l : list py).

Definition is_dict (x : py) : bool := match x with PDict _ | PBatch _ => true | _ => false end.
(** _is_batch_set (80-97): an object array with no rows qualifies, an empty list does not. *)
Definition is_batch_set (x : py) : bool :=
  match x with
  | PArr KObj (Ar _ []) => true
  | POArr l => forallb is_dict l
  | PSeq [] => false
  | PSeq l => forallb is_dict l
  | _ => false
  end.

(** ** np.asanyarray of nested lists (numpy 1.24 or later) *)

(** The longest common beginning. *)
Fixpoint common (a b : list nat) : list nat :=
  match a, b with x :: a, y :: b => if x =? y then x :: common a b else [] | _, _ => [] end.
Fixpoint commons (l : list (list nat)) : list nat :=
  match l with [] => [] | [x] => x | x :: l => common x (commons l) end.
(** The dimensions numpy finds. *)
Fixpoint pdims (x : py) : list nat :=
  match x with
  | PSeq l => length l :: commons (map pdims l)
  | PArr _ a => shape a
  | _ => []
  end.
Definition dims_eqb (a b : list nat) : bool := if list_eq_dec Nat.eq_dec a b then true else false.
(** Without an explicit dtype other nested lists are refused (ValueError). *)
Fixpoint regular (x : py) : bool :=
  match x with
  | PSeq l => forallb regular l && forallb (dims_eqb (hd [] (map pdims l))) (map pdims l)
  | _ => true
  end.
(** Batches and object arrays of dicts inside a list of other things are not modelled. *)
Fixpoint odd (x : py) : bool :=
  match x with PSeq l => existsb odd l | PBatch _ | POArr _ => true | _ => false end.

(** The dtype found: numbers, strings (any number next to a string becomes a string), objects. *)
Inductive dk := DNum (k : akind) | DStr | DObj.
Fixpoint leaf_kinds (x : py) : list dk :=
  match x with
  | PSeq l => flat_map leaf_kinds l
  | PNum k _ => [DNum k]
  | PArr KObj _ => [DObj]
  | PArr k _ => [DNum k]
  | PStr _ => [DStr]
  | _ => [DObj]
  end.
Definition dkjoin (a b : dk) : dk :=
  match a, b with
  | DObj, _ | _, DObj => DObj
  | DStr, _ | _, DStr => DStr
  | DNum k, DNum k' => DNum (kjoin k k')
  end.
Definition dtype_of (l : list dk) : dk := match l with [] => DNum KFloat | x :: l => fold_left dkjoin l x end.

Section Ids.
(** The identity of an object that is stored as it is; the string made of a number. *)
Variable id_of : py -> nat.
Variable strnum : akind -> cell -> nat.

Definition keep (x : py) : cell :=
  match x with PNum _ q => CN q | PNone => CO None | _ => CO (Some (id_of x)) end.
Definition tostr (x : py) : cell :=
  match x with PNum k q => CO (Some (strnum k (CN q))) | _ => CO (Some (id_of x)) end.
Definition keep_cell (k : akind) (c : cell) : cell := c.
Definition tostr_cell (k : akind) (c : cell) : cell := CO (Some (strnum k c)).
(** Writing nested lists into an array of the given dimensions; what lies deeper is stored as an
    object, and an array among the elements is broadcast. *)
Fixpoint fill (leaf : py -> cell) (arr : akind -> cell -> cell) (dims : list nat) (x : py) {struct dims} : res nd :=
  match dims with
  | [] => Ok (Sc (match x with PArr k (Sc c) => arr k c | _ => leaf x end))
  | _ :: rest =>
      match x with
      | PSeq l => let* l := mapM (fill leaf arr rest) l in Ok (Ar rest l)
      | PArr k a => let* a := broadcast dims a in nmap (fun c => Ok (arr k c)) a
      | _ => Err ValueError
      end
  end.
(** _to_array_with_correct_type (122-145): arrays of strings become object arrays, what has no
    dimension is unpacked. *)
Definition to_array (x : py) : res bval :=
  if odd x then Err NotImplementedError
  else if regular x then
    match dtype_of (leaf_kinds x) with
    | DNum k => let* a := fill keep keep_cell (pdims x) x in Ok (Leaf k a)
    | DStr => let* a := fill tostr tostr_cell (pdims x) x in Ok (Leaf KObj a)
    | DObj => let* a := fill keep keep_cell (pdims x) x in Ok (Leaf KObj a)
    end
  else let* a := fill keep keep_cell (pdims x) x in Ok (Leaf KObj a).

Definition as_type_error {A} (r : res A) : res A := match r with Err ValueError => Err TypeError | r => r end.
(** [d[k] = v] *)
Fixpoint put {X} (k : string) (v : X) (l : list (string * X)) : list (string * X) :=
  match l with [] => [(k, v)] | (k', v') :: l => if String.eqb k k' then (k, v) :: l else (k', v') :: put k v l end.
Definition str_key (k : pkey) : bool := match k with SKey _ => true | OKey _ => false end.
Definition key_name (k : pkey) : string := match k with SKey s => s | OKey _ => String.EmptyString end.

(** _parse_value (190-228); a dict makes a Batch of its parsed values (649-652) if its keys are all
    strings (186-187), a batch set the stack of its elements (653-655, 1050-1062). *)
Fixpoint parse (x : py) : res bval :=
  match x with
  | PBatch b => Ok b
  | PNone => Ok NoneV
  | PNum k q => Ok (Leaf k (Sc (CN q)))
  | PArr KObj (Ar _ []) => bstack []
  | PArr k a => Ok (Leaf k a)
  | PDict l =>
      if negb (forallb (fun kv => str_key (fst kv)) l) then Err AssertionError
      else let* l := (fix go l := match l with
                      | [] => Ok []
                      | (k, v) :: l => let* v := parse v in let* l := go l in Ok ((key_name k, v) :: l)
                      end) l in Ok (Node l)
  | PSeq l | POArr l =>
      if is_batch_set x then
        let* bs := (fix go l := match l with [] => Ok [] | v :: l => let* v := parse v in let* l := go l in Ok (v :: l) end) l in
        bstack bs
      else match x with
           | POArr l => Ok (Leaf KObj (Ar [] (map (fun v => Sc (keep v)) l)))
           | _ => as_type_error (to_array x)
           end
  | PStr _ | PObj _ => to_array x
  end.

(** A stored value as a Python value. *)
Definition lift (b : bval) : py :=
  match b with
  | Leaf k a => PArr k a
  | Node l => PBatch (Node l)
  | NoneV => PNone
  end.
(** Batch.__init__ (636-658) without copy. *)
Definition init (arg : option py) (kwargs : list (string * py)) : res (list (string * bval)) :=
  let* self := match arg with
               | None => Ok []
               | Some (PDict l) => let* b := parse (PDict l) in Ok (items b)
               | Some (PBatch b) => mapM (fun kv => let* v := parse (lift (snd kv)) in Ok (fst kv, v)) (items b)
               | Some x => if is_batch_set x then let* b := parse x in Ok (items b) else Ok []
               end in
  let* kw := mapM (fun kv => let* v := parse (snd kv) in Ok (fst kv, v)) kwargs in
  Ok (fold_left (fun l kv => put (fst kv) (snd kv) l) kw self).
(** [batch[key] = value] and [batch.key = value] (681-683, 777-782). *)
Definition set_key (self : list (string * bval)) (k : string) (v : py) : res (list (string * bval)) :=
  let* v := parse v in Ok (put k v self).
End Ids.

(** ** Dicts of arrays as arrays of dicts *)

(** to_dict (661-667) and to_list_of_dicts (678-679) by way of __iter__ (769-775). *)
Fixpoint to_dict (b : bval) : py :=
  match b with
  | Node l => PDict (map (fun kv => (SKey (fst kv), to_dict (snd kv))) l)
  | Leaf k a => PArr k a
  | NoneV => PNone
  end.
Definition brows (b : bval) : res (list bval) :=
  match b with
  | Node [] => Ok []
  | _ => let* n := blen b in mapM (fun i => bgetitem b (IInt (Z.of_nat i))) (seq 0 n)
  end.
Definition to_list_of_dicts (b : bval) : res (list py) := let* r := brows b in Ok (map to_dict r).
(** _dict_of_arr_to_arr_of_dicts (collector.py:263-264); np.array([]) is no object array, that is
    left out. *)
Definition dict_of_arr_to_arr_of_dicts (id_of : py -> nat) (strnum : akind -> cell -> nat) (d : py) : res py :=
  let* l := init id_of strnum (Some d) [] in
  let* ds := to_list_of_dicts (Node l) in
  Ok (POArr ds).
