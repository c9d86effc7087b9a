(** * Model of the HDF5 conversion ([tianshou/data/utils/converter.py]:80-165) and of the pickling
    interface of Batch ([tianshou/data/batch.py]:636-660, 693-712). *)
From Coq Require String.
From Verif Require Export Py.
Notation string := String.string.
Open Scope nat_scope.

(** ** Values

    h5py reads "a/b" as a path, so a key is the list of its components (a key without "/" has one).
    [HArr d]: an array whose dtype HDF5 supports; [HObjArr n]: one for which create_dataset
    raises TypeError (object dtype, or shape () together with compression).  [HNum]: int, float or
    bool; the numpy scalar that h5py returns for it is identified with it.  [HObj c x]: any other
    object, of a class named [c].  [data] stands for the contents of an array or tensor: either
    ordinary contents or the byte string pickle.dumps produced for an array or object. *)
Definition key := list string.
Inductive data : Type := Plain (n : nat) | PickleArr (n : nat) | PickleObj (c : string) (n : nat).
Inductive hv : Type :=
| HDict (l : list (key * hv))
| HBatch (l : list (key * hv))
| HTensor (d : data)
| HArr (d : data)
| HObjArr (n : nat)
| HNum (n : nat)
| HObj (c : string) (n : nat).

(** ** Files: a group has attributes and named children; a dataset has its contents and the value
    of its attribute "__data_type__". *)
Inductive attr : Type := ANum (n : nat) | AStr (s : string).
Inductive h5 : Type :=
| Grp (attrs : list (key * attr)) (kids : list (string * h5))
| Dset (tag : string) (d : data).

Module Lit.
  Import String.
  Local Open Scope string_scope.
  Definition data_type : string := "__data_type__".
  Definition batch : string := "Batch".
  Definition tensor : string := "Tensor".
  Definition ndarray : string := "ndarray".
  Definition pickled : string := "pickled_ndarray".
  Definition kw_self : string := "self".
  Definition kw_copy : string := "copy".
  Definition kw_dict : string := "batch_dict".
End Lit.

Fixpoint key_eqb (a b : key) : bool :=
  match a, b with
  | [], [] => true
  | x :: a, y :: b => String.eqb x y && key_eqb a b
  | _, _ => false
  end.
Fixpoint klook {A} (k : key) (l : list (key * A)) : option A :=
  match l with [] => None | (x, v) :: l => if key_eqb k x then Some v else klook k l end.
(** [d[k] = v]: replaces the value in place or appends. *)
Fixpoint kput {A} (k : key) (v : A) (l : list (key * A)) : list (key * A) :=
  match l with [] => [(k, v)] | (x, w) :: l => if key_eqb k x then (x, v) :: l else (x, w) :: kput k v l end.
(** [d.pop(k, None)] *)
Fixpoint kpop {A} (k : key) (l : list (key * A)) : list (key * A) :=
  match l with [] => [] | (x, w) :: l => if key_eqb k x then l else (x, w) :: kpop k l end.
Fixpoint slook {A} (k : string) (l : list (string * A)) : option A :=
  match l with [] => None | (x, v) :: l => if String.eqb k x then Some v else slook k l end.
Fixpoint sput {A} (k : string) (v : A) (l : list (string * A)) : list (string * A) :=
  match l with [] => [(k, v)] | (x, w) :: l => if String.eqb k x then (x, v) :: l else (x, w) :: sput k v l end.

(** create_group / create_dataset with a path: missing groups on the way are created; an existing
    name raises ValueError. *)
Fixpoint insert (p : key) (n : h5) (g : h5) : res h5 :=
  match g with
  | Dset _ _ => Err ValueError
  | Grp a kids =>
      match p with
      | [] => Err ValueError
      | [s] => match slook s kids with Some _ => Err ValueError | None => Ok (Grp a (kids ++ [(s, n)])) end
      | s :: p => let* g' := insert p n (match slook s kids with Some g' => g' | None => Grp [] [] end) in
                  Ok (Grp a (sput s g' kids))
      end
  end.

(** ** Batch.__getstate__ (batch.py:693-704) *)
Fixpoint getstate_item (v : hv) : hv :=
  match v with
  | HBatch l => HDict (map (fun kv => (fst kv, getstate_item (snd kv))) l)
  | _ => v
  end.
Definition getstate (l : list (key * hv)) : list (key * hv) := map (fun kv => (fst kv, getstate_item (snd kv))) l.

(** ** _parse_value (batch.py:190-228) on the values above: a Batch, tensor or array is returned as
    it is, a number becomes an array of shape (), a dict a Batch.  Other objects are returned
    unchanged (they become object arrays of shape (), which are unwrapped; containers that numpy
    would turn into arrays are not modelled). *)
Fixpoint parse (v : hv) : hv :=
  match v with
  | HDict l => HBatch (map (fun kv => (fst kv, parse (snd kv))) l)
  | HNum n => HArr (Plain n)
  | _ => v
  end.
Definition parse_items (l : list (key * hv)) : list (key * hv) := map (fun kv => (fst kv, parse (snd kv))) l.

(** ** to_hdf5 (converter.py:93-148): one item [k, v] of [x] written into the group [g].  The
    subgroup of a dict or Batch is filled before it is linked at [k] instead of after; this only
    makes a difference to what a failing call leaves behind.  [st] says that the item comes from a
    Batch that is being written, so that [getstate_item v] is written (HdfProofs.v, [to_state]). *)
Fixpoint to_item (st : bool) (k : key) (v : hv) (g : h5) {struct v} : res h5 :=
  let fill := fix fill (st : bool) (l : list (key * hv)) (g : h5) {struct l} : res h5 :=
    match l with [] => Ok g | (k, v) :: l => let* g := to_item st k v g in fill st l g end in
  match v with
  | HDict l => let* sub := fill false l (Grp [] []) in insert k sub g
  | HBatch l => let* sub := fill true l (Grp (if st then [] else [([Lit.data_type], AStr Lit.batch)]) []) in insert k sub g
  | HTensor d => insert k (Dset Lit.tensor d) g
  | HArr d => insert k (Dset Lit.ndarray d) g
  | HObjArr n => insert k (Dset Lit.pickled (PickleArr n)) g
  | HNum n => match g with Grp a kids => Ok (Grp (kput k (ANum n) a) kids) | Dset _ _ => Err AttributeError end
  | HObj c n => insert k (Dset c (PickleObj c n)) g
  end.
Fixpoint to_items (st : bool) (l : list (key * hv)) (g : h5) {struct l} : res h5 :=
  match l with [] => Ok g | (k, v) :: l => let* g := to_item st k v g in to_items st l g end.
Definition to_hdf5 (x : list (key * hv)) : res h5 := to_items false x (Grp [] []).

(** ** from_hdf5 (converter.py:151-165).  Children are visited in the order of creation (h5py: by
    name); a dict is only ever compared by its contents.  pickle.loads of something that is not a
    pickle raises UnpicklingError (here ValueError). *)
Fixpoint from_hdf5 (x : h5) : res hv :=
  match x with
  | Dset tag d =>
      if String.eqb tag Lit.ndarray then Ok (HArr d) else
      if String.eqb tag Lit.tensor then Ok (HTensor d) else
      match d with Plain _ => Err ValueError | PickleArr n => Ok (HObjArr n) | PickleObj c n => Ok (HObj c n) end
  | Grp attrs kids =>
      let y := map (fun kv => (fst kv, match snd kv with ANum n => HNum n | AStr s => HObj s 0 end)) (kpop [Lit.data_type] attrs) in
      let* y := (fix go (kids : list (string * h5)) (y : list (key * hv)) {struct kids} : res (list (key * hv)) :=
                   match kids with
                   | [] => Ok y
                   | (s, c) :: kids => let* v := from_hdf5 c in go kids (kput [s] v y)
                   end) kids y in
      match klook [Lit.data_type] attrs with
      | Some (AStr t) => if String.eqb t Lit.batch then Ok (HBatch (parse_items y)) else Ok (HDict y)
      | _ => Ok (HDict y)
      end
  end.

(** ReplayBuffer.save_hdf5 then load_hdf5 (base.py:233-251): the attributes of the restored object,
    which has none before __setstate__. *)
Definition save_load (x : list (key * hv)) : res (list (key * hv)) :=
  let* f := to_hdf5 x in
  let* y := from_hdf5 f in
  match y with HDict y => Ok y | HBatch y => Ok y | _ => Err TypeError end.

(** ** Pickling a Batch: __reduce_ex__ stores __getstate__(); __setstate__ calls
    [self.__init__( **state )] (batch.py:706-712, 636-660).  Keys that are parameters of __init__ are
    bound to them: "self" is bound twice (TypeError); [copy] is only tested for truth, which raises
    ValueError for an array with more than one element ([truth] says what the test gives); the value
    of [batch_dict] is a Batch or dict (its items are set), None or something else (ignored, as
    _is_batch_set is false for a number array; lists of batches are not modelled). *)
Fixpoint update {A} (l m : list (key * A)) : list (key * A) :=
  match m with [] => l | (k, v) :: m => update (kput k v l) m end.
Definition init_kw (truth : hv -> res bool) (state : list (key * hv)) : res (list (key * hv)) :=
  match klook [Lit.kw_self] state with
  | Some _ => Err TypeError
  | None =>
      let* _ := match klook [Lit.kw_copy] state with Some v => truth v | None => Ok false end in
      let own := match klook [Lit.kw_dict] state with Some (HDict l) | Some (HBatch l) => parse_items l | _ => [] end in
      let kwargs := kpop [Lit.kw_dict] (kpop [Lit.kw_copy] state) in
      Ok (update own (parse_items kwargs))
  end.
Definition pickle_loads (truth : hv -> res bool) (l : list (key * hv)) : res (list (key * hv)) :=
  init_kw truth (getstate l).
