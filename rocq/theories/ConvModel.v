(** * Model of the conversions between numpy and torch ([tianshou/data/utils/converter.py]:16-75 and
    [Batch.to_numpy], [Batch.to_torch], [tianshou/data/batch.py]:868-914)

    A value is a tensor, a numpy array, a number, None, a dict, a Batch, a list or tuple of numbers or
    of tensors, or some other object.  Lists of dicts, nested lists and distributions are left out. *)
From Verif Require Export Py Num.
From Coq Require String.
Notation string := String.string.
Open Scope nat_scope.
Open Scope list_scope.

Inductive dtype := DBool | DInt | DF32 | DF64.
Definition dtype_eqb (a b : dtype) : bool :=
  match a, b with DBool, DBool | DInt, DInt | DF32, DF32 | DF64, DF64 => true | _, _ => false end.
(** A device; [0] is the cpu. *)
Notation device := nat (only parsing).
Definition cpu : device := 0.
(** A block of memory; [Copied m] is a block that was filled from [m]. *)
Inductive mem := Block (n : nat) | Copied (m : mem).
(** The elements of an array: shape and contents in order. *)
Notation elems := (list nat * list Qc)%type (only parsing).
(** Storing a number as a value of a type: truncation for integers, 0 or 1 for booleans.  The
    rounding of floating point numbers is left out. *)
Definition cast1 (d : dtype) (q : Qc) : Qc :=
  match d with
  | DBool => if Qc_eq_dec q 0 then 0%Qc else 1%Qc
  | DInt => Q2Qc (inject_Z (Z.quot (Qnum q) (Zpos (Qden q))))
  | DF32 | DF64 => q
  end.
Definition cast (d : dtype) (a : elems) : elems := (fst a, map (cast1 d) (snd a)).

(** [VObjArr n]: an array of objects with at least one dimension; [VObj0]: an array of objects of
    shape (), with None or another object in it. *)
Inductive value :=
| VTensor (d : dtype) (dev : device) (m : mem) (a : elems)
| VArr (d : dtype) (m : mem) (a : elems)
| VObjArr (n : nat)
| VObj0 (o : option nat)
| VNum (d : dtype) (q : Qc)
| VNone
| VDict (l : list (string * value))
| VBatch (l : list (string * value))
| VNums (l : list (dtype * Qc))
| VTensors (l : list (dtype * device * mem * elems))
| VOther (n : nat).

(** ** numpy and torch *)
(** The common type of two types (np.result_type; torch.result_type). *)
Definition njoin (a b : dtype) : dtype :=
  match a, b with
  | DBool, x | x, DBool => x
  | DInt, DInt => DInt
  | DF32, DF32 => DF32
  | _, _ => DF64
  end.
Definition tjoin (a b : dtype) : dtype :=
  match a, b with
  | DBool, x | x, DBool => x
  | DInt, x | x, DInt => x
  | DF32, DF32 => DF32
  | _, _ => DF64
  end.
(** A block that the program has just allocated for a number or a list. *)
Definition fresh : mem := Copied (Block 0).
(** np.asanyarray of a number and of a list of numbers *)
Definition num_array (d : dtype) (q : Qc) : value := VArr d fresh ([], [q]).
Definition nums_array (l : list (dtype * Qc)) : value :=
  match l with
  | [] => VArr DF64 fresh ([0], [])
  | (d, _) :: _ => VArr (fold_left njoin (map fst l) d) fresh ([length l], map snd l)
  end.
(** torch.stack: the shapes (and devices) must agree (RuntimeError). *)
Definition torch_stack (l : list (dtype * device * mem * elems)) : res value :=
  match l with
  | [] => Err RuntimeError
  | (d, dev, _, a) :: _ =>
      if forallb (fun t : dtype * device * mem * elems =>
           let '(_, dev', _, a') := t in
           (if list_eq_dec Nat.eq_dec (fst a') (fst a) then true else false) && (dev' =? dev)) l
      then let d := fold_left tjoin (map (fun t : dtype * device * mem * elems => fst (fst (fst t))) l) d in
           Ok (VTensor d dev fresh (length l :: fst a, flat_map (fun t : dtype * device * mem * elems => snd (snd t)) l))
      else Err RuntimeError
  end.
(** [x.type(dtype)] and [x.to(device)] copy nothing if there is nothing to change. *)
Definition type_ (dt : option dtype) (d : dtype) (m : mem) (a : elems) : dtype * mem * elems :=
  match dt with
  | None => (d, m, a)
  | Some d' => if dtype_eqb d' d then (d, m, a) else (d', Copied m, cast d' a)
  end.
Definition to_ (dev' dev : device) (m : mem) : mem := if dev' =? dev then m else Copied m.
Definition tensor_as (dt : option dtype) (dev' : device) (d : dtype) (dev : device) (m : mem) (a : elems) : value :=
  let '(d, m, a) := type_ dt d m a in VTensor d dev' (to_ dev' dev m) a.
(** [x.detach().cpu().numpy()] *)
Definition numpy_of (d : dtype) (dev : device) (m : mem) (a : elems) : value := VArr d (to_ cpu dev m) a.
(** deepcopy of a value *)
Fixpoint deepcopy (v : value) : value :=
  match v with
  | VTensor d dev m a => VTensor d dev (Copied m) a
  | VArr d m a => VArr d (Copied m) a
  | VDict l => VDict (map (fun kv => (fst kv, deepcopy (snd kv))) l)
  | VBatch l => VBatch (map (fun kv => (fst kv, deepcopy (snd kv))) l)
  | VTensors l => VTensors (map (fun t : dtype * device * mem * elems => let '(d, dev, m, a) := t in (d, dev, Copied m, a)) l)
  | _ => v
  end.

(** ** _parse_value (batch.py:190-228) and Batch(dict) (batch.py:636-659).  An object is returned as it
    is: numpy makes an array of shape () of it, which is unwrapped (batch.py:139-140). *)
Fixpoint parse_value (v : value) : res value :=
  match v with
  | VBatch _ | VArr _ _ _ | VTensor _ _ _ _ | VNone => Ok v
  | VNum d q => Ok (num_array d q)
  | VDict l =>
      let* l := (fix go l := match l with
        | [] => Ok []
        | (k, v) :: l => let* v := parse_value v in let* l := go l in Ok ((k, v) :: l)
        end) l in Ok (VBatch l)
  | VTensors [] => Ok (nums_array [])
  | VTensors l => match torch_stack l with Ok v => Ok v | Err _ => Err TypeError end
  | VNums l => Ok (nums_array l)
  | VObj0 None => Ok VNone
  | VObj0 (Some n) => Ok (VOther n)
  | VObjArr _ | VOther _ => Ok v
  end.
Fixpoint parse_items (l : list (string * value)) : res (list (string * value)) :=
  match l with
  | [] => Ok []
  | (k, v) :: l => let* v := parse_value v in let* l := parse_items l in Ok ((k, v) :: l)
  end.

(** ** apply_values_transform (batch.py:1249-1266, 1367-1384): nested batches are replaced by
    transformed ones, also when the outer batch is changed in place (1379); [f] is applied to every other
    value of the given batch (not of the copy made in line 1376) and the result assigned with
    __setitem__, which parses it (batch.py:777-783). *)
Fixpoint transform (f : value -> res value) (v : value) : res value :=
  match v with
  | VBatch l =>
      let* l := (fix go l := match l with
        | [] => Ok []
        | (k, v) :: l => let* v := transform f v in let* l := go l in Ok ((k, v) :: l)
        end) l in Ok (VBatch l)
  | _ => let* v := f v in parse_value v
  end.
Fixpoint transform_items (f : value -> res value) (l : list (string * value)) : res (list (string * value)) :=
  match l with
  | [] => Ok []
  | (k, v) :: l => let* v := transform f v in let* l := transform_items f l in Ok ((k, v) :: l)
  end.

(** ** Batch.to_numpy_ (batch.py:873-879), Batch.to_numpy (868-871) *)
Definition arr_to_numpy (v : value) : res value :=
  match v with VTensor d dev m a => Ok (numpy_of d dev m a) | _ => Ok v end.
Definition batch_to_numpy_ (l : list (string * value)) : res (list (string * value)) := transform_items arr_to_numpy l.
(** ** Batch.to_torch_ (batch.py:890-914), Batch.to_torch (881-888).  torch.from_numpy raises
    TypeError for an array of objects; a value that is neither array nor tensor has no [device] (or no
    [dtype]). *)
Definition arr_to_torch (dt : option dtype) (dev' : device) (v : value) : res value :=
  match v with
  | VArr d m a => Ok (tensor_as None dev' d cpu m a)
  | VObjArr _ | VObj0 _ => Err TypeError
  | VTensor d dev m a =>
      if (match dt with Some d' => negb (dtype_eqb d' d) | None => false end) || negb (dev =? dev')
      then Ok (tensor_as dt dev' d dev m a) else Ok v
  | _ => Err AttributeError
  end.
Definition batch_to_torch_ (dt : option dtype) (dev : device) (l : list (string * value)) : res (list (string * value)) :=
  transform_items (arr_to_torch dt dev) l.
Definition copy_items (l : list (string * value)) : list (string * value) := map (fun kv => (fst kv, deepcopy (snd kv))) l.

(** ** to_numpy (converter.py:16-34) *)
Definition to_numpy_arr (v : value) : res value :=
  match v with
  | VTensor d dev m a => Ok (numpy_of d dev m a)
  | VArr _ _ _ | VObjArr _ | VObj0 _ => Ok v
  | VNum d q => Ok (num_array d q)
  | VNone => Ok (VObj0 None)
  | VDict l => let* l := parse_items l in let* l := batch_to_numpy_ l in Ok (VBatch l)
  | VBatch l => let* l := batch_to_numpy_ (copy_items l) in Ok (VBatch l)
  | VOther n => Ok (VObj0 (Some n))
  | VNums _ | VTensors _ => Ok v
  end.
Definition to_numpy (v : value) : res value :=
  match v with
  | VNums _ | VTensors _ => let* v := parse_value v in to_numpy_arr v
  | _ => to_numpy_arr v
  end.

(** ** to_torch (converter.py:37-65), to_torch_as (68-75) *)
Definition to_torch_arr (dt : option dtype) (dev' : device) (v : value) : res value :=
  match v with
  | VArr d m a => Ok (tensor_as dt dev' d cpu m a)
  | VTensor d dev m a => Ok (tensor_as dt dev' d dev m a)
  | VNum d q => match num_array d q with VArr d m a => Ok (tensor_as dt dev' d cpu m a) | v => Ok v end
  | VDict l =>
      let* l := parse_items (copy_items l) in
      let* l := batch_to_torch_ dt dev' l in Ok (VBatch l)
  | VBatch l => let* l := batch_to_torch_ dt dev' (copy_items l) in Ok (VBatch l)
  | _ => Err TypeError
  end.
Definition to_torch (dt : option dtype) (dev : device) (v : value) : res value :=
  match v with
  | VNums _ | VTensors _ => let* v := parse_value v in to_torch_arr dt dev v
  | _ => to_torch_arr dt dev v
  end.
Definition to_torch_as (v y : value) : res value :=
  match y with VTensor d dev _ _ => to_torch (Some d) dev v | _ => Err AssertionError end.
