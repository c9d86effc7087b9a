(** * Vocabulary of the statements about the conversions between numpy and torch *)
From Verif Require Export ConvModel.
Open Scope nat_scope.
Open Scope list_scope.

(** [w] is the Batch with the same keys as the dict or Batch [v], at every level, and [R] holds
    between the values that are neither; if [v] itself is neither, [R v w]. *)
Fixpoint lift (R : value -> value -> Prop) (v w : value) {struct v} : Prop :=
  let go := fix go (l l' : list (string * value)) {struct l} : Prop :=
    match l, l' with
    | [], [] => True
    | (k, v) :: l, (k', w) :: l' => k = k' /\ lift R v w /\ go l l'
    | _, _ => False
    end in
  match v with
  | VDict l | VBatch l => match w with VBatch l' => go l l' | _ => False end
  | _ => R v w
  end.
(** What Batches contain: no dicts, lists or arrays of objects of shape (). *)
Fixpoint stored (v : value) : Prop :=
  let go := fix go (l : list (string * value)) : Prop :=
    match l with [] => True | (_, v) :: l => stored v /\ go l end in
  match v with
  | VBatch l => go l
  | VDict _ | VNums _ | VTensors _ | VObj0 _ => False
  | _ => True
  end.
(** A value without lists; dicts may contain dicts and Batches. *)
Fixpoint plain_in (v : value) : Prop :=
  let go := fix go (l : list (string * value)) : Prop :=
    match l with [] => True | (_, v) :: l => plain_in v /\ go l end in
  match v with
  | VDict l => go l
  | VNums _ | VTensors _ | VObj0 _ => False
  | VBatch _ => stored v
  | _ => True
  end.
Definition plain (v : value) : Prop := match v with VObj0 _ => True | _ => plain_in v end.

(** The numbers in a value: their type, shape and elements. *)
Definition content (v : value) : option (dtype * elems) :=
  match v with
  | VTensor d _ _ a | VArr d _ a => Some (d, a)
  | VNum d q => Some (d, ([], [q]))
  | _ => None
  end.
(** A value and what to_numpy makes of it: an array with the same numbers; None and other objects
    stay inside a Batch and are wrapped outside. *)
Definition numpy_leaf (v w : value) : Prop :=
  match content v with
  | Some c => match w with VArr _ _ _ => content w = Some c | _ => False end
  | None => w = v \/ v = VNone /\ w = VObj0 None \/ exists n, v = VOther n /\ w = VObj0 (Some n)
  end.
(** A tensor on [dev] with the same numbers. *)
Definition torch_leaf (dev : device) (v w : value) : Prop :=
  match w with VTensor _ dev' _ _ => dev' = dev /\ content v = content w | _ => False end.
(** A tensor of type [d] on [dev] with the numbers converted to [d]. *)
Definition cast_leaf (d : dtype) (dev : device) (v w : value) : Prop :=
  match w, content v with
  | VTensor d' dev' _ a', Some (d0, a) => d' = d /\ dev' = dev /\ a' = (if dtype_eqb d d0 then a else (fst a, map (cast1 d) (snd a)))
  | _, _ => False
  end.
(** What to_torch does inside a Batch or dict: only tensors take the requested type. *)
Definition batch_leaf (dt : option dtype) (dev : device) (v w : value) : Prop :=
  match v, dt with
  | VTensor _ _ _ _, Some d => cast_leaf d dev v w
  | _, _ => torch_leaf dev v w
  end.

(** What to_torch accepts: arrays and tensors; numbers except as values of a Batch. *)
Fixpoint torchable_in (v : value) : bool :=
  let go := fix go (l : list (string * value)) : bool :=
    match l with [] => true | (_, v) :: l => torchable_in v && go l end in
  match v with
  | VBatch l => go l
  | VTensor _ _ _ _ | VArr _ _ _ => true
  | _ => false
  end.
Fixpoint torchable (v : value) : bool :=
  let go := fix go (l : list (string * value)) : bool :=
    match l with [] => true | (_, v) :: l => torchable v && go l end in
  match v with
  | VDict l => go l
  | VBatch _ => torchable_in v
  | VTensor _ _ _ _ | VArr _ _ _ | VNum _ _ => true
  | _ => false
  end.

(** The blocks of memory used by a value; forgetting them. *)
Fixpoint blocks (v : value) : list mem :=
  let go := fix go (l : list (string * value)) : list mem :=
    match l with [] => [] | (_, v) :: l => blocks v ++ go l end in
  match v with
  | VTensor _ _ m _ | VArr _ m _ => [m]
  | VDict l | VBatch l => go l
  | _ => []
  end.
Definition new_block (m : mem) : Prop := exists m', m = Copied m'.
Fixpoint forget (v : value) : value :=
  match v with
  | VTensor d dev _ a => VTensor d dev (Block 0) a
  | VArr d _ a => VArr d (Block 0) a
  | VDict l => VDict (map (fun kv => (fst kv, forget (snd kv))) l)
  | VBatch l => VBatch (map (fun kv => (fst kv, forget (snd kv))) l)
  | _ => v
  end.
(** The same block, unless data must move between devices; a new one for a number. *)
Definition shared_leaf (v w : value) : Prop :=
  match v, w with
  | VTensor _ 0 m _, VArr _ m' _ => m' = m
  | VArr _ m _, VArr _ m' _ => m' = m
  | VNum _ _, VArr _ m' _ => m' = fresh
  | VTensor _ (S _) m _, VArr _ m' _ => m' = Copied m
  | _, _ => True
  end.
(** [q'] is [q] as a number of type [d]: integers are truncated towards 0, booleans are 0 or 1. *)
Definition converted (d : dtype) (q q' : Qc) : Prop :=
  match d with
  | DBool => q = 0%Qc /\ q' = 0%Qc \/ q <> 0%Qc /\ q' = 1%Qc
  | DInt => exists z : Z, q' = Q2Qc (inject_Z z) /\
      (0 <= q -> inject_Z z <= q < inject_Z (z + 1))%Q /\ (q <= 0 -> inject_Z (z - 1) < q <= inject_Z z)%Q
  | DF32 | DF64 => q' = q
  end.
(** The types in the order of promotion of torch. *)
Definition torch_rank (d : dtype) : nat := match d with DBool => 0 | DInt => 1 | DF32 => 2 | DF64 => 3 end.
