(** * Conversions between numpy and torch: properties *)
From Coq Require Import String.
From Verif Require Import Py PyLemmas Num ConvModel ConvSpec ConvProofs.
Import List ListNotations.
Open Scope nat_scope.
Open Scope list_scope.

(** C212. to_numpy: for every value without lists the result has the same keys at every level, and in
    place of every tensor, array and number an array with the same type, shape and numbers; no tensor
    is left. *)
Theorem C212_to_numpy : forall v : value, plain v ->
  exists w, to_numpy v = Ok w /\ lift numpy_leaf v w.
Proof. exact C212_to_numpy_lemma. Qed.
Print Assumptions C212_to_numpy.

(** C212. A list of numbers becomes the array of these numbers, of a type that contains the types of all
    of them and is theirs if they agree; a list of tensors of one shape on one device becomes the array
    of their numbers in order, and any other list of tensors is refused with TypeError. *)
Theorem C212_lists :   (forall l, exists d m, to_numpy (VNums l) = Ok (VArr d m ([length l], map snd l)) /\
     (forall e q, In (e, q) l -> njoin d e = d) /\
     (forall e, l <> [] -> (forall e' q, In (e', q) l -> e' = e) -> d = e)) /\
  (forall sh dev ts, ts <> [] -> exists d m,
     to_numpy (VTensors (map (fun t : dtype * mem * list Qc => (fst (fst t), dev, snd (fst t), (sh, snd t))) ts)) =
       Ok (VArr d m (length ts :: sh, flat_map snd ts))) /\
  (forall t t' ts, In t (t' :: ts) -> fst (snd t) <> fst (snd t') -> to_numpy (VTensors (t' :: ts)) = Err TypeError).
Proof. exact C212_lists_lemma. Qed.
Print Assumptions C212_lists.

(** C213. to_torch succeeds exactly for arrays, tensors and numbers, and for dicts and Batches of these,
    except that a number must not be a value of a Batch; every value of the result is then a tensor on
    the requested device, at the same keys. *)
Theorem C213_to_torch : forall (dt : option dtype) (dev : device) (v : value), plain v ->
  ((exists w, to_torch dt dev v = Ok w) <-> torchable v = true) /\
  forall w, to_torch dt dev v = Ok w -> lift (fun _ y => exists d m a, y = VTensor d dev m a) v w.
Proof. exact C213_to_torch_lemma. Qed.
Print Assumptions C213_to_torch.

(** C213. What cannot be converted is not always reported as a TypeError: for a Batch whose first value
    is None, a number or another object the error is an AttributeError. *)
Theorem C213_error_refuted : forall (dt : option dtype) (dev : device) (k : string) (v : value) l,
  v = VNone \/ (exists d q, v = VNum d q) \/ (exists n, v = VOther n) ->
  to_torch dt dev (VBatch ((k, v) :: l)) = Err AttributeError.
Proof. exact C213_error_refuted_lemma. Qed.
Print Assumptions C213_error_refuted.

(** C213. A number can be converted, but no Batch that has one as a value: one row [b[i]] of a Batch of
    one-dimensional arrays is refused. *)
Theorem C213_row_refuted : forall (dt : option dtype) (dev : device) (k : string) (d : dtype) (q : Qc),
  is_ok (to_torch dt dev (VNum d q)) = true /\
  forall l w, In (k, VNum d q) l -> to_torch dt dev (VBatch l) <> Ok w.
Proof. exact C213_row_refuted_lemma. Qed.
Print Assumptions C213_row_refuted.

(** C214. to_torch with a type: outside a dict or Batch the result has this type and the numbers converted
    to it; inside, tensors do, and arrays and numbers keep the type they have.  to_torch_as passes the
    type and device of the tensor. *)
Theorem C214_dtype : forall (d : dtype) (dev : device) (v w : value), plain v -> to_torch (Some d) dev v = Ok w ->
  ((forall l, v <> VDict l /\ v <> VBatch l) -> cast_leaf d dev v w) /\
  ((exists l, v = VDict l \/ v = VBatch l) -> lift (batch_leaf (Some d) dev) v w) /\
  (forall m a, to_torch_as v (VTensor d dev m a) = Ok w).
Proof. exact C214_dtype_lemma. Qed.
Print Assumptions C214_dtype.

(** C214. Converting the result again gives every value the requested type, and a third conversion changes
    nothing more. *)
Theorem C214_twice : forall (d : dtype) (dev : device) (v w : value), plain v ->
  (exists l, v = VDict l \/ v = VBatch l) -> to_torch (Some d) dev v = Ok w ->
  exists w2 w3, to_torch (Some d) dev w = Ok w2 /\ to_torch (Some d) dev w2 = Ok w3 /\
    lift (cast_leaf d dev) v w2 /\ forget w3 = forget w2.
Proof. exact C214_twice_lemma. Qed.
Print Assumptions C214_twice.

(** C214. So the requested type is ignored for every array that is a value of a Batch: the tensor has the type
    of the array, and a second conversion changes it. *)
Theorem C214_batch_array_refuted : forall (d d0 : dtype) (dev : device) (k : string) (m : mem) (a : elems), d <> d0 ->
  exists m1 m2 a2,
    to_torch (Some d) dev (VBatch [(k, VArr d0 m a)]) = Ok (VBatch [(k, VTensor d0 dev m1 a)]) /\
    to_torch (Some d) dev (VBatch [(k, VTensor d0 dev m1 a)]) = Ok (VBatch [(k, VTensor d dev m2 a2)]).
Proof. exact C214_batch_array_refuted_lemma. Qed.
Print Assumptions C214_batch_array_refuted.

(** C212. Converting the result of to_numpy again changes nothing (but the memory). *)
Theorem C212_idempotent : forall v w : value, plain v -> to_numpy v = Ok w ->
  exists w', to_numpy w = Ok w' /\ forget w' = forget w.
Proof. exact C212_idempotent_lemma. Qed.
Print Assumptions C212_idempotent.

(** C215. Converting to torch and back gives what to_numpy gives, up to the memory used. *)
Theorem C215_torch_numpy : forall (dev : device) (v w : value), plain v -> to_torch None dev v = Ok w ->
  exists x y, to_numpy w = Ok x /\ to_numpy v = Ok y /\ forget x = forget y.
Proof. exact C215_torch_numpy_lemma. Qed.
Print Assumptions C215_torch_numpy.

(** C215. Conversely a tensor, or a Batch of tensors on one device, is recovered from its numpy form. *)
Theorem C215_numpy_torch : forall (dev : device) (v w : value), plain v -> (forall l, v <> VDict l) ->
  lift (fun x y => y = x /\ exists d m a, x = VTensor d dev m a) v v -> to_numpy v = Ok w ->
  exists v', to_torch None dev w = Ok v' /\ forget v' = forget v.
Proof. exact C215_numpy_torch_lemma. Qed.
Print Assumptions C215_numpy_torch.

(** C216. The tensors that to_torch returns for a dict or a Batch, and the arrays that to_numpy returns for a
    Batch, all use new memory; writing to them cannot change the argument. *)
Theorem C216_fresh : forall (dt : option dtype) (dev : device) (v w : value), plain_in v ->
  ((exists l, v = VDict l \/ v = VBatch l) -> to_torch dt dev v = Ok w -> forall m, In m (blocks w) -> new_block m) /\
  ((exists l, v = VBatch l) -> to_numpy v = Ok w -> forall m, In m (blocks w) -> new_block m).
Proof. exact C216_fresh_lemma. Qed.
Print Assumptions C216_fresh.

(** C216. Outside containers the result shares the memory of the argument whenever no number has to be
    converted or moved. *)
Theorem C216_shared : forall (d : dtype) (dev : device) (m : mem) (a : elems) (dt : option dtype),
  dt = None \/ dt = Some d ->
  to_torch dt cpu (VArr d m a) = Ok (VTensor d cpu m a) /\
  to_torch dt dev (VTensor d dev m a) = Ok (VTensor d dev m a) /\
  to_numpy (VTensor d cpu m a) = Ok (VArr d m a) /\ to_numpy (VArr d m a) = Ok (VArr d m a).
Proof. exact C216_shared_lemma. Qed.
Print Assumptions C216_shared.

(** C216. The arrays that to_numpy returns for a dict are not new: every array and every tensor on the cpu in
    the dict, at any level, shares its memory with the result. *)
Theorem C216_dict_refuted : forall l : list (string * value), plain_in (VDict l) ->
  exists w, to_numpy (VDict l) = Ok w /\ lift shared_leaf (VDict l) w.
Proof. exact C216_dict_refuted_lemma. Qed.
Print Assumptions C216_dict_refuted.

(** C214. An array or a tensor of another type becomes a tensor of the requested type in new memory, every number converted. *)
Theorem C214_conversion : forall (d d0 : dtype) (dev dev0 : device) (m : mem) (sh : list nat) (l : list Qc), d <> d0 ->
  exists m1 m2 l', to_torch (Some d) dev (VArr d0 m (sh, l)) = Ok (VTensor d dev m1 (sh, l'))
    /\ to_torch (Some d) dev (VTensor d0 dev0 m (sh, l)) = Ok (VTensor d dev m2 (sh, l'))
    /\ Forall2 (converted d) l l' /\ new_block m1 /\ new_block m2.
Proof. exact C214_conversion_lemma. Qed.
Print Assumptions C214_conversion.

(** C212. The array made of a list of tensors has the greatest type of the tensors; None and other objects become arrays of shape (). *)
Theorem C212_types : (forall sh dev ts, ts <> [] -> exists d m a,
     to_numpy (VTensors (map (fun t : dtype * mem * list Qc => (fst (fst t), dev, snd (fst t), (sh, snd t))) ts)) = Ok (VArr d m a)
     /\ (exists t, In t ts /\ fst (fst t) = d) /\ forall t, In t ts -> torch_rank (fst (fst t)) <= torch_rank d)
  /\ to_numpy VNone = Ok (VObj0 None) /\ forall n, to_numpy (VOther n) = Ok (VObj0 (Some n)).
Proof. exact C212_types_lemma. Qed.
Print Assumptions C212_types.

(** C216. A tensor or an array of another element type is not shared: the converted tensor has memory of its own and the converted
    elements, and the original is left alone. *)
Theorem C216_cast : forall (d d' : dtype) (dev : device) (m : mem) (a : elems), d' <> d ->
  exists m1 m2, to_torch (Some d') dev (VTensor d dev m a) = Ok (VTensor d' dev m1 (cast d' a)) /\
    to_torch (Some d') cpu (VArr d m a) = Ok (VTensor d' cpu m2 (cast d' a)) /\ m1 <> m /\ m2 <> m /\ new_block m1 /\ new_block m2.
Proof. exact C216_cast_lemma. Qed.
Print Assumptions C216_cast.

(** ** Examples *)
Definition half : Qc := Q2Qc (1 # 2).
Definition ex_batch : value :=
  VBatch [("obs"%string, VArr DF64 (Block 1) ([2], [half; 1%Qc])); ("info"%string, VBatch [("t"%string, VTensor DInt 1 (Block 2) ([1], [1%Qc]))])].
Definition ex_dict : value :=
  VDict [("obs"%string, VArr DF64 (Block 1) ([2], [half; 1%Qc])); ("rew"%string, VNum DF64 half); ("p"%string, ex_batch)].
Example C212_ex : plain ex_dict /\
  exists w, to_numpy ex_batch = Ok w /\
    w = VBatch [("obs"%string, VArr DF64 (Copied (Block 1)) ([2], [half; 1%Qc]));
                ("info"%string, VBatch [("t"%string, VArr DInt (Copied (Copied (Block 2))) ([1], [1%Qc]))])].
Proof. split; [cbn; tauto|]. eexists. split; reflexivity. Qed.
Example C212_list_ex : to_numpy (VNums [(DInt, 1%Qc); (DF32, half)]) = Ok (VArr DF64 fresh ([2], [1%Qc; half])).
Proof. reflexivity. Qed.
Example C213_ex : torchable ex_dict = true /\ is_ok (to_torch (Some DF32) 0 ex_dict) = true /\
  torchable (VBatch [("r"%string, VNum DF64 half)]) = false /\ torchable (VDict [("r"%string, VNum DF64 half)]) = true.
Proof. repeat split; reflexivity. Qed.
Example C214_ex : cast1 DInt half = 0%Qc /\
  to_torch (Some DInt) 0 (VArr DF64 (Block 1) ([1], [half])) = Ok (VTensor DInt 0 (Copied (Block 1)) ([1], [cast1 DInt half])) /\
  to_torch (Some DInt) 0 ex_batch =
    Ok (VBatch [("obs"%string, VTensor DF64 0 (Copied (Block 1)) ([2], [half; 1%Qc]));
                ("info"%string, VBatch [("t"%string, VTensor DInt 0 (Copied (Copied (Block 2))) ([1], [1%Qc]))])]).
Proof. split; [apply Qc_is_canon; reflexivity|]. split; reflexivity. Qed.
Example C215_ex : exists w x y, to_torch None 1 ex_dict = Ok w /\ to_numpy w = Ok x /\ to_numpy ex_dict = Ok y /\ x <> y.
Proof. eexists _, _, _. repeat split. discriminate. Qed.
Example C215_tensor_ex : let v := VBatch [("a"%string, VTensor DF32 1 (Block 1) ([1], [half]))] in
  plain v /\ lift (fun x y => y = x /\ exists d m a, x = VTensor d 1 m a) v v /\ is_ok (to_numpy v) = true.
Proof. cbn. repeat split. eexists _, _, _. reflexivity. Qed.
Example C216_ex : plain_in ex_dict /\ is_ok (to_torch None 0 ex_dict) = true /\ In (Block 1) (blocks ex_dict) /\
  exists w, to_numpy ex_dict = Ok w /\ In (Block 1) (blocks w).
Proof. split; [cbn; tauto|]. split; [reflexivity|]. split; [left; reflexivity|]. eexists. split; [reflexivity | left; reflexivity]. Qed.
Example C212_types_ex : to_numpy (VTensors [(DBool, 0, Block 1, ([1], [1%Qc])); (DF32, 0, Block 2, ([1], [half])); (DInt, 0, Block 3, ([1], [1%Qc]))])
  = Ok (VArr DF32 fresh ([3; 1], [1%Qc; half; 1%Qc])).
Proof. reflexivity. Qed.
Example C214_conversion_ex : converted DInt (Q2Qc (-3 # 2)) (Q2Qc (-1 # 1)) /\ converted DBool half 1%Qc /\ ~ converted DInt (Q2Qc (-3 # 2)) (Q2Qc (-2 # 1)).
Proof.
  split; [exists (-1)%Z; split; [reflexivity|]; split; intros H; vm_compute in H |- *; [exfalso; apply H; reflexivity | split; [reflexivity | discriminate]]|].
  split; [right; split; [discriminate | reflexivity]|]. intros (z & E & _ & N). apply (f_equal this) in E. 
  assert (Z : z = (-2)%Z) by (cbn in E; destruct z as [|[p|p|]|[p|p|]]; try discriminate E; destruct p; try discriminate E; reflexivity).
  subst z. destruct N as [_ N]; [discriminate|]. apply N. reflexivity.
Qed.
