(** * Distributions in batches and the comparison of batches: theorems *)
From Coq Require Import String.
From Verif Require Import Py Num BatchModel BatchSpec ViewModel ViewSpec ViewProofs.
Import List ListNotations BatchModel.
Open Scope nat_scope.
Open Scope list_scope.

(** C261. Slicing a distribution over a batch selects elements of the batch: the result is of the same class and each of its elements has exactly
    the parameters of the element that the index selects; an index out of range raises IndexError. The length of the slice is the number of
    selected elements. *)
Theorem C261_slice : forall (d : dist) (n : nat) (bs : list nat) (ix : index), wf (n :: bs) d ->
  match selected n ix with
  | None => sliced d ix = Err IndexError
  | Some ps =>
      exists d', sliced d ix = Ok d' /\ wf (new_shape ix bs ps) d' /\ same_class d d'
        /\ batch_shape d' = new_shape ix bs ps
        /\ (scalar_index ix = false -> dist_len d' = Ok (length ps))
        /\ (forall which q, par which d' q = match source ix ps q with Some q0 => par which d q0 | None => None end)
  end.
Proof. exact C261_slice_lemma. Qed.
Print Assumptions C261_slice.

(** C261. Refuted for a distribution without batch: slicing does not fail as it does for an array without axes. A slice of a Categorical keeps some
    of the classes and scales their probabilities up, and is again a distribution without batch; so does a slice of an Independent one keep some
    of the components. *)
Theorem C261_unbatched_refuted : forall (l : list nd) (loc scale : list nd) (a b : nat) (ps ps' : list nat),
  selected (length l) (ISlice a b) = Some ps -> qsum (map (fun i => qof (nth i l (Sc CNan))) ps) <> 0%Qc ->
  selected (length loc) (ISlice a b) = Some ps' -> length scale = length loc ->
  (exists d', sliced (Cat (Ar [] l)) (ISlice a b) = Ok d' /\ batch_shape d' = []
     /\ forall j i, nth_error ps j = Some i ->
          par true d' [j] = Some (CN (qof (nth i l (Sc CNan)) / qsum (map (fun i => qof (nth i l (Sc CNan))) ps))%Qc))
  /\ (exists d', sliced (Indep (Norm (Ar [] loc) (Ar [] scale)) 1) (ISlice a b) = Ok d' /\ batch_shape d' = []
     /\ forall which j, par which d' [j] = match nth_error ps' j with Some i => par which (Norm (Ar [] loc) (Ar [] scale)) [i] | None => None end)
  /\ (forall ix x y, sliced (Norm (Sc x) (Sc y)) ix = Err IndexError).
Proof. exact C261_unbatched_refuted_lemma. Qed.
Print Assumptions C261_unbatched_refuted.

(** C262. Without event axes, a distribution without batch becomes one over a batch of one, whose only element it is; a distribution over a batch
    is left alone. *)
Theorem C262_dist : forall (d : dist) (n : nat) (bs : list nat),
  (wf [] d -> no_event d -> exists d', dist_2d d = Ok d' /\ wf [1] d' /\ dist_len d' = Ok 1 /\ sliced d' (IInt 0) = Ok d /\ dist_2d d' = Ok d')
  /\ (wf (n :: bs) d -> dist_2d d = Ok d).
Proof. exact C262_dist_lemma. Qed.
Print Assumptions C262_dist.

(** C262. Refuted with event axes, as in the Gaussian distributions that the policies use: Independent(Normal, 1) without batch comes back unchanged,
    still without batch. *)
Theorem C262_event_refuted : forall (d : dist) (k : nat), wf [] (Indep d k) -> 1 <= k ->
  dist_2d (Indep d k) = Ok (Indep d k) /\ batch_shape (Indep d k) = [] /\ dist_len (Indep d k) = Err TypeError.
Proof. exact C262_event_refuted_lemma. Qed.
Print Assumptions C262_event_refuted.

(** C262. Refuted for nested batches: a distribution inside a nested batch is not converted but put into an array of objects of shape (1, 1); a tensor
    anywhere becomes a numpy array. *)
Theorem C262_nested_refuted : forall (l l' : list (string * bv)) (key k : string) (p : list string) (d : dist) (ak : akind) (a : nd),
  batch_2d l = Ok l' ->
  (vat (key :: k :: p) (VNode l) = Some (VDist d) -> vat (key :: k :: p) (VNode l') = Some (VBoxed 2 d))
  /\ (vat (key :: p) (VNode l) = Some (VTen ak a) -> ak <> KObj -> vat (key :: p) (VNode l') = Some (VArr ak (at2d a))).
Proof. exact C262_nested_refuted_lemma. Qed.
Print Assumptions C262_nested_refuted.

(** C262. On the batch itself, keys stay, arrays get at least two axes and distributions are converted. *)
Theorem C262_batch : forall (l l' : list (string * bv)) (key : string),
  batch_2d l = Ok l' ->
  map fst l' = map fst l
  /\ (forall d, vat [key] (VNode l) = Some (VDist d) -> exists d', dist_2d d = Ok d' /\ vat [key] (VNode l') = Some (VDist d'))
  /\ (forall ak a, ak <> KObj -> vat [key] (VNode l) = Some (VArr ak a) -> exists a', vat [key] (VNode l') = Some (VArr ak a')
        /\ 2 <= length (shape a')
        /\ match shape a with [] => shape a' = [1; 1] | [n] => shape a' = [1; n] | sh => shape a' = sh end).
Proof. exact C262_batch_lemma. Qed.
Print Assumptions C262_batch.

(** C263. Concatenating the rows of an array after to_at_least_2d gives back the array exactly if it has two axes; if it has one, the result has
    a second axis of length one. *)
Theorem C263_rows : forall (m : nat) (l : list nd), l <> [] ->
  ((forall x, In x l -> exists r, x = Ar [] r /\ length r = m) -> nconcat (map at2d l) = Ok ([m], l))
  /\ ((forall x, In x l -> exists c, x = Sc c) -> nconcat (map at2d l) = Ok ([1], map (fun x => Ar [] [x]) l)).
Proof. exact C263_rows_lemma. Qed.
Print Assumptions C263_rows.

(** C263. Refuted for three and more axes: the first two are merged, so an array of n images with h rows each comes back with n*h rows. *)
Theorem C263_images_refuted : forall (h w : nat) (rs : list nat) (l : list nd), l <> [] ->
  (forall x, In x l -> exists r, x = Ar (w :: rs) r /\ length r = h) ->
  exists r, nconcat (map at2d l) = Ok (w :: rs, r) /\ length r = length l * h.
Proof. exact C263_images_refuted_lemma. Qed.
Print Assumptions C263_images_refuted.

(** C264. Two batches are equal exactly if the same paths lead to values in both, and at each path the arrays, as DeepDiff compares them, agree; the
    order of the keys and whether a value is a tensor or an array do not matter. *)
Theorem C264_eq : forall (same : akind -> nd -> akind -> nd -> bool) (samed : dist -> dist -> bool) (l l' : list (string * bv)),
  vdistinct (VNode l) -> vdistinct (VNode l') ->
  (batch_eq same samed l l' = true <-> forall p, agree same samed (vat p (VNode l)) (vat p (VNode l'))).
Proof. exact C264_eq_lemma. Qed.
Print Assumptions C264_eq.

(** C264. So equality is an equivalence if the comparison of arrays is one, and only the empty batch equals the empty batch. *)
Theorem C264_equivalence : forall (same : akind -> nd -> akind -> nd -> bool) (samed : dist -> dist -> bool) (l1 l2 l3 : list (string * bv)),
  (forall k a, same k a k a = true) -> (forall k a k' a', same k a k' a' = true -> same k' a' k a = true) ->
  (forall k a k' a' k'' a'', same k a k' a' = true -> same k' a' k'' a'' = true -> same k a k'' a'' = true) ->
  (forall d, samed d d = true) -> (forall d d', samed d d' = true -> samed d' d = true) ->
  (forall d d' d'', samed d d' = true -> samed d' d'' = true -> samed d d'' = true) ->
  vdistinct (VNode l1) -> vdistinct (VNode l2) -> vdistinct (VNode l3) ->
  batch_eq same samed l1 l1 = true
  /\ (batch_eq same samed l1 l2 = true -> batch_eq same samed l2 l1 = true)
  /\ (batch_eq same samed l1 l2 = true -> batch_eq same samed l2 l3 = true -> batch_eq same samed l1 l3 = true)
  /\ (batch_eq same samed l1 [] = true <-> l1 = []).
Proof. exact C264_equivalence_lemma. Qed.
Print Assumptions C264_equivalence.

(** C264. Refuted as a comparison of shapes: a number equals the array with that one number, None equals the array with one None, an empty array of
    objects equals an empty batch; so a row of a batch of numbers equals the batch with only that row, although the row has no length. *)
Theorem C264_scalar_refuted : forall (same : akind -> nd -> akind -> nd -> bool) (samed : dist -> dist -> bool) (key : string) (k : akind) (c : cell) (rs : list nat),
  (forall k a, same k a k a = true) ->
  batch_eq same samed [(key, VArr k (Sc c))] [(key, VArr k (Ar [] [Sc c]))] = true
  /\ batch_eq same samed [(key, VNone)] [(key, VArr KObj (Ar [] [Sc (CO None)]))] = true
  /\ batch_eq same samed [(key, VNode [])] [(key, VArr KObj (Ar rs []))] = true
  /\ (forall l i ps, selected (length l) (IInt i) = Some ps -> (forall x, In x l -> exists c, x = Sc c) -> exists x y,
        nget (Ar [] l) (IInt i) = Ok x /\ nget (Ar [] l) (IArr [i]) = Ok y /\ batch_eq same samed [(key, VArr k x)] [(key, VArr k y)] = true
        /\ shape x = [] /\ shape y = [1]).
Proof. exact C264_scalar_refuted_lemma. Qed.
Print Assumptions C264_scalar_refuted.

(** C264. What to_numpy makes of the values: at every path arrays for tensors, no tensor is left, arrays of objects without rows become
    empty batches (all values are parsed again), everything else and all keys stay. *)
Theorem C264_numpy : forall (v : bv) (p : list string),
  match vat p v with
  | Some (VTen k a) => vat p (numpy v) = Some (VArr k a)
  | Some (VArr k a) => vat p (numpy v) = Some (if match k, a with KObj, Ar _ [] => true | _, _ => false end then VNode [] else VArr k a)
  | Some (VNode l) => exists l', vat p (numpy v) = Some (VNode l') /\ map fst l' = map fst l
  | Some x => vat p (numpy v) = Some x
  | None => vat p (numpy v) = None
  end /\ forall k a, vat p (numpy v) <> Some (VTen k a).
Proof. exact C264_numpy_lemma. Qed.
Print Assumptions C264_numpy.

Definition q (n : Z) (m : positive) : nd := Sc (CN (Q2Qc (n # m))).
Definition p2 : dist := Cat (Ar [2] [Ar [] [q 1 4; q 3 4]; Ar [] [q 1 2; q 1 2]; Ar [] [q 1 5; q 4 5]]).
Definition pars (r : res dist) : option (list nat * list (option Q)) :=
  match r with
  | Ok d => Some (batch_shape d, map (fun x => match par true d x with Some (CN q) => Some (this q) | _ => None end) [[0]; [1]; [0; 0]; [0; 1]; [1; 0]; [1; 1]])
  | Err _ => None end.
Example C261_wf_ex : wf [3] p2.
Proof.
  exists 2. split; [cbn; repeat split; repeat constructor|]. split.
  - cbn. repeat constructor; apply Qc_is_canon; vm_compute; reflexivity.
  - intros [|i [|j r]]; [discriminate | destruct i as [|[|[|[|i]]]]; discriminate|].
    destruct i as [|[|[|[|i]]]]; destruct j as [|[|[|j]]]; try discriminate; destruct r; discriminate.
Qed.
Example C261_ex : pars (sliced p2 (IArr [2; 0]%Z)) = Some ([2], [None; None; Some (1 # 5); Some (4 # 5); Some (1 # 4); Some (3 # 4)]%Q)
  /\ pars (sliced p2 (IInt (-2))) = Some ([], [Some (1 # 2); Some (1 # 2); None; None; None; None]%Q)
  /\ sliced p2 (IInt 3) = Err IndexError.
Proof. repeat split; vm_compute; reflexivity. Qed.
(** Three classes, of which a slice keeps two. *)
Example C261_unbatched_ex : pars (sliced (Cat (Ar [] [q 1 4; q 1 4; q 1 2])) (ISlice 0 2)) = Some ([], [Some (1 # 2); Some (1 # 2); None; None; None; None]%Q)
  /\ sliced (Cat (Ar [] [q 1 4; q 3 4])) (IInt 0) = Err ValueError.
Proof. split; vm_compute; reflexivity. Qed.
Definition g1 : dist := Indep (Norm (Ar [] [q 1 1; q 2 1]) (Ar [] [q 1 2; q 1 2])) 1.
Example C262_ex : wf [] g1 /\ dist_2d g1 = Ok g1 /\ batch_shape g1 = []
  /\ pars (dist_2d (Indep (Norm (q 1 1) (q 1 2)) 0)) = Some ([1], [Some 1%Q; None; None; None; None; None])
  /\ pars (dist_2d (Cat (Ar [] [q 1 4; q 3 4]))) = Some ([1], [None; None; Some (1 # 4); Some (3 # 4); None; None]%Q).
Proof.
  split; [exists [2]; split; [reflexivity|]; cbn; repeat split; repeat constructor|].
  split; [reflexivity|]. split; [reflexivity|]. split; vm_compute; reflexivity.
Qed.
Definition b2 : list (string * bv) := [("a", VTen KFloat (Ar [] [q 1 1; q 2 1])); ("dist", VDist p2); ("n", VNode [("dist", VDist g1)])]%string.
Example C262_batch_ex : batch_2d b2 = Ok [("a", VArr KFloat (Ar [2] [Ar [] [q 1 1; q 2 1]])); ("dist", VDist p2); ("n", VNode [("dist", VBoxed 2 g1)])]%string.
Proof. reflexivity. Qed.
Example C263_ex : nconcat (map at2d [Ar [] [q 1 1; q 2 1]; Ar [] [q 3 1; q 4 1]]) = Ok ([2], [Ar [] [q 1 1; q 2 1]; Ar [] [q 3 1; q 4 1]])
  /\ nconcat (map at2d [q 1 1; q 2 1]) = Ok ([1], [Ar [] [q 1 1]; Ar [] [q 2 1]])
  /\ let i := Ar [1] [Ar [] [q 1 1]; Ar [] [q 2 1]] in nconcat (map at2d [i; i]) = Ok ([1], [Ar [] [q 1 1]; Ar [] [q 2 1]; Ar [] [q 1 1]; Ar [] [q 2 1]]).
Proof. repeat split. Qed.
(** A comparison by kind and shape only, which is enough to see the keys and the axes. *)
Definition by_shape (k : akind) (a : nd) (k' : akind) (a' : nd) : bool := akind_eqb k k' && if list_eq_dec Nat.eq_dec (shape a) (shape a') then true else false.
Definition any (d d' : dist) : bool := true.
Example C264_ex : batch_eq by_shape any [("a", VArr KInt (q 1 1)); ("b", VNode [("c", VNone)])]%string [("b", VNode [("c", VNone)]); ("a", VTen KInt (Ar [] [q 1 1]))]%string = true
  /\ batch_eq by_shape any [("a", VArr KInt (q 1 1))]%string [("a", VArr KInt (Ar [] [q 1 1; q 2 1]))]%string = false
  /\ batch_eq by_shape any [("a", VArr KInt (q 1 1))]%string [("a", VArr KInt (q 1 1)); ("b", VNode [])]%string = false
  /\ batch_eq by_shape any [("a", VArr KInt (q 1 1)); ("b", VNode [])]%string [("a", VArr KInt (q 1 1))]%string = false.
Proof. repeat split. Qed.
Example C264_same_ex : (forall k a, by_shape k a k a = true) /\ vdistinct (VNode [("a", VArr KInt (q 1 1)); ("b", VNode [("c", VNone)])]%string).
Proof.
  split.
  - intros k a. unfold by_shape. destruct (list_eq_dec Nat.eq_dec (shape a) (shape a)); [|congruence]. destruct k; reflexivity.
  - intros p l H. destruct p as [|k p]; cbn in H.
    + injection H as <-. repeat constructor; cbn; intuition discriminate.
    + destruct (String.eqb k "a"); cbn in H; [destruct p; discriminate H|]. destruct (String.eqb k "b"); cbn in H; [|discriminate H].
      destruct p as [|k' p]; [injection H as <-; repeat constructor; cbn; intuition discriminate|]. cbn in H.
      destruct (String.eqb k' "c"); cbn in H; [destruct p; discriminate H | discriminate H].
Qed.
