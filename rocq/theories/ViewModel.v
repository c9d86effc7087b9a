(** * Model of distributions inside batches and of the comparison of batches ([tianshou/data/batch.py])

    Tensors and arrays are those of BatchModel.v; gradients, devices and the validation of the parameters of distributions other than by
    their shape and their sum are left out. *)
From Verif Require Export Py Num BatchModel.
Open Scope nat_scope.

(** ** Distributions
    [Cat p]: Categorical with normalised probabilities; [Indep d k]: Independent(d, k); [OtherDist]: of any other class. *)
Inductive dist := Cat (p : nd) | Norm (loc scale : nd) | Indep (d : dist) (k : nat) | OtherDist (bs : list nat) (i : nat).
(** [dist.batch_shape] *)
Fixpoint batch_shape (d : dist) : list nat :=
  match d with
  | Cat p => removelast (shape p)
  | Norm l _ => shape l
  | Indep d k => firstn (length (batch_shape d) - k) (batch_shape d)
  | OtherDist bs _ => bs end.
Definition qof (a : nd) : Qc := match a with Sc (CN q) => q | _ => 0%Qc end.
(** [probs / probs.sum(-1, keepdim=True)]; a sum of zero gives nan, which the constructor refuses. *)
Fixpoint normalise (a : nd) : res nd :=
  match a with
  | Sc _ => Err ValueError
  | Ar [] l =>
      let s := qsum (map qof l) in
      if Qceqb s 0 then Err ValueError else Ok (Ar [] (map (fun x => Sc (CN (qof x / s)%Qc)) l))
  | Ar rs l => let* l := (fix go l := match l with [] => Ok [] | x :: l => let* x := normalise x in let* l := go l in Ok (x :: l) end) l in Ok (Ar rs l)
  end.
(** The constructors of torch. *)
Definition cat_new (p : nd) : res dist := let* p := normalise p in Ok (Cat p).
Definition indep_new (d : dist) (k : nat) : res dist := guard (k <=? length (batch_shape d)) ValueError (Ok (Indep d k)).

(** batch.py:266-278 [get_sliced_dist] *)
Fixpoint sliced (d : dist) (ix : index) : res dist :=
  match d with
  | Cat p => let* p := nget p ix in cat_new p
  | Norm l s => let* l := nget l ix in let* s := nget s ix in Ok (Norm l s)
  | Indep d k => let* d := sliced d ix in indep_new d k
  | OtherDist _ _ => Err NotImplementedError end.
(** batch.py:281-285 [get_len_of_dist] *)
Definition dist_len (d : dist) : res nat := match batch_shape d with [] => Err TypeError | n :: _ => Ok n end.
Definition unsqueeze (a : nd) : nd := Ar (shape a) [a].
(** batch.py:288-302 [dist_to_atleast_2d] *)
Fixpoint dist_2d (d : dist) : res dist :=
  match batch_shape d with
  | _ :: _ => Ok d
  | [] =>
      match d with
      | Cat p => cat_new (unsqueeze p)
      | Norm l s => Ok (Norm (unsqueeze l) (unsqueeze s))
      | Indep d k => let* d := dist_2d d in indep_new d k
      | OtherDist _ _ => Err NotImplementedError end
  end.

(** ** Batches with distributions
    [VBoxed n d]: an array of objects with [n] axes of length one that holds the distribution. *)
Inductive bv := VArr (k : akind) (a : nd) | VTen (k : akind) (a : nd) | VDist (d : dist) | VBoxed (n : nat) (d : dist) | VNone | VNode (l : list (string * bv)).
(** [np.atleast_1d], [np.atleast_2d] *)
Definition at1d (a : nd) : nd := match a with Sc _ => Ar [] [a] | _ => a end.
Definition at2d (a : nd) : nd :=
  match a with
  | Sc _ => Ar [1] [Ar [] [a]]
  | Ar [] l => Ar [length l] [a]
  | _ => a end.
(** [_parse_value] (batch.py:190-228) of an array: an array of objects without rows counts as a set of batches (batch.py:80-97), and
    the Batch of none is empty. *)
Definition parse_arr (k : akind) (a : nd) : bv := match k, a with KObj, Ar _ [] => VNode [] | _, _ => VArr k a end.
(** [apply_values_transform(np.atleast_1d)] and the one with [np.atleast_2d] (batch.py:1367-1384): numpy makes an array of a tensor and
    an array of objects of None and of a distribution. *)
Fixpoint to_1d (v : bv) : bv :=
  match v with
  | VArr k a | VTen k a => parse_arr k (at1d a)
  | VDist d => VBoxed 1 d
  | VBoxed n d => VBoxed (Nat.max 1 n) d
  | VNone => VArr KObj (Ar [] [Sc (CO None)])
  | VNode l => VNode (map (fun kx => (fst kx, to_1d (snd kx))) l) end.
Fixpoint to_2d (v : bv) : bv :=
  match v with
  | VArr k a | VTen k a => parse_arr k (at2d a)
  | VDist d => VBoxed 2 d
  | VBoxed n d => VBoxed (Nat.max 2 n) d
  | VNone => VArr KObj (Ar [1] [Ar [] [Sc (CO None)]])
  | VNode l => VNode (map (fun kx => (fst kx, to_2d (snd kx))) l) end.
(** batch.py:1354-1364 [to_at_least_2d]: the distributions are done again from the original, but only those of the batch itself. *)
Fixpoint batch_2d (l : list (string * bv)) : res (list (string * bv)) :=
  match l with
  | [] => Ok []
  | (k, v) :: l =>
      let* x := match v with VDist d => let* d := dist_2d d in Ok (VDist d) | _ => Ok (to_2d v) end in
      let* l := batch_2d l in Ok ((k, x) :: l) end.

(** batch.py:868-879 [to_numpy]: a copy, made by parsing all values again, with arrays for tensors. *)
Fixpoint numpy (v : bv) : bv :=
  match v with
  | VArr k a => parse_arr k a
  | VTen k a => VArr k a
  | VNode l => VNode (map (fun kx => (fst kx, numpy (snd kx))) l)
  | _ => v end.
Section Compare.
(** How DeepDiff compares two arrays with at least one axis, and two distributions. *)
Variable same : akind -> nd -> akind -> nd -> bool.
Variable samed : dist -> dist -> bool.
(** DeepDiff finds no difference between two dicts: the keys are the same and so are the values. *)
Fixpoint deq (v w : bv) {struct v} : bool :=
  match v, w with
  | VArr k a, VArr k' a' => same k a k' a'
  | VBoxed n d, VBoxed n' d' => (n =? n') && samed d d'
  | VNode l, VNode l' =>
      forallb (fun k => has_key k l) (keys l') &&
      (fix go l := match l with [] => true | (k, x) :: l => match assoc k l' with Some y => deq x y | None => false end && go l end) l
  | _, _ => false end.
(** batch.py:748-767 [__eq__], for two batches without keys called copy, batch_dict or self (see C96). *)
Definition batch_eq (l l' : list (string * bv)) : bool := deq (to_1d (numpy (VNode l))) (to_1d (numpy (VNode l'))).
End Compare.
