(** * Properties C307-C310: laws of the segment tree and of prioritized draws *)
From Verif Require Import Py PyLemmas Num SegTreeModel SegTreeSpec PrioModel TreelawProofs.
Open Scope nat_scope.

(** C307.  The tree is a function of the contents of the array: histories that leave the same contents
    leave the same tree. *)
Theorem C307_canonical : forall size ops ops', spec_run size ops = spec_run size ops' -> st_run size ops = st_run size ops'.
Proof. exact C307_canonical_lemma. Qed.
Print Assumptions C307_canonical.

(** C307.  Assignments to disjoint sets of indices commute. *)
Theorem C307_commute : forall size ops i v j w, (forall z, In z i -> ~ In z j) ->
  st_run size (ops ++ [(i, v); (j, w)]) = st_run size (ops ++ [(j, w); (i, v)]).
Proof. exact C307_commute_lemma. Qed.
Print Assumptions C307_commute.

(** C307.  Two assignments one after the other are one assignment of the joined arrays. *)
Theorem C307_join : forall size ops i v j w, legal size i v = true -> legal size j w = true ->
  st_run size (ops ++ [(i, v); (j, w)]) = st_run size (ops ++ [(i ++ j, v ++ w)]).
Proof. exact C307_join_lemma. Qed.
Print Assumptions C307_join.

(** C308.  Sums of slices add up, and the slice of one index is the entry. *)
Theorem C308_additive : forall size ops a b c, a <= b -> b <= c -> c <= size ->
  let s := st_run size ops in
  exists x y, st_reduce s (Z.of_nat a) (Some (Z.of_nat b)) = Ok x /\ st_reduce s (Z.of_nat b) (Some (Z.of_nat c)) = Ok y
    /\ st_reduce s (Z.of_nat a) (Some (Z.of_nat c)) = Ok (x + y)%Qc
    /\ (S a <= size -> st_reduce s (Z.of_nat a) (Some (Z.of_nat (S a))) = st_getitem s (Z.of_nat a)).
Proof. exact C308_additive_lemma. Qed.
Print Assumptions C308_additive.

(** C308.  Writing one entry changes the sum of a slice by the difference if the entry is in it, and
    otherwise not at all. *)
Theorem C308_delta : forall size ops i x a b, i < size -> a <= b -> b <= size ->
  exists old before, st_getitem (st_run size ops) (Z.of_nat i) = Ok old
    /\ st_reduce (st_run size ops) (Z.of_nat a) (Some (Z.of_nat b)) = Ok before
    /\ st_reduce (st_run size (ops ++ [([Z.of_nat i], [x])])) (Z.of_nat a) (Some (Z.of_nat b))
       = Ok (before + if (a <=? i) && (i <? b) then x - old else 0)%Qc.
Proof. exact C308_delta_lemma. Qed.
Print Assumptions C308_delta.

(** C309.  On non-negative entries a positive query gets index [j] exactly when it lies above the sum of
    the entries before [j] and not above the sum including [j]: an interval as long as the entry. *)
Theorem C309_interval : forall size ops v j,
  let arr := spec_run size ops in
  (forall i, i < size -> (0 <= nth i arr 0)%Qc) -> (0 < v)%Qc -> (v < slice_sum arr 0 size)%Qc -> j < size ->
  (st_prefix (st_run size ops) [v] = Ok [j] <-> (slice_sum arr 0 j < v)%Qc /\ (v <= slice_sum arr 0 j + nth j arr 0)%Qc).
Proof. exact C309_interval_lemma. Qed.
Print Assumptions C309_interval.

(** C309.  Greater queries never get smaller indices. *)
Theorem C309_monotone : forall size ops v w j k,
  let arr := spec_run size ops in
  (forall i, i < size -> (0 <= nth i arr 0)%Qc) -> (0 <= v)%Qc -> (v <= w)%Qc -> (w < slice_sum arr 0 size)%Qc ->
  st_prefix (st_run size ops) [v] = Ok [j] -> st_prefix (st_run size ops) [w] = Ok [k] -> j <= k.
Proof. exact C309_monotone_lemma. Qed.
Print Assumptions C309_monotone.

(** C309.  A query with an array is the queries with its entries one by one. *)
Theorem C309_vectorised : forall size ops vs js,
  let arr := spec_run size ops in
  (forall i, i < size -> (0 <= nth i arr 0)%Qc) -> vs <> [] ->
  (st_prefix (st_run size ops) vs = Ok js <-> Forall2 (fun v j => st_prefix (st_run size ops) [v] = Ok [j]) vs js).
Proof. exact C309_vectorised_lemma. Qed.
Print Assumptions C309_vectorised.

(** C310.  Prioritized sampling draws every index for a share of the uniform draws equal to its share of
    the total weight. *)
Theorem C310_share : forall size ops pmax pmin u j,
  let arr := spec_run size ops in
  let total := slice_sum arr 0 size in
  let p := mkPrio (st_run size ops) pmax pmin in
  (forall i, i < size -> (0 <= nth i arr 0)%Qc) -> (0 < total)%Qc -> (0 < u < 1)%Qc -> j < size ->
  let before := (slice_sum arr 0 j / total)%Qc in
  (prio_draw p [u] = Ok [j] <-> (before < u)%Qc /\ (u <= before + nth j arr 0 / total)%Qc).
Proof. exact C310_share_lemma. Qed.
Print Assumptions C310_share.

(** ** Non-vacuity: size 5 (bound 8, three padding leaves) with repeated indices. *)
Definition tq (n : Z) : Qc := Q2Qc (inject_Z n).
Definition tl_ops : list (list Z * list Qc) :=
  [([0; 3; 3]%Z, [tq 2; tq 7; tq 4]); ([4]%Z, [tq 1]); ([1; 0]%Z, [tq 3; tq 5])].
Definition tl_ops' : list (list Z * list Qc) := [([0; 1; 3; 4]%Z, [tq 5; tq 3; tq 4; tq 1])].
Example C307_ex : spec_run 5 tl_ops = spec_run 5 tl_ops' /\ st_run 5 tl_ops = st_run 5 tl_ops'
  /\ tget (st_value (st_run 5 tl_ops)) 1 = tq 13.
Proof. vm_compute. auto. Qed.
Example C307_ex_order : st_run 5 [([1; 2]%Z, [tq 1; tq 2]); ([2]%Z, [tq 3])] <> st_run 5 [([2]%Z, [tq 3]); ([1; 2]%Z, [tq 1; tq 2])].
Proof.
  intros H. apply (f_equal (fun s => tget (st_value s) 1)) in H. apply (f_equal this) in H. vm_compute in H. discriminate H.
Qed.
Example C307_ex_legal : legal 5 [0; 3; 3]%Z [tq 2; tq 7; tq 4] = true /\ legal 5 [1; 0]%Z [tq 3; tq 5] = true.
Proof. vm_compute. auto. Qed.
Example C308_ex : st_reduce (st_run 5 tl_ops) 1 (Some 4%Z) = Ok (tq 7) /\ st_reduce (st_run 5 tl_ops) 0 (Some 1%Z) = Ok (tq 5)
  /\ st_reduce (st_run 5 (tl_ops ++ [([3]%Z, [tq 10])])) 1 (Some 4%Z) = Ok (tq 13).
Proof. vm_compute. auto. Qed.
Example C309_ex : st_prefix (st_run 5 tl_ops) [tq 6] = Ok [1] /\ st_prefix (st_run 5 tl_ops) [tq 8] = Ok [1]
  /\ st_prefix (st_run 5 tl_ops) [tq 9] = Ok [3] /\ st_prefix (st_run 5 tl_ops) [tq 6; tq 8; tq 9] = Ok [1; 1; 3].
Proof. vm_compute. auto. Qed.
Example C309_ex_hyp : forall i, i < 5 -> (0 <= nth i (spec_run 5 tl_ops) 0)%Qc.
Proof. intros i Hi. do 5 (destruct i; [vm_compute; discriminate|]). lia. Qed.
(** The weight 4 of index 3 out of 13: draws above 8/13 and up to 12/13. *)
Example C310_ex : let p := mkPrio (st_run 5 tl_ops) 1 1 in
  prio_draw p [Q2Qc (8 # 13)] = Ok [1] /\ prio_draw p [Q2Qc (9 # 13)] = Ok [3] /\ prio_draw p [Q2Qc (12 # 13)] = Ok [3]
  /\ prio_draw p [Q2Qc (25 # 26)] = Ok [4].
Proof. vm_compute. auto. Qed.
