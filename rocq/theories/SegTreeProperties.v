(** * Properties C13, C14, C15: SegmentTree *)
From Verif Require Import Py PyLemmas Num SegTreeModel SegTreeSpec SegTreeProofs.
Open Scope nat_scope.

(** C13.  After any sequence of vectorised assignments: every inner node is the sum of its two
    children, reading index [i] gives the entry of the plain array [spec_run] that received
    the same assignments one by one, the tree array keeps its shape. *)
Theorem C13_node_sums_and_reads : forall size ops,
  let s := st_run size ops in
  (forall i, 1 <= i < st_bound s ->
     nth i (st_value s) 0%Qc = (nth (2 * i) (st_value s) 0 + nth (2 * i + 1) (st_value s) 0)%Qc)
  /\ (forall i, i < size -> st_getitem s (Z.of_nat i) = Ok (nth i (spec_run size ops) 0%Qc))
  /\ st_size s = size /\ size <= st_bound s /\ length (st_value s) = 2 * st_bound s.
Proof. exact C13_node_sums_and_reads_lemma. Qed.
Print Assumptions C13_node_sums_and_reads.

(** C13.  [__setitem__] succeeds exactly on legal arguments; an index outside the tree is an
    AssertionError. *)
Theorem C13_setitem_accepts : forall size ops index value,
  let s := st_run size ops in
  (legal size index value = true ->
     exists s', st_setitem s index value = Ok s' /\ s' = st_run size (ops ++ [(index, value)]))
  /\ (legal size index value = false -> exists e, st_setitem s index value = Err e)
  /\ (forall i, In i index -> ~ (0 <= i < Z.of_nat size)%Z ->
        st_setitem s index value = Err AssertionError).
Proof. exact C13_setitem_accepts_lemma. Qed.
Print Assumptions C13_setitem_accepts.

(** C14.  [reduce(start, end)] is the slice sum; [None] is the end of the array, negative ends
    count from the back, and an empty slice gives 0. *)
Theorem C14_reduce_is_slice_sum : forall size ops (a b : nat) (e : option Z),
  a <= size -> b <= size ->
  match e with
  | None => b = size
  | Some z => (z = Z.of_nat b \/ (z < 0 /\ z + Z.of_nat size = Z.of_nat b))%Z
  end ->
  st_reduce (st_run size ops) (Z.of_nat a) e = Ok (slice_sum (spec_run size ops) a b).
Proof. exact C14_reduce_is_slice_sum_lemma. Qed.
Print Assumptions C14_reduce_is_slice_sum.

(** C15.  On non-negative leaves every query in [0, total) gets the smallest index whose
    inclusive prefix sum reaches it, and a positive query lands on a positive leaf. *)
Theorem C15_prefix_sum_idx : forall size ops vs,
  let arr := spec_run size ops in
  vs <> [] -> (forall i, i < size -> (0 <= nth i arr 0)%Qc) ->
  (forall v, In v vs -> (0 <= v)%Qc /\ (v < slice_sum arr 0 size)%Qc) ->
  exists js, st_prefix (st_run size ops) vs = Ok js
    /\ Forall2 (fun v j => j < size /\ (v <= slice_sum arr 0 (S j))%Qc
                  /\ (forall j', j' < j -> (slice_sum arr 0 (S j') < v)%Qc)
                  /\ ((0 < v)%Qc -> (0 < nth j arr 0)%Qc)) vs js.
Proof. exact C15_prefix_sum_idx_lemma. Qed.
Print Assumptions C15_prefix_sum_idx.

(** C15.  Queries outside [0, total) are rejected. *)
Theorem C15_prefix_rejects : forall size ops vs v,
  In v vs -> (v < 0)%Qc \/ (slice_sum (spec_run size ops) 0 size <= v)%Qc ->
  st_prefix (st_run size ops) vs = Err AssertionError.
Proof. exact C15_prefix_rejects_lemma. Qed.
Print Assumptions C15_prefix_rejects.

(** ** Non-vacuity *)
Definition q (n : Z) : Qc := Q2Qc (inject_Z n).

(** Size 5 (bound 8, three padding leaves), repeated indices, one rejected call. *)
Definition ex_ops : list (list Z * list Qc) :=
  [([0; 3; 3]%Z, [q 2; q 7; q 4]); ([4]%Z, [q 1]); ([5]%Z, [q 9]); ([1; 0]%Z, [q 3; q 5])].

Example C13_ex_array : spec_run 5 ex_ops = [q 5; q 3; q 0; q 4; q 1].
Proof. vm_compute. reflexivity. Qed.
Example C13_ex_tree : st_getitem (st_run 5 ex_ops) 3 = Ok (q 4)
  /\ st_bound (st_run 5 ex_ops) = 8 /\ legal 5 [1; 0]%Z [q 3; q 5] = true.
Proof. vm_compute. auto. Qed.
Example C13_ex_reject : legal 5 [5]%Z [q 9] = false
  /\ st_setitem (st_run 5 ex_ops) [2; -1]%Z [q 1; q 1] = Err AssertionError.
Proof. vm_compute. auto. Qed.
Example C14_ex : st_reduce (st_run 5 ex_ops) 1 (Some (-1)%Z) = Ok (q 7)
  /\ st_reduce (st_run 5 ex_ops) 0 None = Ok (q 13)
  /\ st_reduce (st_run 5 ex_ops) 2 (Some 2%Z) = Ok (q 0).
Proof. vm_compute. auto. Qed.
(** Weights 5 3 0 4 1: 5 is still in slot 0, 8 in slot 1, 8+1 skips the empty slot 2. *)
Example C15_ex : st_prefix (st_run 5 ex_ops) [q 0; q 5; q 6; q 8; q 9; q 12] = Ok [0; 0; 1; 1; 3; 3].
Proof. vm_compute. auto. Qed.
Example C15_ex_hyp :
  (forall i, i < 5 -> (0 <= nth i (spec_run 5 ex_ops) 0)%Qc)
  /\ slice_sum (spec_run 5 ex_ops) 0 5 = q 13.
Proof.
  split; [|vm_compute; reflexivity].
  intros i Hi. do 5 (destruct i; [vm_compute; discriminate|]). lia.
Qed.
