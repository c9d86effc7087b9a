(** * Properties C07, C56: get_buffer_indices *)
From Verif Require Import Py PyLemmas GetIndicesModel GetIndicesProofs.
From Coq Require Import Sorted.
Open Scope Z_scope.

(** C07.  [start] lies in the sub-buffer [lo, hi).  If [stop - 1] does too and [stop <> start],
    the result is the cyclic interval of the sub-buffer from [start] to [stop - 1], in order;
    in all other cases the call is a ValueError. *)
Theorem C07_get_buffer_indices : forall edges k lo hi start stop,
  StronglySorted Z.lt edges ->
  nth_error edges k = Some lo -> nth_error edges (S k) = Some hi -> lo <= start < hi ->
  (lo < stop <= hi -> stop <> start ->
     exists l, get_buffer_indices edges start stop = Ok l
       /\ Z.of_nat (length l) = (if start <? stop then stop - start else stop - start + (hi - lo))
       /\ (forall j, (j < length l)%nat ->
             nth_error l j = Some (lo + (start - lo + Z.of_nat j) mod (hi - lo))))
  /\ (~ (lo < stop <= hi) -> get_buffer_indices edges start stop = Err ValueError)
  /\ (stop = start -> get_buffer_indices edges start stop = Err ValueError).
Proof. exact C07_get_buffer_indices_lemma. Qed.
Print Assumptions C07_get_buffer_indices.

(** C56.  Indices outside the buffer on the same side are accepted. *)
Theorem C56_out_of_range_accepted : forall edges start stop,
  (forall e, In e edges -> e <= start) -> start < stop ->
  get_buffer_indices edges start stop = Ok (zrange start stop).
Proof. exact C56_out_of_range_accepted_lemma. Qed.
Print Assumptions C56_out_of_range_accepted.

(** C56.  Witness: edges 0, 5, 10 and the interval 12..14. *)
Theorem C56_rejects_out_of_range_refuted : exists edges start stop,
  StronglySorted Z.lt edges /\ (forall e, In e edges -> e < start) /\
  exists l, get_buffer_indices edges start stop = Ok l /\ l <> [].
Proof. exact C56_rejects_out_of_range_refuted_lemma. Qed.
Print Assumptions C56_rejects_out_of_range_refuted.

(** ** Non-vacuity: three sub-buffers of sizes 5, 5, 2; wrap-around, plain and rejected. *)
Example C07_ex_edges : StronglySorted Z.lt [0; 5; 10; 12].
Proof. repeat constructor; lia. Qed.
Example C07_ex_wrap : get_buffer_indices [0; 5; 10; 12] 8 7 = Ok [8; 9; 5; 6]
  /\ get_buffer_indices [0; 5; 10; 12] 2 4 = Ok [2; 3]
  /\ get_buffer_indices [0; 5; 10; 12] 5 10 = Ok [5; 6; 7; 8; 9]
  /\ get_buffer_indices [0; 5; 10; 12] 1 6 = Err ValueError
  /\ get_buffer_indices [0; 5; 10; 12] 8 1 = Err ValueError
  /\ get_buffer_indices [0; 5; 10; 12] 8 8 = Err ValueError.
Proof. vm_compute. auto 10. Qed.
(** The witness of the finding: indices 20..22 of a buffer of 12. *)
Example C56_ex : get_buffer_indices [0; 5; 10; 12] 20 23 = Ok [20; 21; 22]
  /\ get_buffer_indices [0; 5; 10; 12] (-3) (-1) = Ok [-3; -2].
Proof. vm_compute. auto. Qed.
