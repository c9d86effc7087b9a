From Verif Require Import Py PyLemmas GetIndicesModel.
From Coq Require Import Sorted.
Open Scope Z_scope.

Lemma count_le_ge l : StronglySorted Z.lt l -> forall k lo x, nth_error l k = Some lo ->
  (Z.of_nat k + 1 <= searchsorted_right l x <-> lo <= x).
Proof.
  unfold searchsorted_right. induction 1 as [|a l S IH F]; intros k lo x Hk.
  - destruct k; discriminate.
  - cbn [filter]. destruct (Z.leb_spec a x) as [Ha|Ha].
    + cbn [length]. destruct k as [|k]; cbn [nth_error] in Hk.
      * injection Hk as ->. lia.
      * specialize (IH k lo x Hk). lia.
    + assert (E : filter (fun e => e <=? x) l = []).
      { destruct (filter (fun e => e <=? x) l) as [|y t] eqn:E; [reflexivity|].
        assert (Hy : In y (filter (fun e => e <=? x) l)) by (rewrite E; left; reflexivity).
        apply filter_In in Hy as [Hy1 Hy2]. rewrite Forall_forall in F. specialize (F y Hy1). lia. }
      rewrite E. cbn [length].
      assert (a <= lo).
      { destruct k as [|k]; cbn [nth_error] in Hk; [injection Hk as ->; lia|].
        rewrite Forall_forall in F. apply nth_error_In in Hk. specialize (F _ Hk). lia. }
      lia.
Qed.

Lemma count_lt_le l x : searchsorted_left l x = searchsorted_right l (x - 1).
Proof.
  unfold searchsorted_left, searchsorted_right. f_equal. f_equal.
  apply filter_ext. intros a. lia.
Qed.

Lemma count_eq l k lo hi x : StronglySorted Z.lt l ->
  nth_error l k = Some lo -> nth_error l (S k) = Some hi ->
  (searchsorted_right l x = Z.of_nat k + 1 <-> lo <= x < hi).
Proof.
  intros S H1 H2. pose proof (count_le_ge l S k lo x H1). pose proof (count_le_ge l S (Datatypes.S k) hi x H2).
  lia.
Qed.

Lemma zrange_nth a b j : (j < Z.to_nat (b - a))%nat -> nth_error (zrange a b) j = Some (a + Z.of_nat j).
Proof.
  intros H. unfold zrange. rewrite nth_error_map_seq. destruct (Nat.ltb_spec j (Z.to_nat (b - a))); [|lia].
  reflexivity.
Qed.

Lemma zrange_length a b : length (zrange a b) = Z.to_nat (b - a).
Proof. unfold zrange. rewrite map_length, seq_length. reflexivity. Qed.

(** C07.  [start] lies in the sub-buffer [lo, hi).  If [stop - 1] does too and [stop <> start],
    the result is the cyclic interval of the sub-buffer from [start] to [stop - 1], in order;
    in all other cases the call is a ValueError. *)
Lemma C07_get_buffer_indices_lemma : forall edges k lo hi start stop,
  StronglySorted Z.lt edges ->
  nth_error edges k = Some lo -> nth_error edges (S k) = Some hi -> lo <= start < hi ->
  (lo < stop <= hi -> stop <> start ->
     exists l, get_buffer_indices edges start stop = Ok l
       /\ Z.of_nat (length l) = (if start <? stop then stop - start else stop - start + (hi - lo))
       /\ (forall j, (j < length l)%nat ->
             nth_error l j = Some (lo + (start - lo + Z.of_nat j) mod (hi - lo))))
  /\ (~ (lo < stop <= hi) -> get_buffer_indices edges start stop = Err ValueError)
  /\ (stop = start -> get_buffer_indices edges start stop = Err ValueError).
Proof.
  intros edges k lo hi start stop S H1 H2 Hs.
  pose proof (count_eq edges k lo hi start S H1 H2) as Ca.
  pose proof (count_eq edges k lo hi (stop - 1) S H1 H2) as Cb.
  repeat split.
  - intros Hst Hne. unfold get_buffer_indices.
    destruct (Z.eqb_spec (searchsorted_right edges start - 1) (searchsorted_right edges (stop - 1) - 1));
      [|lia]. cbn [negb].
    destruct (Z.ltb_spec start stop) as [Hlt|Hge].
    + eexists. split; [reflexivity|]. rewrite zrange_length. split; [lia|].
      intros j Hj. rewrite zrange_nth by lia. f_equal. rewrite Z.mod_small by lia. lia.
    + unfold crossing. destruct (Z.leb_spec start stop); [lia|].
      rewrite count_lt_le.
      pose proof (count_eq edges k lo hi (start - 1) S H1 H2) as Cc.
      assert (E : searchsorted_right edges (start - 1) = Z.of_nat k + 1) by lia.
      rewrite E. destruct (Z.eqb_spec (Z.of_nat k + 1) 0); [lia|].
      replace (Z.of_nat k + 1) with (Z.of_nat (Datatypes.S k)) by lia.
      rewrite (zget_nth_error _ _ _ H2). cbn [bind].
      replace (Z.of_nat (Datatypes.S k) - 1) with (Z.of_nat k) by lia.
      rewrite (zget_nth_error _ _ _ H1). cbn [bind].
      destruct (Z.leb_spec stop lo); [lia|]. cbn [bind].
      eexists. split; [reflexivity|]. rewrite app_length, !zrange_length. split; [lia|].
      intros j Hj. destruct (Nat.ltb_spec j (Z.to_nat (hi - start))) as [Hj1|Hj1].
      * rewrite nth_error_app1 by (rewrite zrange_length; lia).
        rewrite zrange_nth by lia. f_equal. rewrite Z.mod_small by lia. lia.
      * rewrite nth_error_app2 by (rewrite zrange_length; lia). rewrite zrange_length.
        rewrite zrange_nth by lia. f_equal.
        rewrite <- (Z.mod_unique (start - lo + Z.of_nat j) (hi - lo) 1
                      (start - lo + Z.of_nat j - (hi - lo))) by lia. lia.
  - intros Hst. unfold get_buffer_indices.
    destruct (Z.eqb_spec (searchsorted_right edges start - 1) (searchsorted_right edges (stop - 1) - 1));
      [lia|]. reflexivity.
  - intros ->. unfold get_buffer_indices, crossing.
    destruct (negb _); [reflexivity|].
    destruct (Z.ltb_spec start start); [lia|]. destruct (Z.leb_spec start start); [reflexivity|lia].
Qed.

(** C56.  Indices outside the buffer on the same side are accepted. *)
Lemma C56_out_of_range_accepted_lemma : forall edges start stop,
  (forall e, In e edges -> e <= start) -> start < stop ->
  get_buffer_indices edges start stop = Ok (zrange start stop).
Proof.
  intros edges start stop He Hlt. unfold get_buffer_indices, searchsorted_right.
  assert (F : forall x, start <= x -> filter (fun e => e <=? x) edges = edges).
  { intros x Hx. induction edges as [|e l IH]; [reflexivity|]. cbn [filter].
    pose proof (He e (or_introl eq_refl)). destruct (Z.leb_spec e x); [|lia].
    f_equal. apply IH. intros e' He'. apply He. right. exact He'. }
  rewrite !F by lia. rewrite Z.eqb_refl. cbn [negb].
  destruct (Z.ltb_spec start stop); [reflexivity|lia].
Qed.

(** C56.  Witness: edges 0, 5, 10 and the interval 12..14. *)
Lemma C56_rejects_out_of_range_refuted_lemma : exists edges start stop,
  StronglySorted Z.lt edges /\ (forall e, In e edges -> e < start) /\
  exists l, get_buffer_indices edges start stop = Ok l /\ l <> [].
Proof.
  exists [0; 5; 10], 12, 14. split; [repeat constructor; lia|].
  split; [intros e [<-|[<-|[<-|[]]]]; lia|].
  eexists. split; [vm_compute; reflexivity|discriminate].
Qed.
