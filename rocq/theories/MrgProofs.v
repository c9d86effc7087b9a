(** * Proofs: moving buffers into buffers *)
From Verif Require Import Py PyLemmas BufferModel BufferSpec BufferProofs BufferMainProofs MrgSpec.
Open Scope nat_scope.

Section Merge.
Context {Ob A Inf R : Type}.
Notation slot := (slot Ob A Inf R).
Notation buf := (buf Ob A Inf R).

(** What [update] does to its target, given the rows of the source. *)
Definition moved (b : buf) (q : list slot) : buf * list nat :=
  if length q =? 0 then (b, [])
  else let '(s', l) := advance_n (length q) (b_st b) in
       (mkBuf s' (Some (fold_left (fun m ix => upd m (fst ix) (snd ix)) (combine l (map Some q)) (meta_rows (maxsize s') (b_meta b)))), l).
Lemma update_moved n n2 (b src : buf) q q2 : inv n b q -> inv n2 src q2 -> update b src = Ok (moved b q2).
Proof.
  intros H H2. unfold update, moved.
  pose proof (i_s _ _ _ H) as Hs. pose proof (i_s _ _ _ H2) as Hs2. pose proof (i_len _ _ _ H2) as Hl2.
  rewrite Hl2. destruct (Nat.eqb_spec (size (b_st src)) 0) as [E|E]; cbn [orb]; [reflexivity|].
  destruct (Nat.eqb_spec (maxsize (b_st b)) 0) as [E'|E'].
  { pose proof (i_max _ _ Hs). pose proof (i_pos _ _ Hs). lia. }
  rewrite (all_indices_length n2) by exact Hs2. destruct (Nat.eqb_spec (size (b_st src)) 0); [contradiction|].
  destruct (advance_n (size (b_st src)) (b_st b)) as [s' l] eqn:Ea.
  assert (Hmap : mapM (fun i => match nth_error (meta_rows (maxsize (b_st src)) (b_meta src)) i with
                                | Some x => Ok x | None => Err IndexError end) (all_indices (b_st src)) = Ok (map Some q2)).
  { rewrite (all_indices_pos n2) by exact Hs2. rewrite (i_max _ _ Hs2), <- Hl2. rewrite <- (map_nth_error_seq q2).
    assert (G : forall ps, (forall p, In p ps -> p < length q2) ->
      mapM (fun i => match nth_error (meta_rows n2 (b_meta src)) i with Some x => Ok x | None => Err IndexError end) (map (pos (b_st src)) ps)
      = Ok (map (fun p => nth_error q2 p) ps)).
    { induction ps as [|p ps IH]; intros Hps; [reflexivity|]. cbn [map mapM]. destruct (nth_error q2 p) as [x|] eqn:Ex.
      - rewrite (i_data _ _ _ H2 p x Ex). cbn [bind]. rewrite IH by (intros p' Hp'; apply Hps; right; exact Hp'). reflexivity.
      - apply nth_error_None in Ex. specialize (Hps p (or_introl eq_refl)). lia. }
    apply G. intros p Hp. apply in_seq in Hp. lia. }
  rewrite Hmap. cbn [bind].
  pose proof (update_writes n q2 (b_st b) (meta_rows n (b_meta b)) q (inv_alloc _ _ _ H)) as W. rewrite Hl2, Ea in W. cbn [fst snd] in W.
  assert (Hmax : maxsize s' = n) by (pose proof (i_max _ _ (i_s _ _ _ W)) as Hx; exact Hx).
  rewrite Hmax. unfold guard. replace (forallb (fun i => i <? length (meta_rows n (b_meta b))) l) with true; [reflexivity|].
  symmetry. apply forallb_forall. rewrite (i_rows _ _ _ H). intros i Hi. apply Nat.ltb_lt.
  pose proof (advance_n_in n (size (b_st src)) (b_st b) i Hs) as Hin. rewrite Ea in Hin. auto.
Qed.
Lemma advance_n_app k1 k2 : forall s : bst R, advance_n (k1 + k2) s = let '(s1, l1) := advance_n k1 s in let '(s2, l2) := advance_n k2 s1 in (s2, l1 ++ l2).
Proof.
  induction k1 as [|k1 IH]; intros s; cbn [advance_n plus app]; [destruct (advance_n k2 s); reflexivity|].
  rewrite IH. destruct (advance_n k1 (advance s)) as [s1 l1]. destruct (advance_n k2 s1). reflexivity.
Qed.
Lemma advance_n_max k : forall s : bst R, maxsize (fst (advance_n k s)) = maxsize s.
Proof. induction k as [|k IH]; intros s; [reflexivity|]. cbn [advance_n]. specialize (IH (advance s)). destruct (advance_n k (advance s)). exact IH. Qed.
Lemma combine_app2 {X Y} : forall (a a' : list X) (b b' : list Y), length a = length b -> combine (a ++ a') (b ++ b') = combine a b ++ combine a' b'.
Proof. induction a as [|x a IH]; intros a' [|y b] b' H; try discriminate; [reflexivity|]. cbn. f_equal. apply IH. injection H; auto. Qed.
Lemma moved_app (b : buf) q1 q2 : moved b (q1 ++ q2) = let '(b1, l1) := moved b q1 in let '(b2, l2) := moved b1 q2 in (b2, l1 ++ l2).
Proof.
  unfold moved at 2. destruct (Nat.eqb_spec (length q1) 0) as [E|E].
  - destruct q1; [|discriminate]. cbn [app]. destruct (moved b q2). reflexivity.
  - destruct (advance_n (length q1) (b_st b)) as [s1 l1] eqn:E1.
    unfold moved at 2. cbn [b_st b_meta meta_rows]. destruct (Nat.eqb_spec (length q2) 0) as [E2|E2].
    + destruct q2; [|discriminate]. rewrite !app_nil_r. unfold moved. rewrite (proj2 (Nat.eqb_neq _ _) E), E1. reflexivity.
    + unfold moved. rewrite app_length, (proj2 (Nat.eqb_neq (length q1 + length q2) 0)) by lia. rewrite advance_n_app, E1.
      destruct (advance_n (length q2) s1) as [s2 l2] eqn:E3.
      pose proof (advance_n_max (length q1) (b_st b)) as M1. rewrite E1 in M1. cbn in M1. pose proof (advance_n_max (length q2) s1) as M2. rewrite E3 in M2. cbn in M2.
      pose proof (advance_n_len (length q1) (b_st b)) as L1. rewrite E1 in L1. cbn in L1.
      rewrite map_app, combine_app2 by (rewrite map_length; exact L1). rewrite fold_left_app, M2. reflexivity.
Qed.
Lemma moved_inv n n2 (b src : buf) q q2 : inv n b q -> inv n2 src q2 -> inv n (fst (moved b q2)) (push n q q2).
Proof. intros H H2. destruct (update_ok n n2 b q src q2 H H2) as (b' & l & E & I & _). rewrite (update_moved _ _ _ _ _ _ H H2) in E. injection E as E. rewrite E. exact I. Qed.
Lemma stored_inv n (b : buf) q : inv n b q -> q <> [] -> stored b = Ok (map Some q).
Proof.
  intros H Nq. unfold stored. pose proof (i_s _ _ _ H) as Hs. pose proof (i_len _ _ _ H) as Hl.
  change (sample_indices _ b _ (Some 0%Z)) with (Ok (all_indices (b_st b))). cbn [bind]. unfold rows_at.
  destruct (b_meta b) as [m|] eqn:Em; [|destruct Nq; apply (i_none _ _ _ H Em)].
  rewrite (all_indices_pos n) by exact Hs. rewrite <- Hl, <- (map_nth_error_seq q), map_map.
  assert (G : forall ps, (forall p, In p ps -> p < length q) -> mapM (zget m) (map (fun p => Z.of_nat (pos (b_st b) p)) ps) = Ok (map (fun p => nth_error q p) ps)).
  { induction ps as [|p ps IH]; intros Hps; [reflexivity|]. cbn [map mapM]. destruct (nth_error q p) as [x|] eqn:Ex.
    - pose proof (i_data _ _ _ H p x Ex) as D. rewrite Em in D. cbn [meta_rows] in D. assert (Lt : pos (b_st b) p < length m) by (apply nth_error_Some; congruence).
      assert (Z1 : zget m (Z.of_nat (pos (b_st b) p)) = Ok (Some x)).
      { unfold zget, norm_index. replace ((0 <=? Z.of_nat (pos (b_st b) p))%Z && (Z.of_nat (pos (b_st b) p) <? Z.of_nat (length m))%Z)%bool with true by (symmetry; apply andb_true_intro; split; lia).
        cbn [bind]. rewrite Nat2Z.id, D. reflexivity. }
      rewrite Z1. cbn [bind]. rewrite IH by (intros p' Hp'; apply Hps; right; exact Hp'). reflexivity.
    - apply nth_error_None in Ex. specialize (Hps p (or_introl eq_refl)). lia. }
  apply G. intros p Hp. apply in_seq in Hp. lia.
Qed.
Lemma push_app_len n (q1 q2 : list slot) : length q1 + length q2 <= n -> push n q1 q2 = q1 ++ q2.
Proof. intros H. unfold push, lastn. rewrite app_length. replace (length q1 + length q2 - n) with 0 by lia. reflexivity. Qed.
Lemma lastn_lastn {X} (n m : nat) (l : list X) : n <= m -> lastn n (lastn m l) = lastn n l.
Proof.
  intros H. apply nth_error_ext. intros i. rewrite !nth_error_lastn. destruct (Nat.le_gt_cases (length l) m) as [G|G].
  - unfold lastn. replace (length l - m) with 0 by lia. reflexivity.
  - rewrite lastn_length. f_equal. lia.
Qed.
Lemma lastn_app_lastn {X} (n m : nat) (a l : list X) : n <= m -> lastn n (a ++ lastn m l) = lastn n (a ++ l).
Proof.
  intros H. destruct (Nat.le_gt_cases (length l) m) as [G|G].
  - unfold lastn at 2. replace (length l - m) with 0 by lia. reflexivity.
  - assert (F : forall b : list X, n <= length b -> lastn n (a ++ b) = lastn n b).
    { intros b Hb. unfold lastn. rewrite app_length, skipn_app. rewrite skipn_all2 by lia. cbn. f_equal. lia. }
    rewrite F by (rewrite lastn_length; lia). rewrite F by lia. apply lastn_lastn, H.
Qed.
End Merge.

(** C332.  Moving [x] and then [y] into [b] is moving [y] into [x] and the result into [b], if [x]
    has room for both: the same buffer in every detail (rows, insertion index, episode in
    progress) and the same positions reported. *)
Lemma C332_assoc_lemma : forall (Ob A Inf R : Type) (r0 : R) radd (last_frame : Ob -> Ob) o n n2 n3 (b x y : buf Ob A Inf R) q qx qy,
  0 < n -> 0 < n2 -> 0 < n3 -> reach r0 radd last_frame o n b q -> reach r0 radd last_frame o n2 x qx -> reach r0 radd last_frame o n3 y qy ->
  length qx + length qy <= n2 ->
  exists xy lxy b1 l1 b2 l2, update x y = Ok (xy, lxy) /\ update b x = Ok (b1, l1) /\ update b1 y = Ok (b2, l2)
    /\ update b xy = Ok (b2, l1 ++ l2) /\ length l1 = length qx /\ length l2 = length qy.
Proof.
  intros Ob A Inf R r0 radd lf o n n2 n3 b x y q qx qy Hn Hn2 Hn3 Hb Hx Hy Hl.
  apply reach_inv in Hb; [|exact Hn]. apply reach_inv in Hx; [|exact Hn2]. apply reach_inv in Hy; [|exact Hn3].
  pose proof (moved_inv _ _ _ _ _ _ Hx Hy) as Hxy. rewrite push_app_len in Hxy by exact Hl. pose proof (moved_inv _ _ _ _ _ _ Hb Hx) as Hb1.
  destruct (moved x qy) as [xy lxy] eqn:E1. cbn in Hxy. destruct (moved b qx) as [b1 l1] eqn:E2. cbn in Hb1. destruct (moved b1 qy) as [b2 l2] eqn:E3.
  exists xy, lxy, b1, l1, b2, l2. rewrite (update_moved _ _ _ _ _ _ Hx Hy), (update_moved _ _ _ _ _ _ Hb Hx), (update_moved _ _ _ _ _ _ Hb1 Hy), (update_moved _ _ _ _ _ _ Hb Hxy).
  rewrite moved_app, E1, E2, E3. repeat match goal with |- _ /\ _ => split end; try reflexivity.
  - destruct (update_ok n n2 b q x qx Hb Hx) as (b' & l & E & _ & L & _). rewrite (update_moved _ _ _ _ _ _ Hb Hx), E2 in E. injection E as <- <-. exact L.
  - destruct (update_ok n n3 b1 _ y qy Hb1 Hy) as (b' & l & E & _ & L & _). rewrite (update_moved _ _ _ _ _ _ Hb1 Hy), E3 in E. injection E as <- <-. exact L.
Qed.
(** C332.  If [x] is too small for both but at least as large as [b], the same transitions are
    stored in the same order (their positions may differ). *)
Lemma C332_stored_lemma : forall (Ob A Inf R : Type) (r0 : R) radd (last_frame : Ob -> Ob) o n n2 n3 (b x y : buf Ob A Inf R) q qx qy xy lxy b1 l1 b2 l2 b' l',
  0 < n -> 0 < n3 -> n <= n2 -> reach r0 radd last_frame o n b q -> reach r0 radd last_frame o n2 x qx -> reach r0 radd last_frame o n3 y qy ->
  update x y = Ok (xy, lxy) -> update b x = Ok (b1, l1) -> update b1 y = Ok (b2, l2) -> update b xy = Ok (b', l') ->
  stored b' = stored b2.
Proof.
  intros Ob A Inf R r0 radd lf o n n2 n3 b x y q qx qy xy lxy b1 l1 b2 l2 b' l' Hn Hn3 Hle Hb Hx Hy U1 U2 U3 U4.
  assert (Hn2 : 0 < n2) by lia. apply reach_inv in Hb; [|exact Hn]. apply reach_inv in Hx; [|exact Hn2]. apply reach_inv in Hy; [|exact Hn3].
  pose proof (moved_inv _ _ _ _ _ _ Hx Hy) as Hxy. rewrite (update_moved _ _ _ _ _ _ Hx Hy) in U1. injection U1 as U1. rewrite U1 in Hxy. cbn [fst] in Hxy.
  pose proof (moved_inv _ _ _ _ _ _ Hb Hx) as Hb1. rewrite (update_moved _ _ _ _ _ _ Hb Hx) in U2. injection U2 as U2. rewrite U2 in Hb1. cbn [fst] in Hb1.
  pose proof (moved_inv _ _ _ _ _ _ Hb1 Hy) as Hb2. rewrite (update_moved _ _ _ _ _ _ Hb1 Hy) in U3. injection U3 as U3. rewrite U3 in Hb2. cbn [fst] in Hb2.
  pose proof (moved_inv _ _ _ _ _ _ Hb Hxy) as Hb'. rewrite (update_moved _ _ _ _ _ _ Hb Hxy) in U4. injection U4 as U4. rewrite U4 in Hb'. cbn [fst] in Hb'.
  rewrite push_push in Hb2.
  assert (Eq : push n q (push n2 qx qy) = push n q (qx ++ qy)) by (unfold push; apply lastn_app_lastn, Hle).
  rewrite Eq in Hb'. destruct (push n q (qx ++ qy)) as [|s l] eqn:Ep.
  - assert (Z : length (push n q (qx ++ qy)) = 0) by (rewrite Ep; reflexivity). rewrite push_length, app_length in Z. assert (length qx = 0 /\ length qy = 0) as [Zx Zy] by lia.
    destruct qx; [|discriminate]. destruct qy; [|discriminate]. cbn in U1, U2, U3, U4. injection U2 as <- <-. injection U3 as <- <-. injection U4 as <- <-. reflexivity.
  - rewrite (stored_inv _ _ _ Hb'), (stored_inv _ _ _ Hb2) by discriminate. reflexivity.
Qed.
(** C332.  Moving a buffer into a new one that is large enough copies it: the new buffer stores
    the same transitions in the same order, at positions 0, 1, ... *)
Lemma C332_copy_lemma : forall (Ob A Inf R : Type) (r0 : R) radd (last_frame : Ob -> Ob) o n n2 (x : buf Ob A Inf R) qx,
  0 < n -> 0 < n2 -> reach r0 radd last_frame o n2 x qx -> qx <> [] -> length qx <= n ->
  exists b', update (buf_init r0 n) x = Ok (b', seq 0 (length qx)) /\ stored b' = stored x /\ size (b_st b') = size (b_st x).
Proof.
  intros Ob A Inf R r0 radd lf o n n2 x qx Hn Hn2 Hx Nq Hl.
  assert (Hb : inv n (buf_init r0 n : buf Ob A Inf R) []) by (apply (reach_inv r0 radd lf o); [constructor|exact Hn]). apply reach_inv in Hx; [|exact Hn2].
  pose proof (moved_inv _ _ _ _ _ _ Hb Hx) as Hb'. destruct (update_ok n n2 _ _ x qx Hb Hx) as (b' & l & E & I & L & El).
  exists b'. rewrite push_app_len in I by exact Hl. cbn [app] in I. split; [|split].
  - rewrite E. f_equal. f_equal. rewrite El. clear - Hl Hn. cbn [buf_init b_st].
    assert (G : forall k i (s : bst R), ins s = i -> maxsize s = n -> i + k <= n -> snd (advance_n k s) = seq i k).
    { induction k as [|k IH]; intros i s Hi Hm Hk; [reflexivity|]. cbn [advance_n]. destruct k as [|k].
      - cbn. rewrite Hi. reflexivity.
      - specialize (IH (S i) (advance s)). destruct (advance_n (S k) (advance s)) as [s' l'] eqn:Ea. cbn [snd] in IH |- *. rewrite Hi. cbn [seq]. f_equal. apply IH; [|exact Hm|lia].
        unfold advance. cbn [ins]. rewrite Hi, Hm, Nat.mod_small by lia. lia. }
    apply G; [reflexivity|reflexivity|lia].
  - rewrite (stored_inv _ _ _ I), (stored_inv _ _ _ Hx) by exact Nq. reflexivity.
  - rewrite <- (i_len _ _ _ I), <- (i_len _ _ _ Hx). reflexivity.
Qed.
