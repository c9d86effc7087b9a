From Verif Require Import Py PyLemmas Num SegTreeModel SegTreeSpec.
Open Scope nat_scope.

Lemma pow2_ge n : n <= 2 ^ n.
Proof. induction n as [|n IH]; simpl; [lia|]. assert (1 <= 2 ^ n) by (apply Nat.neq_0_lt_0, Nat.pow_nonzero; lia). lia. Qed.

Lemma pow2_pos k : 1 <= 2 ^ k.
Proof. apply Nat.neq_0_lt_0, Nat.pow_nonzero; lia. Qed.

Lemma pow2_S k : 2 ^ S k = 2 * 2 ^ k.
Proof. simpl. lia. Qed.

Lemma bound_loop_spec f size k :
  size <= 2 ^ (k + f) -> exists K, bound_loop f size (2 ^ k) = 2 ^ K /\ size <= 2 ^ K.
Proof.
  revert k; induction f as [|f IH]; intros k H; simpl.
  - exists k. rewrite Nat.add_0_r in H. auto.
  - destruct (Nat.ltb_spec (2 ^ k) size) as [Hlt|Hge].
    + replace (2 ^ k * 2) with (2 ^ S k) by (rewrite pow2_S; lia).
      apply IH. replace (S k + f) with (k + S f) by lia. exact H.
    + exists k. auto.
Qed.

(** Node equation for the inner nodes. *)
Definition node_ok (tree : list Qc) (i : nat) : Prop :=
  tget tree i = (tget tree (i * 2) + tget tree (i * 2 + 1))%Qc.

Record wf (s : segtree) (arr : list Qc) : Prop := {
  wf_bound : exists K, st_bound s = 2 ^ K;
  wf_size : st_size s <= st_bound s;
  wf_len : length (st_value s) = st_bound s * 2;
  wf_arr : length arr = st_size s;
  wf_node : forall i, 1 <= i < st_bound s -> node_ok (st_value s) i;
  wf_leaf : forall i, i < st_bound s -> tget (st_value s) (st_bound s + i) = nth i arr 0%Qc
}.

Lemma nth_repeat0 n i : nth i (repeat 0%Qc n) 0%Qc = 0%Qc.
Proof. revert i; induction n as [|n IH]; intros [|i]; simpl; auto. Qed.

Lemma wf_init size : wf (st_init size) (repeat 0%Qc size).
Proof.
  destruct (bound_loop_spec size size 0 (pow2_ge size)) as [K [HK Hs]].
  simpl in HK. unfold st_init.
  split; cbn [st_size st_bound st_value]; rewrite ?HK; auto.
  - exists K; reflexivity.
  - rewrite repeat_length. reflexivity.
  - rewrite repeat_length. reflexivity.
  - intros i _. unfold node_ok, tget. rewrite !nth_repeat0. ring.
  - intros i _. unfold tget. rewrite !nth_repeat0. reflexivity.
Qed.

Lemma assign_length tree idx vals : length (assign tree idx vals) = length tree.
Proof.
  unfold assign. generalize (combine idx vals) as l. intros l; revert tree.
  induction l as [|[i v] l IH]; intros tree; simpl; [reflexivity|].
  rewrite IH, upd_length. reflexivity.
Qed.

Lemma assign_cons tree i v idx vals :
  assign tree (i :: idx) (v :: vals) = assign (upd tree i v) idx vals.
Proof. reflexivity. Qed.

Lemma assign_notin tree idx vals j :
  ~ In j idx -> tget (assign tree idx vals) j = tget tree j.
Proof.
  revert tree vals; induction idx as [|i idx IH]; intros tree vals H; [reflexivity|].
  destruct vals as [|v vals]; [reflexivity|].
  rewrite assign_cons, IH by (intro; apply H; right; assumption).
  unfold tget. apply nth_upd_other. intro; apply H; left; assumption.
Qed.

Lemma assign_map tree idx f j :
  In j idx -> j < length tree -> tget (assign tree idx (map f idx)) j = f j.
Proof.
  revert tree; induction idx as [|i idx IH]; intros tree Hin Hlt; [destruct Hin|].
  cbn [map]. rewrite assign_cons.
  destruct (in_dec Nat.eq_dec j idx) as [Hj|Hj].
  - apply IH; [exact Hj | rewrite upd_length; exact Hlt].
  - destruct Hin as [->|Hin]; [|contradiction].
    rewrite assign_notin by exact Hj. unfold tget. apply nth_upd_same. exact Hlt.
Qed.

(** The climbing loop repairs all inner nodes and only touches smaller levels. *)
Lemma setitem_loop_ok K bound : bound = 2 ^ K -> forall k fuel tree index,
  k <= K -> k <= fuel -> index <> [] ->
  (forall i, In i index -> 2 ^ k <= i < 2 ^ S k) ->
  length tree = bound * 2 ->
  (forall i, 1 <= i < bound -> ~ In i (map (fun i => i / 2) index) -> node_ok tree i) ->
  exists t', setitem_loop fuel tree index = Ok t' /\ length t' = length tree
    /\ (forall i, 1 <= i < bound -> node_ok t' i)
    /\ (forall j, 2 ^ k <= j -> tget t' j = tget tree j).
Proof.
  intros Hb k. induction k as [|k IH]; intros fuel tree index HkK Hf Hne Hlev Hlen Hdirty.
  - destruct index as [|i0 rest]; [contradiction|].
    assert (i0 = 1) as -> by (specialize (Hlev i0 (or_introl eq_refl)); simpl in Hlev; lia).
    exists tree. destruct fuel; cbn [setitem_loop]; simpl (1 <? 1).
    + repeat split; auto. intros i Hi. apply Hdirty; [exact Hi|].
      intros Hin. apply in_map_iff in Hin as [x [Hx Hin]]. apply Hlev in Hin. simpl in Hin. lia.
    + repeat split; auto. intros i Hi. apply Hdirty; [exact Hi|].
      intros Hin. apply in_map_iff in Hin as [x [Hx Hin]]. apply Hlev in Hin. simpl in Hin. lia.
  - destruct fuel as [|fuel]; [lia|].
    destruct index as [|i0 rest] eqn:Ei; [contradiction|]. rewrite <- Ei in *.
    assert (Hi0 : 1 <? i0 = true).
    { apply Nat.ltb_lt. assert (H : In i0 index) by (rewrite Ei; left; reflexivity).
      apply Hlev in H. pose proof (pow2_pos k). rewrite !pow2_S in H. lia. }
    assert (Hstep : setitem_loop (S fuel) tree index =
      setitem_loop fuel
        (assign tree (map (fun i => i / 2) index)
           (map (fun i => (tget tree (i * 2) + tget tree (i * 2 + 1))%Qc)
              (map (fun i => i / 2) index))) (map (fun i => i / 2) index)).
    { rewrite Ei. cbn [setitem_loop]. rewrite Hi0. reflexivity. }
    rewrite Hstep. set (index' := map (fun i => i / 2) index) in *.
    set (f := fun i => (tget tree (i * 2) + tget tree (i * 2 + 1))%Qc).
    assert (Hlev' : forall i, In i index' -> 2 ^ k <= i < 2 ^ S k).
    { intros i Hin. apply in_map_iff in Hin as [x [<- Hin]]. apply Hlev in Hin.
      rewrite !pow2_S in *. lia. }
    assert (Hub : 2 ^ S k <= bound).
    { subst bound. apply Nat.pow_le_mono_r; lia. }
    assert (Hnode : forall i, In i index' -> tget (assign tree index' (map f index')) i = f i).
    { intros i Hin. apply assign_map; [exact Hin|]. apply Hlev' in Hin. lia. }
    assert (Hkeep : forall j, ~ In j index' -> tget (assign tree index' (map f index')) j = tget tree j).
    { intros j Hj. apply assign_notin. exact Hj. }
    assert (Hbig : forall j, 2 ^ S k <= j -> ~ In j index').
    { intros j Hj Hin. apply Hlev' in Hin. lia. }
    destruct (IH fuel (assign tree index' (map f index')) index') as (t' & Ht' & Hl' & Hn' & Hk').
    + lia.
    + lia.
    + unfold index'. rewrite Ei. discriminate.
    + exact Hlev'.
    + rewrite assign_length. exact Hlen.
    + intros i Hi Hnin. unfold node_ok.
      destruct (in_dec Nat.eq_dec i index') as [Hin|Hin].
      * rewrite (Hnode i Hin). pose proof (Hlev' i Hin) as Hl.
        rewrite (Hkeep (i * 2)) by (apply Hbig; rewrite pow2_S; lia).
        rewrite (Hkeep (i * 2 + 1)) by (apply Hbig; rewrite pow2_S; lia).
        reflexivity.
      * rewrite (Hkeep i Hin).
        rewrite (Hkeep (i * 2)).
        2:{ intros H2. apply Hnin. apply in_map_iff. exists (i * 2). split; [|exact H2].
            rewrite Nat.div_mul; lia. }
        rewrite (Hkeep (i * 2 + 1)).
        2:{ intros H2. apply Hnin. apply in_map_iff. exists (i * 2 + 1). split; [|exact H2]. lia. }
        apply Hdirty; assumption.
    + exists t'. repeat split.
      * exact Ht'.
      * rewrite Hl'. apply assign_length.
      * exact Hn'.
      * intros j Hj. rewrite Hk' by (rewrite pow2_S in Hj; lia). apply Hkeep, Hbig, Hj.
Qed.

Lemma write_all_length arr index value : length (write_all arr index value) = length arr.
Proof.
  revert arr value; induction index as [|i is IH]; intros arr [|v vs]; simpl; auto.
  rewrite IH, upd_length. reflexivity.
Qed.

(** Leaves of the tree after the fancy assignment = the abstract array after [write_all]. *)
Lemma assign_leaves bound size tree arr index value :
  size <= bound -> length arr = size -> length tree = bound * 2 ->
  (forall i, In i index -> (0 <= i < Z.of_nat size)%Z) ->
  (forall i, i < bound -> tget tree (bound + i) = nth i arr 0%Qc) ->
  forall i, i < bound ->
    tget (assign tree (map (fun i => Z.to_nat (i + Z.of_nat bound)) index) value) (bound + i)
    = nth i (write_all arr index value) 0%Qc.
Proof.
  intros Hsb. revert tree arr value.
  induction index as [|z index IH]; intros tree arr value Harr Htree Hin Hleaf i Hi.
  - simpl. apply Hleaf, Hi.
  - destruct value as [|v value]; [simpl; apply Hleaf, Hi|].
    cbn [map write_all]. rewrite assign_cons.
    apply IH; auto.
    + rewrite upd_length. exact Harr.
    + rewrite upd_length. exact Htree.
    + intros j Hj. apply Hin. right. exact Hj.
    + intros j Hj. specialize (Hin z (or_introl eq_refl)).
      unfold tget. rewrite !nth_upd.
      destruct (Nat.eqb_spec (Z.to_nat (z + Z.of_nat bound)) (bound + j)) as [E|E].
      * destruct (Nat.eqb_spec (Z.to_nat z) j) as [E'|E']; [|lia].
        destruct (Nat.ltb_spec (bound + j) (length tree)); [|lia].
        destruct (Nat.ltb_spec j (length arr)); [|lia]. reflexivity.
      * destruct (Nat.eqb_spec (Z.to_nat z) j) as [E'|E']; [lia|].
        cbn [andb]. apply Hleaf, Hj.
Qed.

Lemma st_setitem_legal s arr index value :
  wf s arr -> legal (st_size s) index value = true ->
  exists s', st_setitem s index value = Ok s' /\ st_size s' = st_size s
    /\ wf s' (write_all arr index value).
Proof.
  intros W L. unfold legal in L. apply andb_true_iff in L as [L Hin].
  apply andb_true_iff in L as [Hlen Hne]. apply Nat.eqb_eq in Hlen.
  rewrite forallb_forall in Hin.
  assert (Hin' : forall i, In i index -> (0 <= i < Z.of_nat (st_size s))%Z).
  { intros i Hi. specialize (Hin i Hi). lia. }
  destruct (wf_bound _ _ W) as [K HK].
  unfold st_setitem, guard.
  replace (forallb (fun i => (0 <=? i)%Z) index) with true
    by (symmetry; apply forallb_forall; intros i Hi; specialize (Hin' i Hi); lia).
  replace (forallb (fun i => (i <? Z.of_nat (st_size s))%Z) index) with true
    by (symmetry; apply forallb_forall; intros i Hi; specialize (Hin' i Hi); lia).
  unfold setitem_. rewrite map_length, Hlen, Nat.eqb_refl.
  set (idx := map (fun i => Z.to_nat (i + Z.of_nat (st_bound s))) index).
  pose proof (wf_size _ _ W) as Hsz. pose proof (wf_len _ _ W) as Hvl.
  assert (Hlev : forall i, In i idx -> 2 ^ K <= i < 2 ^ S K).
  { intros i Hi. apply in_map_iff in Hi as [z [<- Hz]]. apply Hin' in Hz.
    rewrite pow2_S, <- HK. lia. }
  destruct (setitem_loop_ok K (st_bound s) HK K (length (st_value s))
              (assign (st_value s) idx value) idx) as (t' & Ht' & Hl' & Hn' & Hk').
  - lia.
  - rewrite Hvl, HK. pose proof (pow2_ge K). lia.
  - unfold idx. destruct index; [discriminate Hne|discriminate].
  - exact Hlev.
  - rewrite assign_length. exact Hvl.
  - intros i Hi Hnin. unfold node_ok.
    rewrite (assign_notin _ _ _ i).
    2:{ intros H. apply Hlev in H. rewrite <- HK in H. lia. }
    rewrite (assign_notin _ _ _ (i * 2)).
    2:{ intros H. apply Hnin. apply in_map_iff. exists (i * 2). split; [lia|exact H]. }
    rewrite (assign_notin _ _ _ (i * 2 + 1)).
    2:{ intros H. apply Hnin. apply in_map_iff. exists (i * 2 + 1). split; [lia|exact H]. }
    apply (wf_node _ _ W). exact Hi.
  - rewrite Ht'. cbn [bind].
    eexists. split; [reflexivity|]. split; [reflexivity|].
    pose proof (wf_arr _ _ W) as Harr.
    split; cbn [st_size st_bound st_value].
    + exists K. exact HK.
    + exact Hsz.
    + rewrite Hl', assign_length. exact Hvl.
    + rewrite write_all_length. exact Harr.
    + exact Hn'.
    + intros i Hi. rewrite Hk' by lia.
      apply (assign_leaves _ (st_size s)); auto. apply (wf_leaf _ _ W).
Qed.

Lemma st_setitem_illegal s index value :
  legal (st_size s) index value = false -> exists e, st_setitem s index value = Err e.
Proof.
  unfold legal, st_setitem, guard. intros L.
  destruct (forallb (fun i => (0 <=? i)%Z) index) eqn:E1; [|eexists; reflexivity].
  destruct (forallb (fun i => (i <? Z.of_nat (st_size s))%Z) index) eqn:E2; [|eexists; reflexivity].
  unfold setitem_. rewrite map_length.
  destruct (length index =? length value) eqn:E3; [|eexists; reflexivity].
  destruct index as [|i index]; [simpl; destruct (length (st_value s)); eexists; reflexivity|].
  exfalso. rewrite forallb_forall in E1, E2.
  assert (H : forallb (fun i => (0 <=? i)%Z && (i <? Z.of_nat (st_size s))%Z) (i :: index) = true).
  { apply forallb_forall. intros x Hx. rewrite E1, E2 by exact Hx. reflexivity. }
  rewrite H in L. discriminate L.
Qed.

(** Which exception: an out-of-range index is an [AssertionError]. *)
Lemma st_setitem_out_of_range s index value i :
  In i index -> ~ (0 <= i < Z.of_nat (st_size s))%Z -> st_setitem s index value = Err AssertionError.
Proof.
  intros Hin Hr. unfold st_setitem, guard.
  destruct (forallb (fun i => (0 <=? i)%Z) index) eqn:E1; [|reflexivity].
  destruct (forallb (fun i => (i <? Z.of_nat (st_size s))%Z) index) eqn:E2; [|reflexivity].
  rewrite forallb_forall in E1, E2. specialize (E1 i Hin). specialize (E2 i Hin). lia.
Qed.

Lemma st_step_wf s arr o :
  wf s arr -> st_size (st_step s o) = st_size s /\ wf (st_step s o) (spec_step arr o).
Proof.
  intros W. unfold st_step, spec_step. rewrite (wf_arr _ _ W).
  destruct (legal (st_size s) (fst o) (snd o)) eqn:L.
  - destruct (st_setitem_legal s arr _ _ W L) as (s' & -> & Hs & W'). auto.
  - destruct (st_setitem_illegal s _ _ L) as [e ->]. auto.
Qed.

Lemma st_run_wf size ops :
  st_size (st_run size ops) = size /\ wf (st_run size ops) (spec_run size ops).
Proof.
  unfold st_run, spec_run.
  assert (G : forall s arr, wf s arr ->
    st_size (fold_left st_step ops s) = st_size s
    /\ wf (fold_left st_step ops s) (fold_left spec_step ops arr)).
  { induction ops as [|o ops IH]; intros s arr W; simpl; [auto|].
    destruct (st_step_wf s arr o W) as [H1 H2].
    destruct (IH _ _ H2) as [H3 H4]. split; [congruence|exact H4]. }
  destruct (G (st_init size) _ (wf_init size)) as [H1 H2]. auto.
Qed.

Lemma st_run_len size ops : length (spec_run size ops) = size.
Proof. destruct (st_run_wf size ops) as [H W]. rewrite (wf_arr _ _ W). exact H. Qed.

(** ** reduce *)

(** Sum of the nodes strictly between [s] and [e]. *)
Definition between (tree : list Qc) (s e : Z) : Qc :=
  qsum (map (tget tree) (seq (Z.to_nat (s + 1)) (Z.to_nat (e - s - 1)))).

Lemma between_nil tree s e : (e - s <= 1)%Z -> between tree s e = 0%Qc.
Proof. intros H. unfold between. replace (Z.to_nat (e - s - 1)) with 0 by lia. reflexivity. Qed.

Lemma between_left tree s e :
  (0 <= s + 1)%Z -> (1 < e - s)%Z ->
  between tree s e = (tget tree (Z.to_nat (s + 1)) + between tree (s + 1) e)%Qc.
Proof.
  intros H0 H. unfold between.
  replace (Z.to_nat (e - s - 1)) with (S (Z.to_nat (e - (s + 1) - 1))) by lia.
  cbn [seq map qsum]. replace (S (Z.to_nat (s + 1))) with (Z.to_nat (s + 1 + 1)) by lia.
  reflexivity.
Qed.

Lemma between_right tree s e :
  (0 <= s + 1)%Z -> (1 < e - s)%Z ->
  between tree s e = (between tree s (e - 1) + tget tree (Z.to_nat (e - 1)))%Qc.
Proof.
  intros H0 H. unfold between.
  replace (Z.to_nat (e - s - 1)) with (Z.to_nat (e - 1 - s - 1) + 1) by lia.
  rewrite seq_app, map_app, qsum_app. cbn [seq map qsum].
  replace (Z.to_nat (s + 1) + Z.to_nat (e - 1 - s - 1)) with (Z.to_nat (e - 1)) by lia.
  ring.
Qed.

(** The children of the nodes in [(a, b)] are the nodes in [(2a+1, 2b)]. *)
Lemma between_children tree bound a b :
  (forall i, 1 <= i < bound -> node_ok tree i) ->
  (0 <= a)%Z -> (b <= Z.of_nat bound)%Z ->
  between tree (2 * a + 1) (2 * b) = between tree a b.
Proof.
  intros Hn Ha Hb.
  remember (Z.to_nat (b - a - 1)) as n eqn:En.
  revert a Ha En. induction n as [|n IH]; intros a Ha En.
  - rewrite !between_nil by lia. reflexivity.
  - rewrite (between_left tree a b) by lia.
    rewrite (between_left tree (2 * a + 1)) by lia.
    rewrite (between_left tree (2 * a + 1 + 1)) by lia.
    replace (2 * a + 1 + 1 + 1)%Z with (2 * (a + 1) + 1)%Z by lia.
    rewrite IH by lia.
    pose proof (Hn (Z.to_nat (a + 1)) ltac:(lia)) as Hnode. unfold node_ok in Hnode.
    rewrite Hnode.
    replace (Z.to_nat (2 * a + 1 + 1)) with (Z.to_nat (a + 1) * 2) by lia.
    replace (Z.to_nat (2 * (a + 1) + 1)) with (Z.to_nat (a + 1) * 2 + 1) by lia.
    ring.
Qed.

Lemma reduce_loop_ok tree bound :
  (forall i, 1 <= i < bound -> node_ok tree i) ->
  forall fuel s e r, (0 <= s)%Z -> (e <= Z.of_nat (bound * 2))%Z ->
  (e <= Z.of_nat fuel)%Z ->
  reduce_loop fuel tree s e r = Ok (r + between tree s e)%Qc.
Proof.
  intros Hn. induction fuel as [|fuel IH]; intros s e r Hs He Hf.
  - cbn [reduce_loop]. destruct (Z.ltb_spec 1 (e - s)); [lia|].
    rewrite between_nil by lia. f_equal. ring.
  - cbn [reduce_loop]. destruct (Z.ltb_spec 1 (e - s)) as [Hlt|Hge].
    2:{ rewrite between_nil by lia. f_equal. ring. }
    rewrite IH by lia. f_equal.
    rewrite <- (between_children tree bound (s / 2) (e / 2)) by (auto; lia).
    destruct (Z.eqb_spec (s mod 2) 0) as [Es|Es].
    + rewrite (between_left tree s e) by lia.
      replace (2 * (s / 2) + 1)%Z with (s + 1)%Z by lia.
      destruct (Z.eqb_spec (e mod 2) 1) as [Ee|Ee].
      * replace (2 * (e / 2))%Z with (e - 1)%Z by lia.
        rewrite (between_right tree (s + 1) e) by lia. ring.
      * replace (2 * (e / 2))%Z with e by lia. ring.
    + replace (2 * (s / 2) + 1)%Z with s by lia.
      destruct (Z.eqb_spec (e mod 2) 1) as [Ee|Ee].
      * replace (2 * (e / 2))%Z with (e - 1)%Z by lia.
        rewrite (between_right tree s e) by lia. ring.
      * replace (2 * (e / 2))%Z with e by lia. ring.
Qed.

Lemma between_leaves s arr a b :
  wf s arr -> a <= st_size s -> b <= st_size s ->
  between (st_value s) (Z.of_nat a + Z.of_nat (st_bound s) - 1) (Z.of_nat b + Z.of_nat (st_bound s))
  = slice_sum arr a b.
Proof.
  intros W Ha Hb. unfold between, slice_sum. f_equal.
  pose proof (wf_size _ _ W). pose proof (wf_arr _ _ W) as Harr.
  replace (Z.to_nat (Z.of_nat a + Z.of_nat (st_bound s) - 1 + 1)) with (st_bound s + a) by lia.
  replace (Z.to_nat (Z.of_nat b + Z.of_nat (st_bound s) -
      (Z.of_nat a + Z.of_nat (st_bound s) - 1) - 1)) with (b - a) by lia.
  apply nth_error_ext. intros i.
  rewrite nth_error_map_seq, nth_error_firstn, nth_error_skipn.
  destruct (Nat.ltb_spec i (b - a)) as [Hi|Hi]; [|reflexivity].
  rewrite (nth_error_nth' arr 0%Qc) by lia.
  replace (st_bound s + a + i) with (st_bound s + (a + i)) by lia.
  rewrite (wf_leaf _ _ W) by lia. reflexivity.
Qed.

(** The root is the sum of all leaves. *)
Lemma root_sum s arr : wf s arr -> tget (st_value s) 1 = slice_sum arr 0 (st_size s).
Proof.
  intros W. pose proof (wf_size _ _ W) as Hsz. pose proof (wf_arr _ _ W) as Harr.
  destruct (wf_bound _ _ W) as [K HK].
  assert (Hpos : 1 <= st_bound s) by (rewrite HK; apply pow2_pos).
  (* descend from the root to the leaf level *)
  assert (D : forall k, k <= K ->
    tget (st_value s) 1 = between (st_value s) (2 ^ Z.of_nat k - 1) (2 * 2 ^ Z.of_nat k)).
  { induction k as [|k IH]; intros Hk.
    - change (2 ^ Z.of_nat 0 - 1)%Z with 0%Z. change (2 * 2 ^ Z.of_nat 0)%Z with 2%Z.
      rewrite between_left by lia. rewrite between_nil by lia.
      change (Z.to_nat (0 + 1)) with 1. ring.
    - rewrite IH by lia.
      assert (E : (2 ^ Z.of_nat (S k) = 2 * 2 ^ Z.of_nat k)%Z).
      { rewrite Nat2Z.inj_succ, Z.pow_succ_r by lia. reflexivity. }
      rewrite E.
      rewrite <- (between_children (st_value s) (st_bound s)).
      + f_equal. lia.
      + apply (wf_node _ _ W).
      + pose proof (Z.pow_pos_nonneg 2 (Z.of_nat k)). lia.
      + rewrite HK. rewrite <- E.
        assert (2 ^ S k <= 2 ^ K) by (apply Nat.pow_le_mono_r; lia).
        assert (Z.of_nat (2 ^ S k) = 2 ^ Z.of_nat (S k))%Z by (rewrite Nat2Z.inj_pow; reflexivity).
        lia. }
  rewrite (D K (Nat.le_refl K)).
  assert (EK : (2 ^ Z.of_nat K = Z.of_nat (st_bound s))%Z) by (rewrite HK, Nat2Z.inj_pow; reflexivity).
  rewrite EK.
  (* all leaves = real leaves ++ padding *)
  unfold between, slice_sum.
  replace (Z.to_nat (Z.of_nat (st_bound s) - 1 + 1)) with (st_bound s) by lia.
  replace (Z.to_nat (2 * Z.of_nat (st_bound s) - (Z.of_nat (st_bound s) - 1) - 1)) with (st_bound s) by lia.
  assert (G : map (tget (st_value s)) (seq (st_bound s) (st_bound s))
              = arr ++ repeat 0%Qc (st_bound s - st_size s)).
  { apply nth_error_ext. intros i. rewrite nth_error_map_seq.
    destruct (Nat.ltb_spec i (st_bound s)) as [Hi|Hi].
    - rewrite (wf_leaf _ _ W) by lia.
      rewrite (nth_error_nth' _ 0%Qc) by (rewrite app_length, repeat_length; lia).
      f_equal. destruct (Nat.ltb_spec i (length arr)).
      + rewrite app_nth1 by lia. reflexivity.
      + rewrite app_nth2 by lia. rewrite nth_repeat0. apply nth_overflow. lia.
    - symmetry. apply nth_error_None. rewrite app_length, repeat_length. lia. }
  rewrite G, qsum_app.
  replace (qsum (repeat 0%Qc (st_bound s - st_size s))) with 0%Qc.
  2:{ generalize (st_bound s - st_size s) as n. induction n as [|n IHn]; simpl; [reflexivity|].
      rewrite <- IHn. ring. }
  rewrite Nat.sub_0_r. cbn [skipn]. rewrite <- Harr, firstn_all. ring.
Qed.

Lemma st_reduce_ok s arr (a : nat) (e : option Z) (b : nat) :
  wf s arr -> a <= st_size s -> b <= st_size s ->
  match e with
  | None => b = st_size s
  | Some z => (z = Z.of_nat b \/ (z < 0 /\ z + Z.of_nat (st_size s) = Z.of_nat b))%Z
  end ->
  st_reduce s (Z.of_nat a) e = Ok (slice_sum arr a b).
Proof.
  intros W Ha Hb He. unfold st_reduce.
  pose proof (wf_size _ _ W) as Hsz. pose proof (wf_len _ _ W) as Hvl.
  destruct (wf_bound _ _ W) as [K HK].
  assert (Hpos : 1 <= st_bound s) by (rewrite HK; apply pow2_pos).
  assert (L : forall z, z = Z.of_nat b ->
     reduce_loop (length (st_value s)) (st_value s)
        (Z.of_nat a + Z.of_nat (st_bound s) - 1) (z + Z.of_nat (st_bound s)) 0%Qc
     = Ok (slice_sum arr a b)).
  { intros z ->. rewrite (reduce_loop_ok _ (st_bound s)).
    - rewrite (between_leaves s arr) by auto. f_equal. ring.
    - apply (wf_node _ _ W).
    - lia.
    - lia.
    - lia. }
  destruct e as [z|].
  - apply L. destruct (Z.ltb_spec z 0); lia.
  - subst b. destruct (Z.eqb_spec (Z.of_nat a) 0) as [E|E].
    + assert (a = 0) as -> by lia.
      rewrite <- (root_sum s arr W).
      change 1%Z with (Z.of_nat 1). apply zget_nat. lia.
    + apply L. reflexivity.
Qed.

(** ** get_prefix_sum_idx *)

(** Leaves below a node at height [h] and offset [o] (leaf units). *)
Lemma subtree_sum tree bound arr :
  (forall i, 1 <= i < bound -> node_ok tree i) ->
  (forall i, i < bound -> tget tree (bound + i) = nth i arr 0%Qc) ->
  forall h i, 1 <= i -> i * 2 ^ h + 2 ^ h <= bound * 2 -> bound <= i * 2 ^ h ->
  tget tree i = qsum (map (fun j => nth j arr 0%Qc) (seq (i * 2 ^ h - bound) (2 ^ h))).
Proof.
  intros Hn Hl. induction h as [|h IH]; intros i Hi Hub Hlb.
  - simpl in *. rewrite Nat.mul_1_r in *.
    replace i with (bound + (i - bound)) at 1 by lia. rewrite Hl by lia.
    symmetry. apply Qcplus_0_r.
  - rewrite pow2_S in *. pose proof (pow2_pos h).
    assert (Hib : i < bound) by nia.
    rewrite (Hn i) by lia.
    rewrite (IH (i * 2)) by nia. rewrite (IH (i * 2 + 1)) by nia.
    replace (2 * 2 ^ h) with (2 ^ h + 2 ^ h) by lia.
    rewrite seq_app, map_app, qsum_app.
    f_equal; [| f_equal; f_equal; f_equal; nia].
    f_equal. f_equal. f_equal. nia.
Qed.

Definition prefix_step (sums : list Qc) (p : nat * Qc) : nat * Qc :=
  let index := fst p * 2 in
  if Qcltb (tget sums index) (snd p)
  then (index + 1, (snd p - tget sums index)%Qc) else (index, snd p).

Fixpoint iter_step (k : nat) (sums : list Qc) (p : nat * Qc) : nat * Qc :=
  match k with O => p | S k => iter_step k sums (prefix_step sums p) end.

Lemma prefix_loop_iter K bound sums : bound = 2 ^ K ->
  forall k fuel iv, k <= K -> k <= fuel -> iv <> [] ->
  (forall p, In p iv -> 2 ^ (K - k) <= fst p < 2 ^ S (K - k)) ->
  prefix_loop fuel bound sums iv = Ok (map (iter_step k sums) iv).
Proof.
  intros Hb. induction k as [|k IH]; intros fuel iv HkK Hf Hne Hlev.
  - destruct iv as [|[i0 v0] rest] eqn:Ei; [contradiction|]. rewrite <- Ei in *.
    assert (Hge : i0 <? bound = false).
    { apply Nat.ltb_ge. assert (H : In (i0, v0) iv) by (rewrite Ei; left; reflexivity).
      apply Hlev in H. rewrite Nat.sub_0_r in H. cbn [fst] in H. rewrite Hb. apply H. }
    assert (E : map (iter_step 0 sums) iv = iv) by (apply map_id).
    rewrite E. rewrite Ei. destruct fuel; cbn [prefix_loop]; rewrite Hge; reflexivity.
  - destruct fuel as [|fuel]; [lia|].
    assert (Hlt : forall p, In p iv -> fst p < bound).
    { intros p Hp. apply Hlev in Hp. assert (2 ^ S (K - S k) <= 2 ^ K) by (apply Nat.pow_le_mono_r; lia). lia. }
    assert (Hstep : prefix_loop (S fuel) bound sums iv = prefix_loop fuel bound sums (map (prefix_step sums) iv)).
    { destruct iv as [|[i0 v0] rest] eqn:Ei; [contradiction|].
      cbn [prefix_loop]. specialize (Hlt (i0, v0) (or_introl eq_refl)). cbn [fst] in Hlt.
      destruct (Nat.ltb_spec i0 bound); [|lia]. reflexivity. }
    rewrite Hstep, IH.
    + rewrite map_map. reflexivity.
    + lia.
    + lia.
    + intros H. apply map_eq_nil in H. contradiction.
    + intros p Hp. apply in_map_iff in Hp as [q [<- Hq]]. apply Hlev in Hq.
      replace (K - k) with (S (K - S k)) by lia. rewrite !pow2_S in *.
      unfold prefix_step. destruct (Qcltb _ _); cbn [fst]; lia.
Qed.

(** Sum of the first [n] entries. *)
Definition psum (arr : list Qc) (n : nat) : Qc := qsum (map (fun j => nth j arr 0%Qc) (seq 0 n)).

Lemma psum_S arr n : psum arr (S n) = (psum arr n + nth n arr 0)%Qc.
Proof.
  unfold psum. replace (S n) with (n + 1) by lia.
  rewrite seq_app, map_app, qsum_app. cbn [seq map qsum]. rewrite Nat.add_0_l. ring.
Qed.

Lemma psum_add arr a n :
  psum arr (a + n) = (psum arr a + qsum (map (fun j => nth j arr 0) (seq a n)))%Qc.
Proof. unfold psum. rewrite seq_app, map_app, qsum_app. reflexivity. Qed.

Lemma psum_slice arr n : n <= length arr -> psum arr n = slice_sum arr 0 n.
Proof.
  intros H. unfold psum, slice_sum. rewrite Nat.sub_0_r. cbn [skipn]. f_equal.
  apply nth_error_ext. intros i. rewrite nth_error_map_seq, nth_error_firstn.
  destruct (Nat.ltb_spec i n); [|reflexivity]. symmetry. apply nth_error_nth'. lia.
Qed.

Lemma psum_mono arr a b :
  (forall i, (0 <= nth i arr 0)%Qc) -> a <= b -> (psum arr a <= psum arr b)%Qc.
Proof.
  intros Hp H. induction H as [|b H IH]; [apply Qcle_refl|].
  rewrite psum_S. specialize (Hp b). qclra.
Qed.

(** The descent: the first leaf under the final index is the minimal index. *)
Lemma iter_step_ok K bound tree arr : bound = 2 ^ K ->
  (forall i, 1 <= i < bound -> node_ok tree i) ->
  (forall i, i < bound -> tget tree (bound + i) = nth i arr 0%Qc) ->
  forall k i v v0,
  k <= K -> 2 ^ (K - k) <= i < 2 ^ S (K - k) ->
  (psum arr (i * 2 ^ k - bound) + v = v0)%Qc -> (v <= tget tree i)%Qc ->
  (0 < v)%Qc \/ (i * 2 ^ k = bound /\ (0 <= v)%Qc) ->
  (forall i, (0 <= nth i arr 0)%Qc) ->
  exists j, fst (iter_step k tree (i, v)) = bound + j /\ j < bound
     /\ (v0 <= psum arr (S j))%Qc /\ ((psum arr j < v0)%Qc \/ j = 0)
     /\ ((0 < nth j arr 0)%Qc \/ (j = 0 /\ (0 <= v0)%Qc)).
Proof.
  intros Hb Hn Hl. induction k as [|k IH]; intros i v v0 Hk Hi Hv Hle Hpos Hnn.
  - rewrite Nat.sub_0_r, pow2_S, <- Hb in Hi. simpl in *. rewrite Nat.mul_1_r in *.
    exists (i - bound). split; [lia|]. split; [lia|].
    rewrite psum_S.
    assert (Hti : tget tree i = nth (i - bound) arr 0%Qc).
    { replace i with (bound + (i - bound)) at 1 by lia. apply Hl. lia. }
    rewrite Hti in Hle. split; [qclra|]. split.
    + destruct Hpos as [Hp|[Hp Hp']]; [left; qclra | right; lia].
    + destruct Hpos as [Hp|[Hp Hp']]; [left; qclra |].
      assert (E : i - bound = 0) by lia. rewrite E in *. right. split; [reflexivity|].
      unfold psum in Hv. simpl in Hv. qclra.
  - assert (E : 2 ^ (K - S k) * 2 ^ S k = bound).
    { rewrite <- Nat.pow_add_r, Hb. f_equal. lia. }
    assert (Hib : i < bound).
    { assert (2 ^ S (K - S k) <= 2 ^ K) by (apply Nat.pow_le_mono_r; lia). lia. }
    rewrite !pow2_S in *. pose proof (pow2_pos k). pose proof (pow2_pos (K - S k)).
    assert (Hlb : bound <= i * (2 * 2 ^ k)) by nia.
    assert (Hub : i * (2 * 2 ^ k) + 2 * 2 ^ k <= bound * 2) by nia.
    assert (Hlson : tget tree (i * 2) =
       qsum (map (fun j => nth j arr 0%Qc) (seq (i * 2 * 2 ^ k - bound) (2 ^ k)))).
    { apply (subtree_sum tree bound arr Hn Hl k (i * 2)); nia. }
    cbn [iter_step]. unfold prefix_step. cbn [fst snd].
    assert (Hnode : tget tree i = (tget tree (i * 2) + tget tree (i * 2 + 1))%Qc)
      by (apply Hn; lia).
    assert (Hlevel : 2 * 2 ^ (K - S k) = 2 ^ (K - k)).
    { rewrite <- pow2_S. f_equal. lia. }
    destruct (Qcltb_spec (tget tree (i * 2)) v) as [Hd|Hd].
    + apply (IH (i * 2 + 1) (v - tget tree (i * 2))%Qc v0).
      * lia.
      * rewrite <- Hlevel. lia.
      * rewrite <- Hv.
        replace ((i * 2 + 1) * 2 ^ k - bound) with ((i * (2 * 2 ^ k) - bound) + 2 ^ k) by nia.
        rewrite psum_add. rewrite Hlson.
        replace (i * 2 * 2 ^ k) with (i * (2 * 2 ^ k)) by nia. ring.
      * rewrite Hnode in Hle. qclra.
      * left. qclra.
      * exact Hnn.
    + apply (IH (i * 2) v v0).
      * lia.
      * rewrite <- Hlevel. lia.
      * rewrite <- Hv. replace (i * 2 * 2 ^ k) with (i * (2 * 2 ^ k)) by nia. reflexivity.
      * exact Hd.
      * replace (i * 2 * 2 ^ k) with (i * (2 * 2 ^ k)) by nia. exact Hpos.
      * exact Hnn.
Qed.

(** One query: the minimal index whose inclusive prefix sum reaches [v]. *)
Definition is_prefix_idx (arr : list Qc) (v : Qc) (j : nat) : Prop :=
  j < length arr /\ (v <= slice_sum arr 0 (S j))%Qc
  /\ (forall j', j' < j -> (slice_sum arr 0 (S j') < v)%Qc).

Lemma st_prefix_ok s arr vs :
  wf s arr -> vs <> [] -> (forall i, (0 <= nth i arr 0)%Qc) ->
  (forall v, In v vs -> (0 <= v)%Qc /\ (v < slice_sum arr 0 (length arr))%Qc) ->
  exists js, st_prefix s vs = Ok js /\ Forall2 (is_prefix_idx arr) vs js
    /\ Forall2 (fun v j => (0 < v -> 0 < nth j arr 0)%Qc) vs js.
Proof.
  intros W Hne Hnn Hvs. unfold st_prefix, guard.
  pose proof (wf_size _ _ W) as Hsz. pose proof (wf_len _ _ W) as Hvl.
  pose proof (wf_arr _ _ W) as Harr.
  destruct (wf_bound _ _ W) as [K HK].
  assert (Hpos : 1 <= st_bound s) by (rewrite HK; apply pow2_pos).
  assert (Hroot : tget (st_value s) 1 = slice_sum arr 0 (length arr))
    by (rewrite Harr; apply root_sum; exact W).
  replace (forallb (fun v => Qcleb 0%Qc v) vs) with true.
  2:{ symmetry. apply forallb_forall. intros v Hv. apply Hvs in Hv as [Hv _].
      destruct (Qcleb_spec 0 v); [reflexivity|qclra]. }
  replace (forallb (fun v => Qcltb v (tget (st_value s) 1)) vs) with true.
  2:{ symmetry. apply forallb_forall. intros v Hv. apply Hvs in Hv as [_ Hv]. rewrite Hroot.
      destruct (Qcltb_spec v (slice_sum arr 0 (length arr))); [reflexivity|qclra]. }
  rewrite (prefix_loop_iter K (st_bound s) (st_value s) HK K).
  - cbn [bind]. eexists. split; [reflexivity|].
    rewrite !map_map.
    assert (One : forall v, In v vs ->
       is_prefix_idx arr v (fst (iter_step K (st_value s) (1, v)) - st_bound s)
       /\ ((0 < v)%Qc -> (0 < nth (fst (iter_step K (st_value s) (1%nat, v)) - st_bound s)%nat arr 0)%Qc)).
    { intros v Hv. destruct (Hvs v Hv) as [Hv0 Hv1].
      destruct (iter_step_ok K (st_bound s) (st_value s) arr HK (wf_node _ _ W) (wf_leaf _ _ W)
                  K 1 v v) as (j & Hj & Hjb & Hge & Hmin & Hw).
      - lia.
      - rewrite Nat.sub_diag. simpl. lia.
      - rewrite Nat.mul_1_l, <- HK, Nat.sub_diag. unfold psum. simpl. ring.
      - rewrite Hroot. qclra.
      - right. split; [lia|exact Hv0].
      - exact Hnn.
      - rewrite Hj. replace (st_bound s + j - st_bound s) with j by lia.
        assert (Hjl : j < length arr).
        { destruct (Nat.ltb_spec j (length arr)) as [|Hge']; [assumption|].
          exfalso. destruct Hw as [Hw|[-> Hw]].
          - rewrite nth_overflow in Hw by lia. qclra.
          - assert (length arr = 0) by lia. destruct arr; [|discriminate].
            unfold slice_sum in Hv1. simpl in Hv1. qclra. }
        split.
        + split; [exact Hjl|]. split.
          * rewrite <- psum_slice by lia. exact Hge.
          * intros j' Hj'. rewrite <- psum_slice by lia.
            destruct Hmin as [Hmin|Hmin]; [|lia].
            pose proof (psum_mono arr (S j') j Hnn ltac:(lia)). qclra.
        + intros Hvp. destruct Hw as [Hw|[-> Hw]]; [exact Hw|].
          rewrite psum_S in Hge. unfold psum in Hge. simpl in Hge. qclra. }
    clear Hne Hvs. induction vs as [|v vs IH]; [split; constructor|].
    destruct IH as [I1 I2]; [intros x Hx; apply One; right; exact Hx|].
    destruct (One v (or_introl eq_refl)) as [O1 O2].
    split; constructor; auto.
  - lia.
  - rewrite Hvl, HK. pose proof (pow2_ge K). lia.
  - intros H. apply map_eq_nil in H. contradiction.
  - intros p Hp. apply in_map_iff in Hp as [v [<- _]]. rewrite Nat.sub_diag. simpl. lia.
Qed.

Lemma st_prefix_reject s arr vs v :
  wf s arr -> In v vs -> (v < 0)%Qc \/ (slice_sum arr 0 (length arr) <= v)%Qc ->
  st_prefix s vs = Err AssertionError.
Proof.
  intros W Hv Hr. unfold st_prefix, guard.
  destruct (forallb (fun v => Qcleb 0%Qc v) vs) eqn:E1; [|reflexivity].
  destruct (forallb (fun v => Qcltb v (tget (st_value s) 1)) vs) eqn:E2; [|reflexivity].
  rewrite forallb_forall in E1, E2. specialize (E1 v Hv). specialize (E2 v Hv).
  rewrite (root_sum s arr W), <- (wf_arr _ _ W) in E2.
  destruct (Qcleb_spec 0 v); [|discriminate].
  destruct (Qcltb_spec v (slice_sum arr 0 (length arr))); [|discriminate].
  destruct Hr; exfalso; qclra.
Qed.

(** ** Statements used by SegTreeProperties.v *)

(** C13.  After any sequence of vectorised assignments: every inner node is the sum of its two
    children, reading index [i] gives the entry of the plain array [spec_run] that received
    the same assignments one by one, the tree array keeps its shape. *)
Lemma C13_node_sums_and_reads_lemma : forall size ops,
  let s := st_run size ops in
  (forall i, 1 <= i < st_bound s ->
     nth i (st_value s) 0%Qc = (nth (2 * i) (st_value s) 0 + nth (2 * i + 1) (st_value s) 0)%Qc)
  /\ (forall i, i < size -> st_getitem s (Z.of_nat i) = Ok (nth i (spec_run size ops) 0%Qc))
  /\ st_size s = size /\ size <= st_bound s /\ length (st_value s) = 2 * st_bound s.
Proof.
  intros size ops.
  cbn zeta. destruct (st_run_wf size ops) as [Hs W]. set (s := st_run size ops) in *.
  repeat split.
  - intros i Hi. pose proof (wf_node _ _ W i Hi) as H. unfold node_ok, tget in H.
    rewrite H. f_equal; f_equal; lia.
  - intros i Hi. unfold st_getitem. pose proof (wf_len _ _ W). pose proof (wf_size _ _ W).
    replace (Z.of_nat i + Z.of_nat (st_bound s))%Z with (Z.of_nat (st_bound s + i)) by lia.
    rewrite (zget_nat (st_value s) (st_bound s + i) 0%Qc) by lia. f_equal.
    apply (wf_leaf _ _ W). lia.
  - exact Hs.
  - rewrite <- Hs. apply (wf_size _ _ W).
  - rewrite (wf_len _ _ W). lia.
Qed.

(** C13.  [__setitem__] succeeds exactly on legal arguments; an index outside the tree is an
    AssertionError. *)
Lemma C13_setitem_accepts_lemma : forall size ops index value,
  let s := st_run size ops in
  (legal size index value = true ->
     exists s', st_setitem s index value = Ok s' /\ s' = st_run size (ops ++ [(index, value)]))
  /\ (legal size index value = false -> exists e, st_setitem s index value = Err e)
  /\ (forall i, In i index -> ~ (0 <= i < Z.of_nat size)%Z ->
        st_setitem s index value = Err AssertionError).
Proof.
  intros size ops index value.
  cbn zeta. destruct (st_run_wf size ops) as [Hs W]. 
  repeat split.
  - intros L. rewrite <- Hs in L at 1. destruct (st_setitem_legal _ _ _ _ W L) as (s' & E & _). exists s'.
    split; [exact E|]. unfold st_run. rewrite fold_left_app. cbn [fold_left].
    unfold st_step at 1. fold (st_run size ops). cbn [fst snd]. rewrite E. reflexivity.
  - rewrite <- Hs at 1. apply st_setitem_illegal.
  - intros i Hi Hr. apply (st_setitem_out_of_range _ _ _ i Hi). rewrite Hs. exact Hr.
Qed.

(** C14.  [reduce(start, end)] is the slice sum; [None] is the end of the array, negative ends
    count from the back, and an empty slice gives 0. *)
Lemma C14_reduce_is_slice_sum_lemma : forall size ops (a b : nat) (e : option Z),
  a <= size -> b <= size ->
  match e with
  | None => b = size
  | Some z => (z = Z.of_nat b \/ (z < 0 /\ z + Z.of_nat size = Z.of_nat b))%Z
  end ->
  st_reduce (st_run size ops) (Z.of_nat a) e = Ok (slice_sum (spec_run size ops) a b).
Proof.
  intros size ops a b  e .
  intros Ha Hb He. destruct (st_run_wf size ops) as [Hs W].
  apply st_reduce_ok; rewrite ?Hs; assumption.
Qed.

(** C15.  On non-negative leaves every query in [0, total) gets the smallest index whose
    inclusive prefix sum reaches it, and a positive query lands on a positive leaf. *)
Lemma C15_prefix_sum_idx_lemma : forall size ops vs,
  let arr := spec_run size ops in
  vs <> [] -> (forall i, i < size -> (0 <= nth i arr 0)%Qc) ->
  (forall v, In v vs -> (0 <= v)%Qc /\ (v < slice_sum arr 0 size)%Qc) ->
  exists js, st_prefix (st_run size ops) vs = Ok js
    /\ Forall2 (fun v j => j < size /\ (v <= slice_sum arr 0 (S j))%Qc
                  /\ (forall j', j' < j -> (slice_sum arr 0 (S j') < v)%Qc)
                  /\ ((0 < v)%Qc -> (0 < nth j arr 0)%Qc)) vs js.
Proof.
  intros size ops vs.
  cbn zeta. intros Hne Hnn Hv. destruct (st_run_wf size ops) as [Hs W].
  pose proof (st_run_len size ops) as Hl.
  destruct (st_prefix_ok _ _ vs W Hne) as (js & E & F1 & F2).
  - intros i. destruct (Nat.ltb_spec i size); [auto|].
    rewrite nth_overflow by lia. qclra.
  - rewrite Hl. exact Hv.
  - exists js. split; [exact E|].
    clear E Hv Hne. induction F1 as [|v j vs js [H1 [H2 H3]] F1 IH]; [constructor|].
    inversion F2; subst. constructor; [|apply IH; assumption].
    rewrite Hl in H1. auto.
Qed.

(** C15.  Queries outside [0, total) are rejected. *)
Lemma C15_prefix_rejects_lemma : forall size ops vs v,
  In v vs -> (v < 0)%Qc \/ (slice_sum (spec_run size ops) 0 size <= v)%Qc ->
  st_prefix (st_run size ops) vs = Err AssertionError.
Proof.
  intros size ops vs v.
  intros Hv Hr. destruct (st_run_wf size ops) as [Hs W].
  apply (st_prefix_reject _ _ vs v W Hv). rewrite st_run_len. exact Hr.
Qed.
