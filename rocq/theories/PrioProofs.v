(** * Proofs about the prioritized buffers *)
From Verif Require Import Py PyLemmas Num SegTreeModel SegTreeSpec SegTreeProofs
  BufferModel BufferSpec BufferProofs BufferWalkProofs ManagerModel ManagerSpec ManagerProofs
  ManagerMainProofs CachedProofs PrioModel PrioSpec.
Open Scope nat_scope.

(** ** The weight tree is an array *)
Definition treeok (n : nat) (t : segtree) (arr : list Qc) : Prop :=
  exists tops, t = st_run n tops /\ spec_run n tops = arr.

Lemma treeok_length n t arr : treeok n t arr -> length arr = n.
Proof. intros (tops & _ & <-). apply st_run_len. Qed.
Lemma treeok_init n : treeok n (st_init n) (repeat 0%Qc n).
Proof. exists []. split; reflexivity. Qed.
Lemma treeok_set n t arr idx vals : treeok n t arr -> legal n idx vals = true ->
  exists t', st_setitem t idx vals = Ok t' /\ treeok n t' (write_all arr idx vals).
Proof.
  intros (tops & -> & <-) Hl.
  destruct (C13_setitem_accepts_lemma n tops idx vals) as (H & _).
  destruct (H Hl) as (s' & E & ->). exists (st_run n (tops ++ [(idx, vals)])). split; [exact E|].
  eexists. split; [reflexivity|]. unfold spec_run. rewrite fold_left_app. cbn [fold_left].
  unfold spec_step at 1. cbn [fst snd].
  change (fold_left spec_step tops (repeat 0%Qc n)) with (spec_run n tops).
  rewrite st_run_len, Hl. reflexivity.
Qed.
Lemma treeok_get n t arr i : treeok n t arr -> i < n -> st_getitem t (Z.of_nat i) = Ok (nth i arr 0%Qc).
Proof. intros (tops & -> & <-) Hi. apply (C13_node_sums_and_reads_lemma n tops). exact Hi. Qed.
Lemma treeok_reduce n t arr : treeok n t arr -> st_reduce t 0 None = Ok (slice_sum arr 0 n).
Proof.
  intros (tops & -> & <-). apply (C14_reduce_is_slice_sum_lemma n tops 0 n None); [lia|lia|reflexivity].
Qed.

Lemma legal_true n idx vals : length idx = length vals -> idx <> [] ->
  (forall i, In i idx -> (0 <= i < Z.of_nat n)%Z) -> legal n idx vals = true.
Proof.
  intros H1 H2 H3. unfold legal. rewrite H1, Nat.eqb_refl. cbn [andb].
  destruct idx as [|a idx]; [contradiction|]. rewrite <- H1. cbn [length Nat.eqb negb andb].
  apply forallb_forall. intros i Hi. specialize (H3 i Hi). lia.
Qed.

(** ** Extremes of the priorities seen *)
Definition is_max (h : Qc) (l : list Qc) : Prop := In h l /\ forall x, In x l -> (x <= h)%Qc.
Definition is_min (h : Qc) (l : list Qc) : Prop := In h l /\ forall x, In x l -> (h <= x)%Qc.
Lemma is_max_uniq h h' l : is_max h l -> is_max h' l -> h = h'.
Proof. intros [H1 H2] [H3 H4]. apply Qcle_antisym; auto. Qed.
Lemma is_min_uniq h h' l : is_min h l -> is_min h' l -> h = h'.
Proof. intros [H1 H2] [H3 H4]. apply Qcle_antisym; auto. Qed.
Lemma is_max_ext h l l' : (forall x, In x l <-> In x l') -> is_max h l -> is_max h l'.
Proof. intros E [H1 H2]. split; [apply E, H1|]. intros x Hx. apply H2, E, Hx. Qed.
Lemma is_min_ext h l l' : (forall x, In x l <-> In x l') -> is_min h l -> is_min h l'.
Proof. intros E [H1 H2]. split; [apply E, H1|]. intros x Hx. apply H2, E, Hx. Qed.

Lemma highest_is_max l : is_max (highest l) (1%Qc :: l).
Proof.
  induction l as [|x l [IH1 IH2]]; [split; [left; reflexivity|intros y [<-|[]]; apply Qcle_refl]|].
  cbn [highest]. destruct (Qcleb_spec x (highest l)) as [H|H].
  - split; [destruct IH1 as [E|E]; [left; exact E|right; right; exact E]|].
    intros y [E|[E|E]]; [apply IH2; left; exact E|subst y; exact H|apply IH2; right; exact E].
  - split; [right; left; reflexivity|].
    intros y [E|[E|E]]; [|subst y; qclra|].
    + assert (y <= highest l)%Qc by (apply IH2; left; exact E). qclra.
    + assert (y <= highest l)%Qc by (apply IH2; right; exact E). qclra.
Qed.
Lemma lowest_is_min l : is_min (lowest l) (1%Qc :: l).
Proof.
  induction l as [|x l [IH1 IH2]]; [split; [left; reflexivity|intros y [<-|[]]; apply Qcle_refl]|].
  cbn [lowest]. destruct (Qcleb_spec (lowest l) x) as [H|H].
  - split; [destruct IH1 as [E|E]; [left; exact E|right; right; exact E]|].
    intros y [E|[E|E]]; [apply IH2; left; exact E|subst y; exact H|apply IH2; right; exact E].
  - split; [right; left; reflexivity|].
    intros y [E|[E|E]]; [|subst y; qclra|].
    + assert (lowest l <= y)%Qc by (apply IH2; left; exact E). qclra.
    + assert (lowest l <= y)%Qc by (apply IH2; right; exact E). qclra.
Qed.
Lemma max_of_is_max l : forall b, is_max (max_of b l) (b :: l).
Proof.
  induction l as [|x l IH]; intros b; [split; [left; reflexivity|intros y [<-|[]]; apply Qcle_refl]|].
  unfold max_of in *. cbn [fold_left]. destruct (IH (Qcmaxb b x)) as [H1 H2].
  unfold Qcmaxb in *. destruct (Qcleb_spec b x) as [H|H].
  - split; [right; exact H1|]. intros y [E|E]; [subst y|apply H2; exact E].
    assert (x <= fold_left (fun x y => if Qcleb x y then y else x) l x)%Qc by (apply H2; left; reflexivity). qclra.
  - split; [destruct H1 as [E|E]; [left; exact E|right; right; exact E]|].
    intros y [E|[E|E]]; [apply H2; left; exact E| |apply H2; right; exact E]. subst y.
    assert (b <= fold_left (fun x y => if Qcleb x y then y else x) l b)%Qc by (apply H2; left; reflexivity). qclra.
Qed.
Lemma min_of_is_min l : forall b, is_min (min_of b l) (b :: l).
Proof.
  induction l as [|x l IH]; intros b; [split; [left; reflexivity|intros y [<-|[]]; apply Qcle_refl]|].
  unfold min_of in *. cbn [fold_left]. destruct (IH (Qcminb b x)) as [H1 H2].
  unfold Qcminb in *. destruct (Qcleb_spec b x) as [H|H].
  - split; [destruct H1 as [E|E]; [left; exact E|right; right; exact E]|].
    intros y [E|[E|E]]; [apply H2; left; exact E| |apply H2; right; exact E]. subst y.
    assert (fold_left (fun x y => if Qcleb x y then x else y) l b <= b)%Qc by (apply H2; left; reflexivity). qclra.
  - split; [right; exact H1|]. intros y [E|E]; [subst y|apply H2; exact E].
    assert (fold_left (fun x y => if Qcleb x y then x else y) l x <= x)%Qc by (apply H2; left; reflexivity). qclra.
Qed.
Lemma max_of_highest s l : max_of (highest s) l = highest (s ++ l).
Proof.
  apply (is_max_uniq _ _ (1%Qc :: s ++ l)); [|apply highest_is_max].
  destruct (max_of_is_max l (highest s)) as [H1 H2]. destruct (highest_is_max s) as [H3 H4].
  split.
  - destruct H1 as [E|E]; [rewrite <- E; destruct H3 as [F|F]; [left; exact F|right; apply in_or_app; left; exact F]|].
    right. apply in_or_app. right. exact E.
  - assert (highest s <= max_of (highest s) l)%Qc by (apply H2; left; reflexivity).
    intros x [E|E]; [assert (x <= highest s)%Qc by (apply H4; left; exact E); qclra|].
    apply in_app_or in E as [E|E]; [assert (x <= highest s)%Qc by (apply H4; right; exact E); qclra|].
    apply H2. right. exact E.
Qed.
Lemma min_of_lowest s l : min_of (lowest s) l = lowest (s ++ l).
Proof.
  apply (is_min_uniq _ _ (1%Qc :: s ++ l)); [|apply lowest_is_min].
  destruct (min_of_is_min l (lowest s)) as [H1 H2]. destruct (lowest_is_min s) as [H3 H4].
  split.
  - destruct H1 as [E|E]; [rewrite <- E; destruct H3 as [F|F]; [left; exact F|right; apply in_or_app; left; exact F]|].
    right. apply in_or_app. right. exact E.
  - assert (min_of (lowest s) l <= lowest s)%Qc by (apply H2; left; reflexivity).
    intros x [E|E]; [assert (lowest s <= x)%Qc by (apply H4; left; exact E); qclra|].
    apply in_app_or in E as [E|E]; [assert (lowest s <= x)%Qc by (apply H4; right; exact E); qclra|].
    apply H2. right. exact E.
Qed.

(** ** Writing to the array *)
Lemma ring_fill_write n v : forall k arr c,
  ring_fill n arr c k v = write_all arr (map (fun j => Z.of_nat ((c + j) mod n)) (seq 0 k)) (repeat v k).
Proof.
  induction k as [|k IH]; intros arr c; [reflexivity|].
  cbn [ring_fill seq map repeat write_all]. rewrite Nat2Z.id, Nat.add_0_r, IH.
  f_equal. rewrite <- seq_shift, map_map. apply map_ext. intros j. do 2 f_equal. lia.
Qed.

Definition wpos (st : nat -> Prop) (arr : list Qc) : Prop :=
  forall i, i < length arr -> (st i -> (0 < nth i arr 0)%Qc) /\ (~ st i -> nth i arr 0%Qc = 0%Qc).

Lemma nth_upd {T} (l : list T) i j x d : i < length l ->
  nth j (upd l i x) d = if i =? j then x else nth j l d.
Proof.
  intros Hi. destruct (Nat.eqb_spec i j) as [<-|H].
  - apply nth_error_nth. apply nth_error_upd_same. exact Hi.
  - destruct (nth_error l j) as [y|] eqn:E.
    + rewrite (nth_error_nth _ _ d E). apply nth_error_nth. rewrite nth_error_upd_other by exact H. exact E.
    + rewrite !nth_overflow; [reflexivity| |].
      * apply nth_error_None. exact E.
      * apply nth_error_None. rewrite nth_error_upd_other by exact H. exact E.
Qed.

Lemma wpos_ext (st st' : nat -> Prop) arr : (forall i, i < length arr -> (st i <-> st' i)) -> wpos st arr -> wpos st' arr.
Proof. intros E H i Hi. destruct (H i Hi) as [H1 H2]. pose proof (E i Hi). split; intros; [apply H1|apply H2]; tauto. Qed.

Lemma wpos_upd st arr i v : wpos st arr -> i < length arr -> (0 < v)%Qc ->
  wpos (fun j => st j \/ j = i) (upd arr i v).
Proof.
  intros H Hi Hv j Hj. rewrite upd_length in Hj. rewrite nth_upd by exact Hi. destruct (H j Hj) as [H1 H2].
  destruct (Nat.eqb_spec i j) as [E|E].
  - split; [intros _; exact Hv|]. intros F. exfalso. apply F. right. symmetry. exact E.
  - split; [intros [F|F]; [apply H1; exact F|congruence]|]. intros F. apply H2. tauto.
Qed.

Lemma wpos_write st : forall idx vals arr, wpos st arr ->
  length idx = length vals ->
  (forall i, In i idx -> (0 <= i < Z.of_nat (length arr))%Z) -> (forall v, In v vals -> (0 < v)%Qc) ->
  wpos (fun j => st j \/ In (Z.of_nat j) idx) (write_all arr idx vals).
Proof.
  intros idx. revert st. induction idx as [|i idx IH]; intros st [|v vals] arr H Hl Hi Hv; try discriminate.
  - cbn [write_all]. apply (wpos_ext st); [|exact H]. intros j _. cbn [In]. tauto.
  - cbn [write_all]. injection Hl as Hl.
    assert (Hi0 : (0 <= i < Z.of_nat (length arr))%Z) by (apply Hi; left; reflexivity).
    assert (Hu : wpos (fun j => st j \/ j = Z.to_nat i) (upd arr (Z.to_nat i) v)).
    { apply wpos_upd; [exact H|lia|apply Hv; left; reflexivity]. }
    specialize (IH _ vals _ Hu Hl).
    apply (wpos_ext (fun j => (st j \/ j = Z.to_nat i) \/ In (Z.of_nat j) idx)).
    + intros j _. cbn [In]. split; [intros [[F|F]|F]|intros [F|[F|F]]]; auto.
      * right. left. lia.
      * left. right. lia.
    + apply IH.
      * intros k Hk. rewrite upd_length. apply Hi. right. exact Hk.
      * intros w Hw. apply Hv. right. exact Hw.
Qed.

(** ** Drawing *)
Lemma psum_nonneg arr : (forall i, i < length arr -> (0 <= nth i arr 0)%Qc) -> (0 <= qsum arr)%Qc.
Proof.
  induction arr as [|x arr IH]; intros H; cbn [qsum]; [qclra|].
  assert (0 <= x)%Qc by (apply (H 0); cbn [length]; lia).
  assert (0 <= qsum arr)%Qc by (apply IH; intros i Hi; apply (H (S i)); cbn [length]; lia). qclra.
Qed.
Lemma psum_pos arr i : (forall j, j < length arr -> (0 <= nth j arr 0)%Qc) -> i < length arr ->
  (0 < nth i arr 0)%Qc -> (0 < qsum arr)%Qc.
Proof.
  revert i. induction arr as [|x arr IH]; intros i H Hi Hp; cbn [length] in *; [lia|]. cbn [qsum].
  assert (Hx : (0 <= x)%Qc) by (apply (H 0); lia).
  assert (Ht : forall j, j < length arr -> (0 <= nth j arr 0)%Qc) by (intros j Hj; apply (H (S j)); lia).
  destruct i as [|i]; cbn [nth] in Hp.
  - pose proof (psum_nonneg arr Ht). qclra.
  - assert (0 < qsum arr)%Qc by (apply (IH i Ht); [lia|exact Hp]). qclra.
Qed.
Lemma slice_sum_all arr n : length arr = n -> slice_sum arr 0 n = qsum arr.
Proof. intros H. unfold slice_sum. rewrite Nat.sub_0_r. cbn [skipn]. rewrite firstn_all2 by lia. reflexivity. Qed.
Lemma slice_sum_nonneg arr n : (forall j, j < length arr -> (0 <= nth j arr 0)%Qc) -> (0 <= slice_sum arr 0 n)%Qc.
Proof.
  intros H. unfold slice_sum. rewrite Nat.sub_0_r. cbn [skipn]. apply psum_nonneg. intros i Hi.
  rewrite firstn_length in Hi. rewrite <- (firstn_skipn n arr) in H.
  specialize (H i). rewrite app_nth1 in H by (rewrite firstn_length; lia). apply H.
  rewrite app_length, firstn_length, skipn_length. lia.
Qed.

Lemma Forall2_map_l {X Y Z} (P : Y -> Z -> Prop) (f : X -> Y) l l' :
  Forall2 P (map f l) l' -> Forall2 (fun x z => P (f x) z) l l'.
Proof.
  revert l'. induction l as [|x l IH]; intros [|z l'] H; inversion H; subst; constructor; auto.
Qed.

Lemma prio_draw_ok n p arr st draws : treeok n (p_tree p) arr -> wpos st arr ->
  (forall i, {st i} + {~ st i}) ->
  (exists i, i < n /\ st i) -> draws <> [] ->
  (forall r, In r draws -> (0 <= r)%Qc /\ (r < 1)%Qc) ->
  (st 0 \/ forall r, In r draws -> (0 < r)%Qc) ->
  exists l, prio_draw p draws = Ok l
    /\ Forall2 (fun r j => j < n /\ st j /\ draw_law arr r j) draws l.
Proof.
  intros Ht Hw Hdec (i0 & Hi0 & Hs0) Hne Hr H0. pose proof (treeok_length _ _ _ Ht) as Hl.
  assert (Hnn : forall j, j < length arr -> (0 <= nth j arr 0)%Qc).
  { intros j Hj. destruct (Hw j Hj) as [H1 H2]. destruct (Hdec j) as [E|E].
    - specialize (H1 E). qclra.
    - rewrite (H2 E). qclra. }
  unfold prio_draw. rewrite (treeok_reduce n _ arr Ht). cbn [bind].
  set (tot := slice_sum arr 0 n).
  assert (Htot : (0 < tot)%Qc).
  { unfold tot. rewrite slice_sum_all by exact Hl. apply (psum_pos arr i0 Hnn); [lia|].
    apply (Hw i0); [lia|exact Hs0]. }
  destruct Ht as (tops & Et & Ea). rewrite Et.
  destruct (C15_prefix_sum_idx_lemma n tops (map (fun r => (r * tot)%Qc) draws)) as (l & El & Hf).
  - destruct draws; [contradiction|discriminate].
  - rewrite Ea. intros i Hi. apply Hnn. lia.
  - intros v Hv. apply in_map_iff in Hv as (r & <- & Hin). destruct (Hr r Hin) as [F1 F2].
    rewrite Ea. fold tot. split; [|]; qcnra.
  - exists l. split; [exact El|]. rewrite Ea in Hf. apply Forall2_map_l in Hf.
    assert (G : forall ds l', (forall r, In r ds -> In r draws) ->
      Forall2 (fun x z => z < n /\ (x * tot <= slice_sum arr 0 (S z))%Qc /\
                 (forall j', j' < z -> (slice_sum arr 0 (S j') < x * tot)%Qc) /\
                 ((0 < x * tot)%Qc -> (0 < nth z arr 0)%Qc)) ds l' ->
      Forall2 (fun r j => j < n /\ st j /\ draw_law arr r j) ds l').
    { intros ds l' Hin HF. induction HF as [|r j ds l' (F1 & F2 & F3 & F4) HF IH]; [constructor|].
      constructor; [|apply IH; intros; apply Hin; right; assumption].
      split; [exact F1|]. split.
      2:{ unfold draw_law. rewrite Hl. fold tot. auto. }
      destruct (Hdec j) as [E|E]; [exact E|]. exfalso.
      assert (Hin' : In r draws) by (apply Hin; left; reflexivity). destruct (Hr r Hin') as [G1 G2].
      assert (Hj0 : nth j arr 0%Qc = 0%Qc) by (apply (Hw j); [lia|exact E]).
      destruct (Qcltb_spec 0 r) as [Hpos|Hz].
      - assert (0 < r * tot)%Qc by qcnra. specialize (F4 H). rewrite Hj0 in F4. qclra.
      - assert (Er : r = 0%Qc) by (apply Qcle_antisym; assumption). subst r.
        destruct H0 as [H0|H0].
        + destruct j as [|j]; [contradiction|]. specialize (F3 0 ltac:(lia)).
          pose proof (slice_sum_nonneg arr 1 Hnn). qclra.
        + specialize (H0 _ Hin'). qclra. }
    apply (G draws l); [auto|exact Hf].
Qed.

(** ** Single buffer *)
Section SingleBuffer.
Variables (pw : Qc -> Qc) (eps : Qc).
Hypothesis Hpw : forall x, (0 < x)%Qc -> (0 < pw x)%Qc.
Hypothesis Heps : (0 < eps)%Qc.
Context {Ob A Inf R : Type}.
Variable r0 : R.
Variable radd : R -> R -> R.
Variable last_frame : Ob -> Ob.

Lemma qabs_prio w : (qabs w + eps)%Qc = prio_of eps w.
Proof. reflexivity. Qed.
Lemma prio_pos w : (0 < prio_of eps w)%Qc.
Proof. unfold prio_of. destruct (Qcltb_spec w 0); qclra. Qed.
Lemma highest_pos l : (0 < highest l)%Qc.
Proof. destruct (highest_is_max l) as [_ H]. assert (1 <= highest l)%Qc by (apply H; left; reflexivity). qclra. Qed.

Lemma init_weight_ok n p arr idx : treeok n (p_tree p) arr -> idx <> [] ->
  (forall i, In i idx -> (0 <= i < Z.of_nat n)%Z) ->
  exists p', init_weight pw p idx = Ok p'
    /\ treeok n (p_tree p') (write_all arr idx (map (fun _ => pw (p_max p)) idx))
    /\ p_max p' = p_max p /\ p_min p' = p_min p.
Proof.
  intros Ht Hne Hi. unfold init_weight.
  destruct (treeok_set n (p_tree p) arr idx (map (fun _ => pw (p_max p)) idx) Ht) as (t & E & Ht').
  { apply legal_true; [rewrite map_length; reflexivity|exact Hne|exact Hi]. }
  rewrite E. cbn [bind]. eexists. split; [reflexivity|]. auto.
Qed.
Lemma update_weight_ok n p arr idx ws : treeok n (p_tree p) arr -> idx <> [] -> length ws = length idx ->
  (forall i, In i idx -> (0 <= i < Z.of_nat n)%Z) ->
  exists p', update_weight pw eps p idx ws = Ok p'
    /\ treeok n (p_tree p') (write_all arr idx (map (fun w => pw (prio_of eps w)) ws))
    /\ p_max p' = max_of (p_max p) (map (prio_of eps) ws) /\ p_min p' = min_of (p_min p) (map (prio_of eps) ws).
Proof.
  clear Hpw Heps r0 radd.
  intros Ht Hne Hl Hi. unfold update_weight. rewrite map_map.
  change (fun x => pw (qabs x + eps)%Qc) with (fun w => pw (prio_of eps w)).
  destruct (treeok_set n (p_tree p) arr idx (map (fun w => pw (prio_of eps w)) ws) Ht) as (t & E & Ht').
  { apply legal_true; [rewrite map_length; lia|exact Hne|exact Hi]. }
  rewrite E. cbn [bind]. eexists. split; [reflexivity|]. auto.
Qed.

Record G (n : nat) (s : pst) (b : pbuf Ob A Inf R) : Prop := {
  g_inv : exists q, inv n (pb_buf b) q;
  g_tree : treeok n (p_tree (pb_prio b)) (ps_arr s);
  g_max : p_max (pb_prio b) = highest (ps_seen s);
  g_min : p_min (pb_prio b) = lowest (ps_seen s);
  g_ins : ins (b_st (pb_buf b)) = ps_cnt s mod n;
  g_size : size (b_st (pb_buf b)) = Nat.min (ps_cnt s) n;
  g_pos : wpos (fun i => i < Nat.min (ps_cnt s) n) (ps_arr s)
}.

Lemma G_init n : 0 < n -> G n (ps_init n) (pb_init r0 n).
Proof.
  clear pw eps Hpw Heps radd last_frame.
  intros Hn. split; cbn [pb_init pb_buf pb_prio prio_init p_tree p_max p_min ps_init ps_arr ps_cnt ps_seen].
  - exists []. apply inv_init. exact Hn.
  - apply treeok_init.
  - reflexivity.
  - reflexivity.
  - cbn. rewrite Nat.mod_0_l by lia. reflexivity.
  - reflexivity.
  - intros i Hi. split; [intros H; cbn in H; lia|]. intros _. apply nth_repeat0.
Qed.

Lemma ring_stored n c k i : 0 < n -> i < n ->
  (i < Nat.min c n \/ In (Z.of_nat i) (map (fun j => Z.of_nat ((c + j) mod n)) (seq 0 k)))
  <-> i < Nat.min (c + k) n.
Proof.
  clear Hpw Heps r0 radd last_frame.
  intros Hn Hi. split.
  - intros [H|H]; [lia|]. apply in_map_iff in H as (j & Hj & Hin). apply in_seq in Hin.
    destruct (Nat.lt_ge_cases (c + j) n) as [Hlt|Hge]; [|lia].
    rewrite Nat.mod_small in Hj by exact Hlt. lia.
  - intros H. destruct (Nat.lt_ge_cases i c) as [Hc|Hc]; [left; lia|].
    right. apply in_map_iff. exists (i - c). split; [|apply in_seq; lia].
    replace (c + (i - c)) with i by lia. rewrite Nat.mod_small by exact Hi. reflexivity.
Qed.

Lemma G_fill n s k : 0 < n -> length (ps_arr s) = n -> wpos (fun i => i < Nat.min (ps_cnt s) n) (ps_arr s) ->
  wpos (fun i => i < Nat.min (ps_cnt s + k) n) (ring_fill n (ps_arr s) (ps_cnt s) k (pw (highest (ps_seen s)))).
Proof.
  intros Hn Hl Hw. rewrite ring_fill_write.
  apply (wpos_ext (fun i => i < Nat.min (ps_cnt s) n
          \/ In (Z.of_nat i) (map (fun j => Z.of_nat ((ps_cnt s + j) mod n)) (seq 0 k)))).
  - intros i Hi. rewrite write_all_length, Hl in Hi. apply ring_stored; assumption.
  - apply wpos_write; [exact Hw|rewrite map_length, seq_length, repeat_length; reflexivity| |].
    + intros i Hi. apply in_map_iff in Hi as (j & <- & _). rewrite Hl.
      pose proof (Nat.mod_upper_bound (ps_cnt s + j) n). lia.
    + intros v Hv. apply repeat_spec in Hv as ->. apply Hpw, highest_pos.
Qed.

Lemma G_step o n s b op : G n s b -> pop_ok r0 radd last_frame o n s op ->
  exists b', p_run pw eps r0 radd last_frame o b [op] = Ok b' /\ G n (ps_step pw eps n s op) b'.
Proof.
  intros [[q Hi] Ht Hmx Hmn Hin Hsz Hw] Hok.
  pose proof (i_s _ _ _ Hi) as Hs. pose proof (i_pos _ _ Hs) as Hn.
  pose proof (treeok_length _ _ _ Ht) as Hl.
  destruct op as [t|src|index ws]; cbn [p_run pop_ok ps_step] in *.
  - destruct (add_ok r0 radd last_frame n (pb_buf b) q o t Hi) as (b1 & ret & len & E & Hi1 & _ & _ & E1 & E2).
    unfold pb_add. rewrite E. cbn [bind fst snd].
    destruct (init_weight_ok n (pb_prio b) (ps_arr s) [Z.of_nat (ins (b_st (pb_buf b)))] Ht) as (p & Ep & Ht' & Em1 & Em2).
    { discriminate. }
    { intros i [<-|[]]. pose proof (i_ins _ _ Hs). lia. }
    rewrite Ep. cbn [bind fst snd]. eexists. split; [reflexivity|].
    split; cbn [pb_buf pb_prio ps_arr ps_cnt ps_seen].
    + eauto.
    + cbn [ring_fill]. cbn [map write_all] in Ht'. rewrite Nat2Z.id, Hin, Hmx in Ht'. exact Ht'.
    + congruence.
    + congruence.
    + rewrite E1. unfold advance. cbn [ins]. rewrite (i_max _ _ Hs), Hin, Nat.add_mod_idemp_l by lia.
      f_equal. lia.
    + rewrite E2. unfold advance. cbn [size]. rewrite (i_max _ _ Hs), Hsz. lia.
    + replace (S (ps_cnt s)) with (ps_cnt s + 1) by lia. apply G_fill; assumption.
  - destruct Hok as (n2 & q2 & Hn2 & Hr & Hne).
    pose proof (reach_inv r0 radd last_frame o n2 src q2 Hr Hn2) as Hi2.
    destruct (update_ok n n2 (pb_buf b) q src q2 Hi Hi2) as (b1 & l & E & Hi1 & Hll & El).
    pose proof (i_len _ _ _ Hi2) as Hl2. set (k := length q2) in *.
    destruct (advance_n_state n k (b_st (pb_buf b)) Hs) as (_ & Ea & Eb & _).
    rewrite Eb in El.
    assert (El' : map Z.of_nat l = map (fun j => Z.of_nat ((ps_cnt s + j) mod n)) (seq 0 k)).
    { rewrite El, map_map. apply map_ext. intros j. rewrite Hin, Nat.add_mod_idemp_l by lia. reflexivity. }
    assert (Hk : 0 < k) by (unfold k; destruct q2; [contradiction|cbn; lia]).
    unfold pb_update. rewrite E. cbn [bind fst snd].
    destruct (init_weight_ok n (pb_prio b) (ps_arr s) (map Z.of_nat l) Ht) as (p & Ep & Ht' & Em1 & Em2).
    { rewrite El'. destruct k; [lia|discriminate]. }
    { rewrite El'. intros i H. apply in_map_iff in H as (j & <- & _).
      pose proof (Nat.mod_upper_bound (ps_cnt s + j) n). lia. }
    rewrite Ep. cbn [bind fst snd]. eexists. split; [reflexivity|].
    pose proof (i_s _ _ _ Hi1) as Hs1.
    assert (Est : b_st b1 = fst (advance_n k (b_st (pb_buf b)))).
    { rewrite <- Hll. apply (update_st (pb_buf b) src b1 l E). intros ->. cbn in Hll. lia. }
    split; cbn [pb_buf pb_prio ps_arr ps_cnt ps_seen]; rewrite <- ?Hl2.
    + eauto.
    + rewrite ring_fill_write. rewrite El' in Ht'. rewrite map_map in Ht'. rewrite Hmx in Ht'.
      replace (repeat (pw (highest (ps_seen s))) k) with (map (fun _ : nat => pw (highest (ps_seen s))) (seq 0 k)); [exact Ht'|].
      clear. generalize 0. induction k as [|k IH]; intros a; [reflexivity|]. cbn [seq map repeat]. rewrite IH. reflexivity.
    + congruence.
    + congruence.
    + rewrite Est, Ea, Hin, Nat.add_mod_idemp_l by lia. reflexivity.
    + rewrite <- (i_len _ _ _ Hi1). unfold push. rewrite lastn_length, app_length, (i_len _ _ _ Hi), Hsz. fold k. lia.
    + apply G_fill; assumption.
  - destruct Hok as (Hne & Hlen & Hidx).
    destruct (update_weight_ok n (pb_prio b) (ps_arr s) index ws Ht Hne Hlen) as (p & Ep & Ht' & Em1 & Em2).
    { intros i H. specialize (Hidx i H). lia. }
    rewrite Ep. cbn [bind fst snd]. eexists. split; [reflexivity|].
    split; cbn [pb_buf pb_prio ps_arr ps_cnt ps_seen]; auto.
    + eauto.
    + rewrite Em1, Hmx. apply max_of_highest.
    + rewrite Em2, Hmn. apply min_of_lowest.
    + apply (wpos_ext (fun i => i < Nat.min (ps_cnt s) n \/ In (Z.of_nat i) index)).
      * intros i _. split; [intros [H|H]; [exact H|]|auto]. specialize (Hidx _ H). lia.
      * apply wpos_write; [exact Hw|rewrite map_length; lia| |].
        -- intros i H. specialize (Hidx i H). lia.
        -- intros v Hv. apply in_map_iff in Hv as (w & <- & _). apply Hpw, prio_pos.
Qed.

Lemma p_run_ok o n : forall ops s b, G n s b -> pops_ok pw eps r0 radd last_frame o n s ops ->
  exists b', p_run pw eps r0 radd last_frame o b ops = Ok b' /\ G n (fold_left (ps_step pw eps n) ops s) b'.
Proof.
  induction ops as [|op ops IH]; intros s b Hg Hok; [exists b; auto|].
  destruct Hok as [H1 H2]. destruct (G_step o n s b op Hg H1) as (b1 & E1 & Hg1).
  destruct (IH _ _ Hg1 H2) as (b2 & E2 & Hg2). exists b2. split; [|exact Hg2].
  destruct op; cbn [p_run] in *.
  - destruct (pb_add _ _ _ _ _ _ _) as [x|e]; [|discriminate]. cbn [bind] in *. injection E1 as ->. exact E2.
  - destruct (pb_update _ _ _) as [x|e]; [|discriminate]. cbn [bind] in *. injection E1 as ->. exact E2.
  - destruct (update_weight _ _ _ _ _) as [x|e]; [|discriminate]. cbn [bind] in *. injection E1 as ->. exact E2.
Qed.
End SingleBuffer.
