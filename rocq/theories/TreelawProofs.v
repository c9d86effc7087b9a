(** * Proofs of laws of the segment tree *)
From Verif Require Import Py PyLemmas Num SegTreeModel SegTreeSpec SegTreeProofs PrioModel.
Open Scope nat_scope.

(** ** Trees are determined by their leaves *)
Lemma assign_0 tree : forall idx vals, (forall i, In i idx -> 1 <= i) -> tget (assign tree idx vals) 0 = tget tree 0.
Proof. intros idx vals H. apply assign_notin. intros H0. specialize (H 0 H0). lia. Qed.

Lemma setitem_loop_0 : forall k fuel tree index t, index <> [] -> (forall i, In i index -> 2 ^ k <= i < 2 ^ S k) ->
  setitem_loop fuel tree index = Ok t -> tget t 0 = tget tree 0.
Proof.
  induction k as [|k IH]; intros fuel tree index t Hne Hi E.
  - destruct index as [|i0 index]; [contradiction|]. cbn [Nat.pow] in Hi. assert (i0 = 1) as -> by (specialize (Hi i0 (or_introl eq_refl)); lia).
    destruct fuel; cbn in E; injection E as <-; reflexivity.
  - destruct index as [|i0 index]; [contradiction|]. destruct fuel as [|f]; cbn [setitem_loop] in E.
    + destruct (1 <? i0) eqn:E1; [discriminate|]. injection E as <-. reflexivity.
    + destruct (1 <? i0) eqn:E1; [|injection E as <-; reflexivity].
      assert (Hi' : forall i, In i (map (fun i => i / 2) (i0 :: index)) -> 2 ^ k <= i < 2 ^ S k).
      { intros i H. apply in_map_iff in H as (j & <- & Hj). specialize (Hi j Hj). rewrite (pow2_S (S k)), (pow2_S k) in Hi. rewrite pow2_S.
        set (p := 2 ^ k) in *. clearbody p. pose proof (Nat.div_mod j 2 ltac:(lia)) as D. pose proof (Nat.mod_upper_bound j 2 ltac:(lia)) as D'. lia. }
      apply IH in E; [|discriminate|exact Hi'].
      rewrite E. apply assign_0. intros i H. specialize (Hi' i H). pose proof (pow2_pos k). lia.
Qed.

Lemma st_step_0 s arr o : wf s arr -> tget (st_value (st_step s o)) 0 = tget (st_value s) 0 /\ st_bound (st_step s o) = st_bound s.
Proof.
  intros W. unfold st_step. destruct (st_setitem s (fst o) (snd o)) as [s'|] eqn:E; [|split; reflexivity].
  destruct (legal (st_size s) (fst o) (snd o)) eqn:L; [|destruct (st_setitem_illegal s _ _ L) as [e E']; congruence].
  unfold st_setitem, guard in E. destruct (forallb _ _) in E; [|discriminate]. destruct (forallb _ _) in E; [|discriminate].
  unfold setitem_ in E. destruct (_ =? _) in E; [|discriminate].
  match type of E with bind ?x _ = _ => destruct x as [t|] eqn:Et; [|discriminate] end. cbn [bind] in E. injection E as <-. cbn [st_value st_bound].
  split; [|reflexivity]. unfold legal in L. apply andb_true_iff in L as [L L3]. apply andb_true_iff in L as [L1 L2].
  destruct (wf_bound _ _ W) as [K HK]. pose proof (wf_size _ _ W) as Hsz.
  assert (Hr : forall i, In i (map (fun i => Z.to_nat (i + Z.of_nat (st_bound s))) (fst o)) -> 2 ^ K <= i < 2 ^ S K).
  { intros i Hi. apply in_map_iff in Hi as (z & <- & Hz). rewrite forallb_forall in L3. specialize (L3 z Hz). rewrite pow2_S, <- HK. lia. }
  apply (setitem_loop_0 K) in Et; [|destruct (fst o); [discriminate|discriminate]|exact Hr].
  rewrite Et. apply assign_0. intros i Hi. specialize (Hr i Hi). pose proof (pow2_pos K). lia.
Qed.

Lemma st_run_0 size ops : tget (st_value (st_run size ops)) 0 = 0%Qc /\ st_bound (st_run size ops) = st_bound (st_init size).
Proof.
  unfold st_run. assert (G : forall s arr, wf s arr -> tget (st_value (fold_left st_step ops s)) 0 = tget (st_value s) 0
    /\ st_bound (fold_left st_step ops s) = st_bound s).
  { induction ops as [|o l IH]; intros s arr W; [split; reflexivity|]. cbn [fold_left].
    destruct (st_step_wf s arr o W) as [_ W']. destruct (IH _ _ W') as [A B]. destruct (st_step_0 s arr o W) as [C D]. split; congruence. }
  destruct (G _ _ (wf_init size)) as [A B]. split; [|exact B]. rewrite A. unfold st_init. cbn [st_value]. unfold tget. apply nth_repeat0.
Qed.

Lemma nodes_eq t t' bound : (forall i, 1 <= i < bound -> node_ok t i) -> (forall i, 1 <= i < bound -> node_ok t' i) ->
  (forall i, i < bound -> tget t (bound + i) = tget t' (bound + i)) ->
  forall d i, d = bound * 2 - i -> 1 <= i < bound * 2 -> tget t i = tget t' i.
Proof.
  intros H H' Hl. induction d as [d IH] using lt_wf_ind. intros i E Hi.
  destruct (Nat.ltb_spec i bound) as [Hb|Hb].
  - rewrite (H i), (H' i) by lia. f_equal; [apply (IH (bound * 2 - i * 2))|apply (IH (bound * 2 - (i * 2 + 1)))]; lia.
  - replace i with (bound + (i - bound)) by lia. apply Hl. lia.
Qed.

(** C307.  The tree is a function of the contents of the array: histories that leave the same contents
    leave the same tree. *)
Lemma C307_canonical_lemma : forall size ops ops', spec_run size ops = spec_run size ops' -> st_run size ops = st_run size ops'.
Proof.
  intros size ops ops' E. destruct (st_run_wf size ops) as [S1 W1]. destruct (st_run_wf size ops') as [S2 W2].
  destruct (st_run_0 size ops) as [Z1 B1]. destruct (st_run_0 size ops') as [Z2 B2].
  rewrite <- E in W2. set (s := st_run size ops) in *. set (s' := st_run size ops') in *. clearbody s s'.
  assert (B : st_bound s' = st_bound s) by congruence. assert (V : st_value s = st_value s').
  { apply (nth_ext _ _ 0%Qc 0%Qc).
    - rewrite (wf_len _ _ W1), (wf_len _ _ W2). congruence.
    - intros i Hi. rewrite (wf_len _ _ W1) in Hi. fold (tget (st_value s) i). fold (tget (st_value s') i).
      destruct i as [|i]; [congruence|].
      apply (nodes_eq _ _ (st_bound s) (wf_node _ _ W1)) with (d := st_bound s * 2 - S i); [|intros j Hj|reflexivity|lia].
      + rewrite <- B. apply (wf_node _ _ W2).
      + rewrite (wf_leaf _ _ W1) by exact Hj. rewrite <- B in Hj |- *. rewrite (wf_leaf _ _ W2) by exact Hj. reflexivity. }
  destruct s, s'. cbn in *. congruence.
Qed.

Lemma spec_run_app size ops ops' : spec_run size (ops ++ ops') = fold_left spec_step ops' (spec_run size ops).
Proof. unfold spec_run. apply fold_left_app. Qed.

Lemma write_all_nth : forall index value arr i, length value = length index -> (forall z, In z index -> (0 <= z)%Z) -> ~ In (Z.of_nat i) index ->
  nth_error (write_all arr index value) i = nth_error arr i.
Proof.
  induction index as [|z index IH]; intros [|v value] arr i Hl Hz Hn; try discriminate; [reflexivity|]. cbn [write_all].
  rewrite IH; [|cbn in Hl; lia|intros z' H; apply Hz; right; exact H|intros H; apply Hn; right; exact H].
  rewrite nth_error_upd. destruct (Nat.eqb_spec (Z.to_nat z) i) as [<-|]; [|reflexivity].
  exfalso. apply Hn. left. specialize (Hz z (or_introl eq_refl)). lia.
Qed.
Lemma write_all_app : forall i1 v1 arr i2 v2, length v1 = length i1 ->
  write_all arr (i1 ++ i2) (v1 ++ v2) = write_all (write_all arr i1 v1) i2 v2.
Proof. induction i1 as [|i i1 IH]; intros [|v v1] arr i2 v2 H; try discriminate; [reflexivity|]. cbn. apply IH. cbn in H. lia. Qed.
Lemma write_all_hit : forall index value arr arr' i, length value = length index -> length arr = length arr' -> (forall z, In z index -> (0 <= z)%Z) ->
  In (Z.of_nat i) index -> nth_error (write_all arr index value) i = nth_error (write_all arr' index value) i.
Proof.
  induction index as [|z index IH]; intros [|v value] arr arr' i Hl Ha Hz Hi; try discriminate; [contradiction|]. cbn [write_all].
  destruct (in_dec Z.eq_dec (Z.of_nat i) index) as [Hin|Hout].
  - apply IH; [cbn in Hl; lia|rewrite !upd_length; exact Ha|intros z' H; apply Hz; right; exact H|exact Hin].
  - rewrite !write_all_nth; try (cbn in Hl; lia); try exact Hout; try (intros z' H; apply Hz; right; exact H).
    rewrite !nth_error_upd. destruct Hi as [->|Hi]; [|contradiction]. rewrite Nat2Z.id, Nat.eqb_refl, Ha. cbn [andb].
    destruct (Nat.ltb_spec i (length arr')); [reflexivity|]. rewrite !(proj2 (nth_error_None _ _)) by lia. reflexivity.
Qed.

Lemma legal_parts size index value : legal size index value = true ->
  length value = length index /\ index <> [] /\ forall z, In z index -> (0 <= z < Z.of_nat size)%Z.
Proof.
  unfold legal. intros H. apply andb_true_iff in H as [H H3]. apply andb_true_iff in H as [H1 H2]. rewrite forallb_forall in H3.
  split; [lia|]. split; [intros ->; discriminate|]. intros z Hz. specialize (H3 z Hz). lia.
Qed.
Lemma legal_of size index value : length value = length index -> index <> [] -> (forall z, In z index -> (0 <= z < Z.of_nat size)%Z) ->
  legal size index value = true.
Proof.
  intros H1 H2 H3. unfold legal. rewrite H1, Nat.eqb_refl. destruct index as [|i index]; [contradiction|]. cbn [length Nat.eqb negb andb].
  apply forallb_forall. intros z Hz. specialize (H3 z Hz). lia.
Qed.

(** C307.  Assignments to disjoint sets of indices commute. *)
Lemma C307_commute_lemma : forall size ops i v j w, (forall z, In z i -> ~ In z j) ->
  st_run size (ops ++ [(i, v); (j, w)]) = st_run size (ops ++ [(j, w); (i, v)]).
Proof.
  intros size ops i v j w Hd. apply C307_canonical_lemma. rewrite !spec_run_app. cbn [fold_left].
  pose proof (st_run_len size ops) as Hl. set (arr := spec_run size ops) in *. clearbody arr. unfold spec_step. cbn [fst snd].
  destruct (legal (length arr) i v) eqn:L1, (legal (length arr) j w) eqn:L2; rewrite ?write_all_length, ?L1, ?L2; try reflexivity.
  destruct (legal_parts _ _ _ L1) as (A1 & A2 & A3). destruct (legal_parts _ _ _ L2) as (B1 & B2 & B3).
  assert (P1 : forall z, In z i -> (0 <= z)%Z) by (intros z Hz; specialize (A3 z Hz); lia).
  assert (P2 : forall z, In z j -> (0 <= z)%Z) by (intros z Hz; specialize (B3 z Hz); lia).
  apply nth_error_ext. intros k. destruct (in_dec Z.eq_dec (Z.of_nat k) i) as [Hi|Hi].
  - rewrite write_all_nth by (try assumption; apply Hd, Hi). apply write_all_hit; try assumption. rewrite write_all_length. reflexivity.
  - rewrite (write_all_nth i v) by assumption. destruct (in_dec Z.eq_dec (Z.of_nat k) j) as [Hj|Hj].
    + apply write_all_hit; try assumption. rewrite write_all_length. reflexivity.
    + rewrite !write_all_nth by assumption. reflexivity.
Qed.

(** C307.  Two assignments one after the other are one assignment of the joined arrays. *)
Lemma C307_join_lemma : forall size ops i v j w, legal size i v = true -> legal size j w = true ->
  st_run size (ops ++ [(i, v); (j, w)]) = st_run size (ops ++ [(i ++ j, v ++ w)]).
Proof.
  intros size ops i v j w L1 L2. apply C307_canonical_lemma. rewrite !spec_run_app. cbn [fold_left].
  pose proof (st_run_len size ops) as Hl. set (arr := spec_run size ops) in *. clearbody arr. subst size. unfold spec_step. cbn [fst snd].
  destruct (legal_parts _ _ _ L1) as (A1 & A2 & A3). destruct (legal_parts _ _ _ L2) as (B1 & B2 & B3).
  rewrite L1, write_all_length, L2. rewrite legal_of.
  - symmetry. apply write_all_app. exact A1.
  - rewrite !app_length. lia.
  - destruct i; [contradiction|discriminate].
  - intros z Hz. apply in_app_iff in Hz as [Hz|Hz]; auto.
Qed.

(** ** Sums of slices *)
Lemma firstn_add {T} : forall a b (l : list T), firstn (a + b) l = firstn a l ++ firstn b (skipn a l).
Proof. induction a as [|a IH]; intros b [|x l]; cbn; try reflexivity; [destruct b; reflexivity|]. f_equal. apply IH. Qed.
Lemma skipn_add {T} : forall a b (l : list T), skipn (a + b) l = skipn b (skipn a l).
Proof. induction a as [|a IH]; intros b [|x l]; cbn; try reflexivity; [destruct b; reflexivity|]. apply IH. Qed.
Lemma slice_app arr a b c : a <= b -> b <= c -> (slice_sum arr a b + slice_sum arr b c = slice_sum arr a c)%Qc.
Proof.
  intros H1 H2. unfold slice_sum. rewrite <- qsum_app. f_equal. replace (c - a) with ((b - a) + (c - b)) by lia.
  rewrite firstn_add, <- skipn_add. replace (a + (b - a)) with b by lia. reflexivity.
Qed.
Lemma slice_one arr i : i < length arr -> slice_sum arr i (S i) = nth i arr 0%Qc.
Proof.
  intros H. unfold slice_sum. replace (S i - i) with 1 by lia. revert i H. induction arr as [|x arr IH]; intros i H; [cbn in H; lia|].
  destruct i as [|i]; cbn [skipn firstn qsum nth]; [ring|]. apply IH. cbn in H. lia.
Qed.
Lemma slice_upd : forall arr i x a b, i < length arr -> a <= b ->
  slice_sum (upd arr i x) a b = (slice_sum arr a b + if (a <=? i) && (i <? b) then x - nth i arr 0 else 0)%Qc.
Proof.
  assert (G : forall arr i x n, i < length arr ->
    qsum (firstn n (upd arr i x)) = (qsum (firstn n arr) + if i <? n then x - nth i arr 0 else 0)%Qc).
  { induction arr as [|y arr IH]; intros i x n H; [cbn in H; lia|]. destruct n as [|n]; [cbn; ring|].
    destruct i as [|i]; cbn [upd firstn qsum nth].
    - change (0 <? S n) with true. cbn match. ring.
    - rewrite IH by (cbn in H; lia). change (S i <? S n) with (i <? n). ring. }
  intros arr i x a b H Hab. revert i a b H Hab. induction arr as [|y arr IH]; intros i a b H Hab; [cbn in H; lia|].
  destruct a as [|a].
  - unfold slice_sum. rewrite Nat.sub_0_r. cbn [skipn]. rewrite G by exact H. reflexivity.
  - destruct b as [|b]; [lia|]. destruct i as [|i].
    + unfold slice_sum. cbn [upd skipn]. change ((S a <=? 0) && (0 <? S b)) with false. cbn match. ring.
    + unfold slice_sum in *. cbn [upd skipn]. change (S b - S a) with (b - a). rewrite IH by (cbn in *; lia).
      change ((S a <=? S i) && (S i <? S b)) with ((a <=? i) && (i <? b)). cbn [nth]. reflexivity.
Qed.

(** C308.  Sums of slices add up, and the slice of one index is the entry. *)
Lemma C308_additive_lemma : forall size ops a b c, a <= b -> b <= c -> c <= size ->
  let s := st_run size ops in
  exists x y, st_reduce s (Z.of_nat a) (Some (Z.of_nat b)) = Ok x /\ st_reduce s (Z.of_nat b) (Some (Z.of_nat c)) = Ok y
    /\ st_reduce s (Z.of_nat a) (Some (Z.of_nat c)) = Ok (x + y)%Qc
    /\ (S a <= size -> st_reduce s (Z.of_nat a) (Some (Z.of_nat (S a))) = st_getitem s (Z.of_nat a)).
Proof.
  intros size ops a b c Hab Hbc Hc s. unfold s.
  exists (slice_sum (spec_run size ops) a b), (slice_sum (spec_run size ops) b c).
  repeat match goal with |- _ /\ _ => split end.
  - apply C14_reduce_is_slice_sum_lemma; auto; lia.
  - apply C14_reduce_is_slice_sum_lemma; auto; lia.
  - rewrite slice_app by assumption. apply C14_reduce_is_slice_sum_lemma; auto; lia.
  - intros Ha. rewrite (C14_reduce_is_slice_sum_lemma size ops a (S a) (Some (Z.of_nat (S a)))) by (auto; lia).
    destruct (C13_node_sums_and_reads_lemma size ops) as (_ & R & _). rewrite R by lia. f_equal. apply slice_one. rewrite st_run_len. lia.
Qed.

(** C308.  Writing one entry changes the sum of a slice by the difference if the entry is in it, and
    otherwise not at all. *)
Lemma C308_delta_lemma : forall size ops i x a b, i < size -> a <= b -> b <= size ->
  exists old before, st_getitem (st_run size ops) (Z.of_nat i) = Ok old
    /\ st_reduce (st_run size ops) (Z.of_nat a) (Some (Z.of_nat b)) = Ok before
    /\ st_reduce (st_run size (ops ++ [([Z.of_nat i], [x])])) (Z.of_nat a) (Some (Z.of_nat b))
       = Ok (before + if (a <=? i) && (i <? b) then x - old else 0)%Qc.
Proof.
  intros size ops i x a b Hi Hab Hb.
  exists (nth i (spec_run size ops) 0%Qc), (slice_sum (spec_run size ops) a b).
  repeat match goal with |- _ /\ _ => split end.
  - destruct (C13_node_sums_and_reads_lemma size ops) as (_ & R & _). apply R. exact Hi.
  - apply C14_reduce_is_slice_sum_lemma; auto; lia.
  - rewrite (C14_reduce_is_slice_sum_lemma _ _ a b) by (auto; lia). f_equal. rewrite spec_run_app. cbn [fold_left]. unfold spec_step. cbn [fst snd].
    rewrite st_run_len. rewrite legal_of; [|reflexivity|discriminate|intros z [<-|[]]; lia].
    cbn [write_all]. rewrite Nat2Z.id. apply slice_upd; [rewrite st_run_len; exact Hi|exact Hab].
Qed.

(** ** Draws *)
Lemma prefix_one size ops v : let arr := spec_run size ops in
  (forall i, i < size -> (0 <= nth i arr 0)%Qc) -> (0 <= v)%Qc -> (v < slice_sum arr 0 size)%Qc ->
  exists j, st_prefix (st_run size ops) [v] = Ok [j] /\ j < size /\ (v <= slice_sum arr 0 (S j))%Qc
    /\ (forall j', j' < j -> (slice_sum arr 0 (S j') < v)%Qc).
Proof.
  intros arr Hn H0 H1. destruct (C15_prefix_sum_idx_lemma size ops [v]) as (js & E & F); [discriminate|exact Hn|intros u [<-|[]]; auto|].
  inversion F as [|? j ? l (A & B & C & _) F']; subst. inversion F'; subst. exists j. auto.
Qed.

Lemma slice_mono arr a b : (forall i, i < length arr -> (0 <= nth i arr 0)%Qc) -> a <= b -> b <= length arr ->
  (slice_sum arr 0 a <= slice_sum arr 0 b)%Qc.
Proof.
  intros H Hab Hb. rewrite <- !psum_slice by lia. apply psum_mono; [|exact Hab]. intros i.
  destruct (Nat.ltb_spec i (length arr)); [auto|]. rewrite nth_overflow by lia. discriminate.
Qed.

(** C309.  On non-negative entries a positive query gets index [j] exactly when it lies above the sum of
    the entries before [j] and not above the sum including [j]: an interval as long as the entry. *)
Lemma C309_interval_lemma : forall size ops v j,
  let arr := spec_run size ops in
  (forall i, i < size -> (0 <= nth i arr 0)%Qc) -> (0 < v)%Qc -> (v < slice_sum arr 0 size)%Qc -> j < size ->
  (st_prefix (st_run size ops) [v] = Ok [j] <-> (slice_sum arr 0 j < v)%Qc /\ (v <= slice_sum arr 0 j + nth j arr 0)%Qc).
Proof.
  intros size ops v j arr Hn H0 H1 Hj. assert (Hlen : length arr = size) by apply st_run_len.
  destruct (prefix_one size ops v Hn (Qclt_le_weak _ _ H0) H1) as (k & E & Hk & A & B). fold arr in A, B.
  rewrite E. assert (S1 : forall i, i < size -> (slice_sum arr 0 i + nth i arr 0 = slice_sum arr 0 (S i))%Qc).
  { intros i Hi. rewrite <- slice_one by lia. apply slice_app; lia. }
  assert (Bk : (slice_sum arr 0 k < v)%Qc) by (destruct k as [|k]; [exact H0|apply B; lia]).
  rewrite S1 by exact Hj. split.
  - intros X. injection X as <-. split; assumption.
  - intros [C D]. f_equal. f_equal. destruct (Nat.lt_trichotomy k j) as [Hkj|[Hkj|Hkj]]; [|exact Hkj|].
    + exfalso. assert (M : (slice_sum arr 0 (S k) <= slice_sum arr 0 j)%Qc) by (apply slice_mono; [rewrite Hlen; exact Hn|lia|lia]). qclra.
    + exfalso. specialize (B j Hkj). qclra.
Qed.

(** C309.  Greater queries never get smaller indices. *)
Lemma C309_monotone_lemma : forall size ops v w j k,
  let arr := spec_run size ops in
  (forall i, i < size -> (0 <= nth i arr 0)%Qc) -> (0 <= v)%Qc -> (v <= w)%Qc -> (w < slice_sum arr 0 size)%Qc ->
  st_prefix (st_run size ops) [v] = Ok [j] -> st_prefix (st_run size ops) [w] = Ok [k] -> j <= k.
Proof.
  intros size ops v w j k arr Hn H0 Hvw H1 E1 E2.
  destruct (prefix_one size ops v Hn H0 ltac:(fold arr; qclra)) as (j' & E & Hj & A & B). rewrite E in E1. injection E1 as ->.
  destruct (prefix_one size ops w Hn ltac:(qclra) H1) as (k' & E' & Hk & A' & B'). rewrite E' in E2. injection E2 as ->.
  fold arr in A, B, A', B'. destruct (Nat.le_gt_cases j k) as [H|H]; [exact H|]. specialize (B k H). qclra.
Qed.

(** C309.  A query with an array is the queries with its entries one by one. *)
Lemma C309_vectorised_lemma : forall size ops vs js,
  let arr := spec_run size ops in
  (forall i, i < size -> (0 <= nth i arr 0)%Qc) -> vs <> [] ->
  (st_prefix (st_run size ops) vs = Ok js <-> Forall2 (fun v j => st_prefix (st_run size ops) [v] = Ok [j]) vs js).
Proof.
  intros size ops vs js arr Hn Hne.
  destruct (forallb (fun v => Qcleb 0 v && Qcltb v (slice_sum arr 0 size)) vs) eqn:Ev.
  - assert (Hv : forall v, In v vs -> (0 <= v)%Qc /\ (v < slice_sum arr 0 size)%Qc).
    { intros v Hv. rewrite forallb_forall in Ev. specialize (Ev v Hv). apply andb_true_iff in Ev as [E1 E2].
      destruct (Qcleb_spec 0 v); [|discriminate]. destruct (Qcltb_spec v (slice_sum arr 0 size)); [|discriminate]. auto. }
    destruct (C15_prefix_sum_idx_lemma size ops vs Hne Hn Hv) as (ks & E & F). rewrite E.
    assert (G : Forall2 (fun v j => st_prefix (st_run size ops) [v] = Ok [j]) vs ks).
    { clear E Ev Hne. induction F as [|v k vs ks (A & B & C & _) F IH]; [constructor|]. constructor; [|apply IH; intros u Hu; apply Hv; right; exact Hu].
      destruct (Hv v (or_introl eq_refl)) as [H0 H1]. destruct (prefix_one size ops v Hn H0 H1) as (j & Ej & Hj & A' & B').
      rewrite Ej. f_equal. f_equal. fold arr in A', B'. destruct (Nat.lt_trichotomy j k) as [Hjk|[Hjk|Hjk]]; [|exact Hjk|].
      + specialize (C j Hjk). exfalso. fold arr in C. clear - C A'. qclra.
      + specialize (B' k Hjk). exfalso. fold arr in B. clear - B B'. qclra. }
    split.
    + intros X. injection X as <-. exact G.
    + intros F'. f_equal. clear - G F'. revert js F'. induction G as [|v k vs ks H G IH]; intros js F'; inversion F'; subst; [reflexivity|].
      f_equal; [congruence|apply IH; assumption].
  - assert (X : exists v, In v vs /\ ((v < 0)%Qc \/ (slice_sum arr 0 size <= v)%Qc)).
    { clear - Ev. induction vs as [|v vs IH]; [discriminate|]. cbn [forallb] in Ev. apply andb_false_iff in Ev as [Ev|Ev].
      - exists v. split; [left; reflexivity|]. destruct (Qcleb_spec 0 v) as [?|?]; [|left; assumption]. cbn [andb] in Ev.
        destruct (Qcltb_spec v (slice_sum arr 0 size)); [discriminate|]. right. assumption.
      - destruct (IH Ev) as (u & Hu & H). exists u. split; [right; exact Hu|exact H]. }
    destruct X as (v & Hin & Hbad). rewrite (C15_prefix_rejects_lemma size ops vs v Hin Hbad). split; [discriminate|].
    intros F. exfalso. clear Ev Hne. induction F as [|u j vs js H F IH]; [destruct Hin|]. destruct Hin as [->|Hin]; [|exact (IH Hin)].
    rewrite (C15_prefix_rejects_lemma size ops [v] v (or_introl eq_refl) Hbad) in H. discriminate.
Qed.

(** C310.  Prioritized sampling draws every index for a share of the uniform draws equal to its share of
    the total weight. *)
Lemma C310_share_lemma : forall size ops pmax pmin u j,
  let arr := spec_run size ops in
  let total := slice_sum arr 0 size in
  let p := mkPrio (st_run size ops) pmax pmin in
  (forall i, i < size -> (0 <= nth i arr 0)%Qc) -> (0 < total)%Qc -> (0 < u < 1)%Qc -> j < size ->
  let before := (slice_sum arr 0 j / total)%Qc in
  (prio_draw p [u] = Ok [j] <-> (before < u)%Qc /\ (u <= before + nth j arr 0 / total)%Qc).
Proof.
  intros size ops pmax pmin u j arr total p Hn Ht Hu Hj before.
  assert (Hlen : length arr = size) by apply st_run_len.
  unfold prio_draw. change (p_tree p) with (st_run size ops).
  change (st_reduce (st_run size ops) 0 None) with (st_reduce (st_run size ops) (Z.of_nat 0) None).
  rewrite (C14_reduce_is_slice_sum_lemma size ops 0 size None) by (auto; lia). fold arr total. cbn [bind map].
  assert (Hut : (0 < u * total)%Qc /\ (u * total < total)%Qc) by (clear - Ht Hu; split; qcnra).
  rewrite (C309_interval_lemma size ops (u * total)%Qc j Hn (proj1 Hut) (proj2 Hut) Hj). fold arr.
  assert (Hi : (total * / total = 1)%Qc) by (apply Qcmult_inv_r; intros E; rewrite E in Ht; discriminate Ht).
  unfold before, Qcdiv. set (i := (/ total)%Qc) in *. set (a := slice_sum arr 0 j). set (x := nth j arr 0%Qc).
  assert (Hip : (0 < i)%Qc).
  { destruct (Qcltb_spec 0 i) as [H|H]; [exact H|]. exfalso. clear - Hi H Ht. qcnra. }
  assert (Ea : a = (a * i * total)%Qc) by (transitivity (a * (total * i))%Qc; [rewrite Hi; ring|ring]).
  assert (Ex : x = (x * i * total)%Qc) by (transitivity (x * (total * i))%Qc; [rewrite Hi; ring|ring]).
  set (a' := (a * i)%Qc) in *. set (x' := (x * i)%Qc) in *. rewrite Ea, Ex. clearbody a' x' i total. clear - Ht.
  split; intros [H1 H2]; split.
  - destruct (Qcltb_spec a' u) as [H|H]; [exact H|]. exfalso. qcnra.
  - destruct (Qcleb_spec u (a' + x')) as [H|H]; [exact H|]. exfalso. qcnra.
  - qcnra.
  - qcnra.
Qed.
