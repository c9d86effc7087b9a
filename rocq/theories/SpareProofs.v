From Verif Require Import Py PyLemmas BufferModel BufferSpec BufferProofs BufferWalkProofs BufferMainProofs ManagerModel ManagerSpec ManagerProofs ManagerMainProofs SpareSpec.
Open Scope nat_scope.
Section Spare.
Context {Ob A Inf R : Type}.
Notation aop := (aop Ob A Inf R).
Notation buf := (buf Ob A Inf R).
Lemma roomy_count n : forall (ops : list aop) c, c <= n -> roomy n c ops -> count_from c ops <= n.
Proof. induction ops as [|[t|keep] ops IH]; intros c Hc H; cbn [count_from roomy] in *; [exact Hc|apply IH; tauto|apply IH; [lia|exact H]]. Qed.
Lemma roomy_queue (last_frame : Ob -> Ob) o n n' : forall (ops : list aop) q, roomy n (length q) ops -> roomy n' (length q) ops -> queue_from last_frame o n q ops = queue_from last_frame o n' q ops.
Proof.
  induction ops as [|[t|keep] ops IH]; intros q H H'; cbn [queue_from roomy] in *; [reflexivity|..].
  - assert (E : forall k, S (length q) <= k -> push k q [kept last_frame o t] = q ++ [kept last_frame o t]).
    { intros k Hk. unfold push, lastn. replace (length (q ++ [kept last_frame o t]) - k) with 0; [reflexivity|]. rewrite app_length. cbn [length]. lia. }
    rewrite !E by tauto. apply IH; rewrite app_length; cbn [length]; rewrite Nat.add_1_r; tauto.
  - apply IH; assumption.
Qed.
Lemma roomy_epi (r0 : R) radd n n' : forall (ops : list aop) e, e_start e <= e_cnt e -> roomy n (e_cnt e) ops -> roomy n' (e_cnt e) ops ->
  epi_run r0 radd n e ops = epi_run r0 radd n' e ops.
Proof.
  induction ops as [|[t|keep] ops IH]; intros e He H H'; cbn [epi_run epi_step roomy] in *; [reflexivity|..].
  - destruct H as [H1 H2], H' as [H1' H2']. rewrite !(Nat.mod_small (e_cnt e)), !(Nat.mod_small (e_start e)) by lia.
    destruct (t_term t || t_trunc t); rewrite IH; cbn [e_cnt e_start]; auto.
  - rewrite IH; cbn [e_cnt e_start]; auto.
Qed.
Lemma unwrapped n (b : buf) q c : inv n b q -> ins (b_st b) = c mod n -> size (b_st b) = Nat.min c n -> c <= n -> (forall p, p < length q -> zpos b p = Z.of_nat p) /\ all_indices (b_st b) = seq 0 (length q).
Proof.
  intros Hi H1 H2 Hc. pose proof (i_s _ _ _ Hi) as Hs. pose proof (i_len _ _ _ Hi) as Hl.
  assert (P : forall p, p < length q -> pos (b_st b) p = p).
  { intros p Hp. rewrite (pos_place n (b_st b) c p) by (try assumption; lia). replace (c - Nat.min c n + p) with p by lia. apply Nat.mod_small. lia. }
  split; [intros p Hp; unfold zpos; rewrite P by exact Hp; reflexivity|]. rewrite (all_indices_pos n) by exact Hs. rewrite <- Hl.
  rewrite <- (map_id (seq 0 (length q))) at 2. apply map_ext_in. intros p Hp. apply in_seq in Hp. apply P. lia.
Qed.
Lemma zpos_map (b : buf) (q : list (slot Ob A Inf R)) ps : (forall p, p < length q -> zpos b p = Z.of_nat p) -> (forall p, In p ps -> p < length q) -> map (zpos b) ps = map Z.of_nat ps.
Proof. intros H Hp. apply map_ext_in. intros p Ip. apply H, Hp, Ip. Qed.
Lemma in_range q : forall index, (forall i, In i index -> (0 <= i < Z.of_nat q)%Z) -> exists ps, index = map Z.of_nat ps /\ forall p, In p ps -> p < q.
Proof.
  intros index H. exists (map Z.to_nat index). split.
  - rewrite map_map, <- (map_id index) at 1. apply map_ext_in. intros i Hi. specialize (H i Hi). lia.
  - intros p Hp. apply in_map_iff in Hp. destruct Hp as (i & <- & Hi). specialize (H i Hi). lia.
Qed.
Section Two.
Variables (n n' : nat) (b b' : buf) (q : list (slot Ob A Inf R)).
Hypothesis Hi : inv n b q.
Hypothesis Hi' : inv n' b' q.
Hypothesis Hz : forall p, p < length q -> zpos b p = Z.of_nat p.
Hypothesis Hz' : forall p, p < length q -> zpos b' p = Z.of_nat p.
Hypothesis Hne : q <> [].
Lemma two_prev ps : (forall p, In p ps -> p < length q) -> prev b (map Z.of_nat ps) = Ok (map Z.of_nat (map (pred_of q) ps)) /\ prev b' (map Z.of_nat ps) = Ok (map Z.of_nat (map (pred_of q) ps)).
Proof.
  intros Hp. rewrite <- (zpos_map b q ps Hz Hp) at 1. rewrite <- (zpos_map b' q ps Hz' Hp) at 1. rewrite (prev_ok n b q ps Hi Hne Hp), (prev_ok n' b' q ps Hi' Hne Hp).
  rewrite map_map. split; f_equal; apply map_ext_in; intros p Ip; [apply Hz|apply Hz']; apply pred_of_lt, Hp, Ip.
Qed.
Lemma two_next ps : (forall p, In p ps -> p < length q) -> next b (map Z.of_nat ps) = Ok (map Z.of_nat (map (succ_of q) ps)) /\ next b' (map Z.of_nat ps) = Ok (map Z.of_nat (map (succ_of q) ps)).
Proof.
  intros Hp. rewrite <- (zpos_map b q ps Hz Hp) at 1. rewrite <- (zpos_map b' q ps Hz' Hp) at 1. rewrite (next_ok n b q ps Hi Hne Hp), (next_ok n' b' q ps Hi' Hne Hp).
  rewrite map_map. split; f_equal; apply map_ext_in; intros p Ip; [apply Hz|apply Hz']; apply succ_of_lt, Hp, Ip.
Qed.
Lemma two_rows ps : (forall p, In p ps -> p < length q) -> rows_at b (map Z.of_nat ps) = Ok (map (fun p => nth_error q p) ps) /\ rows_at b' (map Z.of_nat ps) = Ok (map (fun p => nth_error q p) ps).
Proof.
  intros Hp. pose proof (rows_at_stored n b q ps Hi Hne Hp) as E. pose proof (rows_at_stored n' b' q ps Hi' Hne Hp) as E'. rewrite map_map in E, E'.
  change (fun x => Z.of_nat (pos (b_st b) x)) with (zpos b) in E. change (fun x => Z.of_nat (pos (b_st b') x)) with (zpos b') in E'.
  rewrite (zpos_map b q ps Hz Hp) in E. rewrite (zpos_map b' q ps Hz' Hp) in E'. split; assumption.
Qed.
Lemma two_get k ps : 0 < k -> (forall p, In p ps -> p < length q) -> get_rows b k (map Z.of_nat ps) = Ok (map (frames q k) ps) /\ get_rows b' k (map Z.of_nat ps) = Ok (map (frames q k) ps).
Proof.
  intros Hk Hp. rewrite <- (zpos_map b q ps Hz Hp) at 1. rewrite <- (zpos_map b' q ps Hz' Hp) at 1. rewrite (get_rows_ok n b q k ps Hi Hne Hk Hp), (get_rows_ok n' b' q k ps Hi' Hne Hk Hp). auto.
Qed.
Lemma two_item o ps : 0 < stack_num o -> (forall p, In p ps -> p < length q) -> getitem o b (map Z.of_nat ps) = getitem o b' (map Z.of_nat ps) /\ is_ok (getitem o b (map Z.of_nat ps)) = true.
Proof.
  intros Hk Hp. unfold getitem. destruct (two_get (stack_num o) ps Hk Hp) as (-> & ->). cbn [bind]. destruct (two_rows ps Hp) as (-> & ->). destruct (two_next ps Hp) as (-> & ->).
  assert (Hp' : forall p, In p (map (succ_of q) ps) -> p < length q) by (intros p Ip; apply in_map_iff in Ip; destruct Ip as (x & <- & Ix); apply succ_of_lt, Hp, Ix).
  destruct (save_obs_next o); cbn [bind]; [split; reflexivity|]. destruct (two_get (stack_num o) _ Hk Hp') as (-> & ->). cbn [bind]. split; reflexivity.
Qed.
Lemma two_prev_n : forall k ps, (forall p, In p ps -> p < length q) -> exists ps', prev_n b k (map Z.of_nat ps) = Ok (map Z.of_nat ps') /\ prev_n b' k (map Z.of_nat ps) = Ok (map Z.of_nat ps') /\ forall p, In p ps' -> p < length q.
Proof.
  induction k as [|k IH]; intros ps Hp; cbn [prev_n]; [exists ps; auto|]. destruct (two_prev ps Hp) as (-> & ->). cbn [bind]. apply IH.
  intros p Ip. apply in_map_iff in Ip. destruct Ip as (x & <- & Ix). apply pred_of_lt, Hp, Ix.
Qed.
Lemma two_sample o rnd bs : all_indices (b_st b) = seq 0 (length q) -> all_indices (b_st b') = seq 0 (length q) -> sample_indices o b rnd bs = sample_indices o b' rnd bs.
Proof.
  intros E E'. unfold sample_indices. rewrite E, E', <- (i_len _ _ _ Hi), <- (i_len _ _ _ Hi'). destruct ((stack_num o =? 1) || negb (sample_avail o)); [reflexivity|].
  destruct (_ <? 0)%Z; [reflexivity|]. destruct (two_prev_n (stack_num o - 2) (seq 0 (length q))) as (ps' & -> & -> & Hp'); [intros p Hp; apply in_seq in Hp; lia|]. cbn [bind].
  destruct (two_prev ps' Hp') as (-> & ->). reflexivity.
Qed.
End Two.
End Spare.

(** C374. As long as no row is overwritten the capacity of a replay buffer makes no difference: the additions report the same, and the same indices hold, show and precede the same rows. *)
Lemma C374_capacity_lemma : forall (Ob A Inf R : Type) (r0 : R) radd (last_frame : Ob -> Ob) o n n' (ops : list (aop Ob A Inf R)),
  0 < n -> 0 < n' -> 0 < stack_num o -> roomy n 0 ops -> roomy n' 0 ops ->
  exists b b' outs, buf_run r0 radd last_frame o (buf_init r0 n) ops = Ok (b, outs) /\ buf_run r0 radd last_frame o (buf_init r0 n') ops = Ok (b', outs)
  /\ size (b_st b) = size (b_st b') /\ size (b_st b) = count_from 0 ops
  /\ (0 < size (b_st b) ->
      (forall rnd bs, sample_indices o b rnd bs = sample_indices o b' rnd bs)
      /\ forall index, (forall i, In i index -> (0 <= i < Z.of_nat (size (b_st b)))%Z) ->
           rows_at b index = rows_at b' index /\ getitem o b index = getitem o b' index /\ prev b index = prev b' index /\ next b index = next b' index
           /\ is_ok (getitem o b index) = true /\ is_ok (prev b index) = true /\ is_ok (next b index) = true).
Proof.
  intros Ob A Inf R r0 radd last_frame o n n' ops Hn Hn' Hk H H'.
  destruct (C02_episode_report_lemma _ _ _ _ r0 radd last_frame o n ops Hn) as (b & E). destruct (C02_episode_report_lemma _ _ _ _ r0 radd last_frame o n' ops Hn') as (b' & E').
  rewrite <- (roomy_epi r0 radd n n' ops epi0 (le_n 0) H H') in E'. exists b, b'. eexists. split; [exact E|]. split; [exact E'|].
  pose proof (buf_run_inv r0 radd last_frame o n _ _ [] _ _ (inv_init r0 n Hn) E) as Hi. pose proof (buf_run_inv r0 radd last_frame o n' _ _ [] _ _ (inv_init r0 n' Hn') E') as Hi'.
  rewrite (roomy_queue last_frame o n' n ops [] H' H) in Hi'. change (queue_from last_frame o n [] ops) with (queue last_frame o n ops) in *. set (q := queue last_frame o n ops) in *.
  assert (Z0 : forall k, 0 < k -> ins (b_st (buf_init (Ob := Ob) (A := A) (Inf := Inf) r0 k)) = 0 mod k) by (intros k Hk'; cbn; rewrite Nat.mod_0_l by lia; reflexivity).
  pose proof (buf_run_count r0 radd last_frame o n ops _ [] 0 b _ (inv_init r0 n Hn) (Z0 n Hn) eq_refl E) as (C1 & C2).
  pose proof (buf_run_count r0 radd last_frame o n' ops _ [] 0 b' _ (inv_init r0 n' Hn') (Z0 n' Hn') eq_refl E') as (C1' & C2').
  pose proof (roomy_count n ops 0 (Nat.le_0_l n) H) as Hc. pose proof (roomy_count n' ops 0 (Nat.le_0_l n') H') as Hc'.
  destruct (unwrapped n b q _ Hi C1 C2 Hc) as (U1 & U2). destruct (unwrapped n' b' q _ Hi' C1' C2' Hc') as (U1' & U2').
  split; [lia|]. split; [lia|]. intros Hpos. pose proof (i_len _ _ _ Hi) as Hl. assert (Hne : q <> []) by (intros Q; rewrite Q in Hl; cbn in Hl; lia). split.
  - intros rnd bs. apply (two_sample n n' b b' q Hi Hi' U1 U1' Hne o rnd bs U2 U2').
  - intros index Hx. rewrite <- Hl in Hx. destruct (in_range (length q) index Hx) as (ps & -> & Hp).
    destruct (two_rows n n' b b' q Hi Hi' U1 U1' Hne ps Hp) as (-> & ->). destruct (two_prev n n' b b' q Hi Hi' U1 U1' Hne ps Hp) as (-> & ->).
    destruct (two_next n n' b b' q Hi Hi' U1 U1' Hne ps Hp) as (-> & ->). destruct (two_item n n' b b' q Hi Hi' U1 U1' Hne o ps Hk Hp) as (I1 & I2). repeat split; assumption.
Qed.
(** C374. The same for the parts of vector buffers. *)
Lemma C374_vector_lemma : forall (Ob A Inf R : Type) (r0 : R) radd (last_frame : Ob -> Ob) o ns ns' (ops : list (mop Ob A Inf R)) m m' outs outs' ps,
  (forall n, In n ns -> 0 < n) -> (forall n, In n ns' -> 0 < n) -> 0 < stack_num o -> length ns' = length ns ->
  (forall k n, nth_error ns k = Some n -> roomy n 0 (proj (length ns) k ops)) -> (forall k n, nth_error ns' k = Some n -> roomy n 0 (proj (length ns) k ops)) ->
  m_run r0 radd last_frame o (m_init r0 ns) ops = Ok (m, outs) -> m_run r0 radd last_frame o (m_init r0 ns') ops = Ok (m', outs') ->
  ps <> [] -> (forall x, In x ps -> snd x < length (mqueue last_frame o ns ops (fst x))) ->
  let addr x := Z.of_nat (off ns (fst x) + snd x) in let addr' x := Z.of_nat (off ns' (fst x) + snd x) in
  m_lens m = m_lens m'
  /\ m_rows_at m (map addr ps) = m_rows_at m' (map addr' ps)
  /\ m_getitem o m (map addr ps) = m_getitem o m' (map addr' ps)
  /\ (exists pp, m_prev m (map addr ps) = Ok (map addr pp) /\ m_prev m' (map addr' ps) = Ok (map addr' pp))
  /\ (exists pp, m_next m (map addr ps) = Ok (map addr pp) /\ m_next m' (map addr' ps) = Ok (map addr' pp)).
Proof.
  intros Ob A Inf R r0 radd last_frame o ns ns' ops m m' outs outs' ps Hn Hn' Hs Hlen H H' E E' Hne Hps addr addr'.
  assert (Hq : forall k, mqueue last_frame o ns' ops k = mqueue last_frame o ns ops k).
  { intros k. unfold mqueue. rewrite Hlen. destruct (nth_error ns k) as [n|] eqn:Ek.
    - assert (k < length ns) by (apply nth_error_Some; congruence). destruct (nth_error ns' k) as [n'|] eqn:Ek'; [|apply nth_error_None in Ek'; lia].
      apply roomy_queue; cbn [length]; [apply (H' k n' Ek')|apply (H k n Ek)].
    - apply nth_error_None in Ek. rewrite <- Hlen in Ek. apply nth_error_None in Ek. rewrite Ek. reflexivity. }
  assert (Hql : forall ns0 k p, length ns0 = length ns -> (forall k n, nth_error ns0 k = Some n -> roomy n 0 (proj (length ns) k ops)) -> p < length (mqueue last_frame o ns0 ops k) ->
     length (mqueue last_frame o ns0 ops k) <= count_from 0 (proj (length ns) k ops) -> maddress ns0 ops (k, p) = off ns0 k + p).
  { intros ns0 k p L0 R0 Hp Hc. unfold maddress, place. cbn [fst snd]. rewrite L0. unfold mqueue in Hp. destruct (nth_error ns0 k) as [n|] eqn:Ek; [|cbn in Hp; lia].
    rewrite (nth_error_nth ns0 k 0 Ek). pose proof (roomy_count n _ 0 (Nat.le_0_l n) (R0 k n Ek)) as B. unfold mqueue in Hc. rewrite Ek in Hc.
    f_equal. replace (count_from 0 (proj (length ns) k ops) - Nat.min (count_from 0 (proj (length ns) k ops)) n + p) with p by lia. apply Nat.mod_small. lia. }
  assert (Hcnt : forall n q (l : list (aop Ob A Inf R)), length (queue_from last_frame o n q l) <= count_from (length q) l).
  { intros n q l. revert q. induction l as [|[t|keep] l IH]; intros q; cbn [queue_from count_from]; [lia| |apply IH].
    etransitivity; [apply IH|]. assert (M : forall (l : list (aop Ob A Inf R)) a c, a <= c -> count_from a l <= count_from c l).
    { clear. induction l as [|[t|keep] l IH]; intros a c Hac; cbn [count_from]; [lia|apply IH; lia|lia]. }
    apply M. unfold push. rewrite lastn_length, app_length. cbn [length]. lia. }
  assert (Hcm : forall ns0 k, length ns0 = length ns -> length (mqueue last_frame o ns0 ops k) <= count_from 0 (proj (length ns) k ops)).
  { intros ns0 k L0. unfold mqueue. rewrite L0. destruct (nth_error ns0 k); [|cbn; lia]. unfold queue. apply (Hcnt _ []). }
  assert (Ha : forall x, snd x < length (mqueue last_frame o ns ops (fst x)) -> Z.of_nat (maddress ns ops x) = addr x).
  { intros [k p] Hx. cbn [fst snd] in Hx. unfold addr. cbn [fst snd]. f_equal. apply Hql; auto. }
  assert (Ha' : forall x, snd x < length (mqueue last_frame o ns ops (fst x)) -> Z.of_nat (maddress ns' ops x) = addr' x).
  { intros [k p] Hx. cbn [fst snd] in Hx. unfold addr'. cbn [fst snd]. f_equal. apply Hql; auto. rewrite Hq. exact Hx. }
  assert (Hps' : forall x, In x ps -> snd x < length (mqueue last_frame o ns' ops (fst x))) by (intros x Hx; rewrite Hq; apply Hps, Hx).
  destruct (run_view r0 radd last_frame o ns ops m outs Hn E) as (_ & _ & _ & L1 & _). destruct (run_view r0 radd last_frame o ns' ops m' outs' Hn' E') as (_ & _ & _ & L2 & _).
  split; [rewrite L1, L2, Hlen, !map_map; apply map_ext; intros k; rewrite Hq; reflexivity|].
  destruct (C08_content_lemma _ _ _ _ r0 radd last_frame o ns ops m outs ps Hn E) as (_ & R1). specialize (R1 Hne Hps).
  destruct (C08_content_lemma _ _ _ _ r0 radd last_frame o ns' ops m' outs' ps Hn' E') as (_ & R2). specialize (R2 Hne Hps').
  pose proof (C57_stacking_lemma _ _ _ _ r0 radd last_frame o ns ops m outs ps Hn Hs E Hne Hps) as G1.
  pose proof (C57_stacking_lemma _ _ _ _ r0 radd last_frame o ns' ops m' outs' ps Hn' Hs E' Hne Hps') as G2.
  destruct (C09_prev_next_lemma _ _ _ _ r0 radd last_frame o ns ops m outs ps Hn E Hne Hps) as (P1 & Q1).
  destruct (C09_prev_next_lemma _ _ _ _ r0 radd last_frame o ns' ops m' outs' ps Hn' E' Hne Hps') as (P2 & Q2).
  cbn zeta in *.
  assert (Eta : forall ns0 l, map (fun x => Z.of_nat (maddress ns0 ops (fst x, snd x))) l = map (fun x => Z.of_nat (maddress ns0 ops x)) l) by (intros ns0 l; apply map_ext; intros [k p]; reflexivity).
  rewrite Eta in P1, P2, Q1, Q2.
  assert (Ei : map addr ps = map (fun x => Z.of_nat (maddress ns ops x)) ps) by (apply map_ext_in; intros x Hx; symmetry; apply Ha, Hps, Hx).
  assert (Ei' : map addr' ps = map (fun x => Z.of_nat (maddress ns' ops x)) ps) by (apply map_ext_in; intros x Hx; symmetry; apply Ha', Hps, Hx).
  rewrite Ei, Ei'. split; [rewrite R1, R2; f_equal; apply map_ext; intros x; rewrite Hq; reflexivity|].
  split; [rewrite G1, G2; f_equal; apply map_ext; intros x; rewrite Hq; reflexivity|]. split.
  - exists (map (fun x => (fst x, pred_of (mqueue last_frame o ns ops (fst x)) (snd x))) ps). rewrite P1, P2, !map_map. split; f_equal; apply map_ext_in; intros x Hx; [|rewrite Hq]; [apply Ha|apply Ha']; cbn [fst snd]; apply pred_of_lt, Hps, Hx.
  - exists (map (fun x => (fst x, succ_of (mqueue last_frame o ns ops (fst x)) (snd x))) ps). rewrite Q1, Q2, !map_map. split; f_equal; apply map_ext_in; intros x Hx; [|rewrite Hq]; [apply Ha|apply Ha']; cbn [fst snd]; apply succ_of_lt, Hps, Hx.
Qed.
