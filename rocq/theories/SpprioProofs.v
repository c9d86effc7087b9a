(** * Proofs: spare capacity of a prioritized buffer *)
From Verif Require Import Py PyLemmas Num SegTreeSpec PrioModel PrioSpec PrioProofs PrioMainProofs.
Open Scope nat_scope.

Lemma qsum_S : forall (l : list Qc) k, qsum (firstn (S k) l) = (qsum (firstn k l) + nth k l 0)%Qc.
Proof.
  induction l as [|x l IH]; intros k; [rewrite !firstn_nil; destruct k; cbn; ring|]. destruct k as [|k]; [cbn; ring|].
  change (firstn (S (S k)) (x :: l)) with (x :: firstn (S k) l). change (firstn (S k) (x :: l)) with (x :: firstn k l). change (nth (S k) (x :: l) 0%Qc) with (nth k l 0%Qc).
  change (qsum (x :: firstn (S k) l)) with (x + qsum (firstn (S k) l))%Qc. change (qsum (x :: firstn k l)) with (x + qsum (firstn k l))%Qc. rewrite IH. ring.
Qed.
Lemma sums_alike (l l' : list Qc) : (forall i, nth i l 0%Qc = nth i l' 0%Qc) -> forall k, slice_sum l 0 k = slice_sum l' 0 k.
Proof.
  intros H k. unfold slice_sum. rewrite Nat.sub_0_r. cbn [skipn]. induction k as [|k IH]; [reflexivity|]. rewrite !qsum_S, IH, H. reflexivity.
Qed.
Lemma slice_over (l : list Qc) k : length l <= k -> slice_sum l 0 k = slice_sum l 0 (length l).
Proof. intros H. unfold slice_sum. rewrite !Nat.sub_0_r. cbn [skipn]. rewrite !firstn_all2 by lia. reflexivity. Qed.
Lemma totals_alike (l l' : list Qc) : (forall i, nth i l 0%Qc = nth i l' 0%Qc) -> slice_sum l 0 (length l) = slice_sum l' 0 (length l').
Proof.
  intros H. rewrite <- (slice_over l (length l + length l')) by lia. rewrite <- (slice_over l' (length l + length l')) by lia. apply sums_alike, H.
Qed.
Lemma law_one (l l' : list Qc) r j j' : (forall i, nth i l 0%Qc = nth i l' 0%Qc) -> draw_law l r j -> draw_law l' r j' -> j = j'.
Proof.
  intros H [A B] [A' B']. rewrite <- (totals_alike l l' H) in A', B'. rewrite <- (sums_alike l l' H) in A'.
  destruct (Nat.lt_trichotomy j j') as [Q|[Q|Q]]; [|exact Q|]; exfalso.
  - specialize (B' j Q). rewrite <- (sums_alike l l' H) in B'. exact (Qclt_not_le _ _ B' A).
  - specialize (B j' Q). exact (Qclt_not_le _ _ B A').
Qed.

Section Pad.
Variables (pw : Qc -> Qc) (eps : Qc).
Context {Ob A Inf R : Type}.
Variable r0 : R.
Variable radd : R -> R -> R.
Variable last_frame : Ob -> Ob.
Record alike (n n' : nat) (s s' : pst) : Prop := {
  al_cnt : ps_cnt s = ps_cnt s';
  al_seen : ps_seen s = ps_seen s';
  al_len : length (ps_arr s) = n;
  al_len' : length (ps_arr s') = n';
  al_arr : forall i, nth i (ps_arr s) 0%Qc = nth i (ps_arr s') 0%Qc }.
Lemma upd_alike (l l' : list Qc) k x : k < length l -> k < length l' -> (forall i, nth i l 0%Qc = nth i l' 0%Qc) -> forall i, nth i (upd l k x) 0%Qc = nth i (upd l' k x) 0%Qc.
Proof.
  intros H H' E i. destruct (Nat.eq_dec k i) as [<-|N]; [rewrite !nth_upd_same by assumption; reflexivity|]. rewrite !nth_upd_other by exact N. apply E.
Qed.
Lemma fill_alike n n' v : forall k l l' c, c + k <= n -> c + k <= n' -> length l = n -> length l' = n' -> (forall i, nth i l 0%Qc = nth i l' 0%Qc) ->
  length (ring_fill n l c k v) = n /\ length (ring_fill n' l' c k v) = n' /\ forall i, nth i (ring_fill n l c k v) 0%Qc = nth i (ring_fill n' l' c k v) 0%Qc.
Proof.
  clear r0 radd last_frame. induction k as [|k IH]; intros l l' c H H' L L' E; cbn [ring_fill]; [repeat split; assumption|].
  rewrite !Nat.mod_small by lia. apply IH; [lia|lia|rewrite upd_length; exact L|rewrite upd_length; exact L'|]. apply upd_alike; [lia|lia|exact E].
Qed.
Lemma write_alike n n' : forall idx vals l l', length l = n -> length l' = n' -> (forall z, In z idx -> Z.to_nat z < n /\ Z.to_nat z < n') -> (forall i, nth i l 0%Qc = nth i l' 0%Qc) ->
  length (write_all l idx vals) = n /\ length (write_all l' idx vals) = n' /\ forall i, nth i (write_all l idx vals) 0%Qc = nth i (write_all l' idx vals) 0%Qc.
Proof.
  clear r0 radd last_frame. induction idx as [|z idx IH]; intros [|v vals] l l' L L' H E; cbn [write_all]; try (repeat split; assumption).
  destruct (H z (or_introl eq_refl)) as [H1 H2].
  apply IH; [rewrite upd_length; exact L|rewrite upd_length; exact L'|intros y Hy; apply H; right; exact Hy|]. apply upd_alike; [lia|lia|exact E].
Qed.
Lemma cnt_mono n (ops : list (pop Ob A Inf R)) : forall s, ps_cnt s <= ps_cnt (fold_left (ps_step pw eps n) ops s).
Proof.
  clear r0 radd last_frame. induction ops as [|op ops IH]; intros s; [apply Nat.le_refl|]. cbn [fold_left]. refine (Nat.le_trans _ _ _ _ (IH _)).
  destruct op; cbn [ps_step ps_cnt]; lia.
Qed.
Lemma run_alike o n n' : forall (ops : list (pop Ob A Inf R)) s s', alike n n' s s' -> pops_ok pw eps r0 radd last_frame o n s ops ->
  ps_cnt (fold_left (ps_step pw eps n) ops s) <= n -> ps_cnt (fold_left (ps_step pw eps n) ops s) <= n' ->
  pops_ok pw eps r0 radd last_frame o n' s' ops /\ alike n n' (fold_left (ps_step pw eps n) ops s) (fold_left (ps_step pw eps n') ops s').
Proof.
  induction ops as [|op ops IH]; intros s s' Hs Hok H H'; [split; [exact I|exact Hs]|]. cbn [pops_ok fold_left] in *. destruct Hok as [Ho Hok].
  pose proof (cnt_mono n ops (ps_step pw eps n s op)) as Hm. destruct Hs as [Ec Es L L' Ea].
  assert (Hstep : pop_ok r0 radd last_frame o n' s' op /\ alike n n' (ps_step pw eps n s op) (ps_step pw eps n' s' op)).
  { destruct op as [t|src|idx ws]; cbn [pop_ok ps_step ps_cnt] in *.
    - split; [exact I|]. destruct (fill_alike n n' (pw (highest (ps_seen s))) 1 (ps_arr s) (ps_arr s') (ps_cnt s)) as (F1 & F2 & F3); [clear - Hm H; lia|clear - Hm H'; lia|assumption..|].
      rewrite <- Es, <- Ec. split; [reflexivity|reflexivity|assumption..].
    - split; [exact Ho|]. destruct (fill_alike n n' (pw (highest (ps_seen s))) (size (b_st src)) (ps_arr s) (ps_arr s') (ps_cnt s)) as (F1 & F2 & F3); [clear - Hm H; lia|clear - Hm H'; lia|assumption..|].
      rewrite <- Es, <- Ec. split; [reflexivity|reflexivity|assumption..].
    - destruct Ho as (O1 & O2 & O3). split.
      + split; [exact O1|]. split; [exact O2|]. intros i Hi. specialize (O3 i Hi). rewrite <- Ec. clear - O3 Hm H'. lia.
      + destruct (write_alike n n' idx (map (fun w => pw (prio_of eps w)) ws) (ps_arr s) (ps_arr s')) as (F1 & F2 & F3); [assumption..| |assumption|].
        * intros z Hz. specialize (O3 z Hz). clear - O3 Hm H H'. lia.
        * rewrite <- Es, <- Ec. split; [reflexivity|reflexivity|assumption..]. }
  destruct Hstep as [Ho' Hs']. destruct (IH _ _ Hs' Hok H H') as [G1 G2]. split; [split; assumption|exact G2].
Qed.
Lemma alike_init n n' : alike n n' (ps_init n) (ps_init n').
Proof.
  split; try reflexivity; try apply repeat_length. intros i. cbn [ps_arr ps_init].
  assert (Z0 : forall k, nth i (repeat 0%Qc k) 0%Qc = 0%Qc) by (intros k; revert i; induction k as [|k IH]; intros [|i]; try reflexivity; apply IH). rewrite !Z0. reflexivity.
Qed.
End Pad.

(** C378.  While no more rows are added or moved in than fit, the capacity of a prioritized buffer
    makes no difference: the same calls are legal and leave the same weights, largest and smallest
    priority; equal draws give equal indices, with equal weights in the batch. *)
Lemma C378_capacity_lemma : forall (pw ipw : Qc -> Qc) (eps : Qc) (Ob A Inf R : Type) (r0 : R) radd (last_frame : Ob -> Ob) o n n' (ops : list (pop Ob A Inf R)),
  (forall x, (0 < x)%Qc -> (0 < pw x)%Qc) -> (forall x, (0 < x)%Qc -> (0 < ipw x)%Qc) -> (0 < eps)%Qc -> 0 < n -> 0 < n' ->
  pops_ok pw eps r0 radd last_frame o n (ps_init n) ops ->
  let cnt := ps_cnt (ps_run pw eps n ops) in
  cnt <= n -> cnt <= n' ->
  exists b b', p_run pw eps r0 radd last_frame o (pb_init r0 n) ops = Ok b /\ p_run pw eps r0 radd last_frame o (pb_init r0 n') ops = Ok b'
    /\ size (b_st (pb_buf b)) = cnt /\ size (b_st (pb_buf b')) = cnt
    /\ p_max (pb_prio b) = p_max (pb_prio b') /\ p_min (pb_prio b) = p_min (pb_prio b')
    /\ (forall i, i < n -> i < n' -> st_getitem (p_tree (pb_prio b)) (Z.of_nat i) = st_getitem (p_tree (pb_prio b')) (Z.of_nat i))
    /\ (0 < cnt -> forall rnd draw z, (0 < z)%Z -> (forall j, (0 <= draw j)%Qc /\ (draw j < 1)%Qc) ->
          exists l, pb_sample_indices o b rnd draw (Some z) = Ok l /\ pb_sample_indices o b' rnd draw (Some z) = Ok l
            /\ forall norm, batch_weight ipw norm (pb_prio b) (map Z.of_nat l) = batch_weight ipw norm (pb_prio b') (map Z.of_nat l)
                 /\ is_ok (batch_weight ipw norm (pb_prio b) (map Z.of_nat l)) = true).
Proof.
  intros pw ipw eps Ob A Inf R r0 radd lf o n n' ops Hpw Hipw Heps Hn Hn' Hok cnt Hc Hc'.
  destruct (run_alike pw eps r0 radd lf o n n' ops _ _ (alike_init n n') Hok Hc Hc') as [Hok' [Ec Es L L' Ea]].
  fold (ps_run pw eps n ops) in *. fold (ps_run pw eps n' ops) in *. fold cnt in Ec.
  destruct (C16_weights_lemma pw eps Ob A Inf R r0 radd lf o n ops Hpw Heps Hn Hok) as (b & E & _ & G & Mx & Mn & S & P).
  destruct (C16_weights_lemma pw eps Ob A Inf R r0 radd lf o n' ops Hpw Heps Hn' Hok') as (b' & E' & _ & G' & Mx' & Mn' & S' & P').
  exists b, b'. split; [exact E|]. split; [exact E'|]. fold cnt in S. rewrite <- Ec in S'.
  split; [rewrite S; apply Nat.min_l, Hc|]. split; [rewrite S'; apply Nat.min_l, Hc'|]. rewrite Mx, Mx', Mn, Mn', Es. split; [reflexivity|]. split; [reflexivity|].
  split; [intros i Hi Hi'; rewrite G, G', Ea by assumption; reflexivity|]. intros H0 rnd draw z Hz Hd.
  destruct (C16_sampling_lemma pw eps Ob A Inf R r0 radd lf o n ops b rnd draw z Hpw Heps Hn Hok E H0 Hz Hd) as (l & El & Ll & Hl).
  destruct (C16_sampling_lemma pw eps Ob A Inf R r0 radd lf o n' ops b' rnd draw z Hpw Heps Hn' Hok' E') as (l' & El' & Ll' & Hl'); [rewrite <- Ec; exact H0|exact Hz|exact Hd|].
  assert (Q : l' = l).
  { apply nth_error_ext. intros k. destruct (nth_error l k) as [j|] eqn:N, (nth_error l' k) as [j'|] eqn:N'; [|exfalso..|reflexivity].
    - f_equal. symmetry. exact (law_one _ _ _ _ _ Ea (proj2 (Hl k j N)) (proj2 (Hl' k j' N'))).
    - apply nth_error_None in N'. assert (k < length l) by (apply nth_error_Some; congruence). clear - H N' Ll Ll'. lia.
    - apply nth_error_None in N. assert (k < length l') by (apply nth_error_Some; congruence). clear - H N Ll Ll'. lia. }
  subst l'. exists l. split; [exact El|]. split; [exact El'|].
  assert (Hne : l <> []) by (intros ->; cbn in Ll; clear - Ll Hz; lia).
  destruct (C16_normalised_weights_lemma pw ipw eps Ob A Inf R r0 radd lf o n ops b l Hpw Hipw Heps Hn Hok E Hne) as (W & top & ws & T1 & T2 & W2 & Ew & _).
  { intros i Hi. apply In_nth_error in Hi as [k Hk]. exact (proj1 (Hl k i Hk)). }
  destruct (C16_normalised_weights_lemma pw ipw eps Ob A Inf R r0 radd lf o n' ops b' l Hpw Hipw Heps Hn' Hok' E' Hne) as (W' & top' & ws' & T1' & T2' & W2' & Ew' & _).
  { intros i Hi. apply In_nth_error in Hi as [k Hk]. exact (proj1 (Hl' k i Hk)). }
  assert (Er : map (fun i => ipw (nth i (ps_arr (ps_run pw eps n ops)) 0 / lowest (ps_seen (ps_run pw eps n ops)))%Qc) l = map (fun i => ipw (nth i (ps_arr (ps_run pw eps n' ops)) 0 / lowest (ps_seen (ps_run pw eps n' ops)))%Qc) l).
  { apply map_ext. intros i. rewrite Ea, Es. reflexivity. }
  rewrite <- Er in *. assert (Et : top = top') by (apply Qcle_antisym; [apply (proj2 (T2' top T1))|apply (proj2 (T2 top' T1'))]). subst top'.
  intros [|]; [rewrite W2, W2'|rewrite W, W']; split; try reflexivity. rewrite Ew, Ew'. reflexivity.
Qed.
