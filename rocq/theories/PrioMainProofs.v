(** * Prioritized buffers: main results *)
From Verif Require Import Py PyLemmas Num SegTreeModel SegTreeSpec SegTreeProofs
  BufferModel BufferSpec BufferProofs BufferWalkProofs BufferMainProofs ManagerModel ManagerSpec ManagerProofs
  ManagerMainProofs CachedProofs PrioModel PrioSpec PrioProofs ReturnsMainProofs.
Open Scope nat_scope.

Lemma nth_error_upd_case {T} (l : list T) k j x y : nth_error l k = Some y ->
  nth_error (upd l k x) j = if k =? j then Some x else nth_error l j.
Proof.
  intros H. destruct (Nat.eqb_spec k j) as [<-|Hkj].
  - apply nth_error_upd_same. apply nth_error_Some. congruence.
  - apply nth_error_upd_other. exact Hkj.
Qed.

Lemma Forall2_length {X Y} (P : X -> Y -> Prop) l l' : Forall2 P l l' -> length l = length l'.
Proof. induction 1; cbn [length]; congruence. Qed.

(** ** Manager *)
Section PrioManager.
Variables (pw : Qc -> Qc) (eps : Qc).
Hypothesis Hpw : forall x, (0 < x)%Qc -> (0 < pw x)%Qc.
Hypothesis Heps : (0 < eps)%Qc.
Context {Ob A Inf R : Type}.
Variable r0 : R.
Variable radd : R -> R -> R.
Variable last_frame : Ob -> Ob.

Definition St (ns : list nat) (bufs : list (bst R)) (i : nat) : Prop :=
  exists k s, nth_error bufs k = Some s /\ off ns k <= i < off ns k + size s.

Lemma pre_add_ok n (s s' : bst R) rew d i ret len st : sinv n s ->
  update_state_pre_add r0 radd s rew d = Ok (s', (i, ret, len, st)) ->
  sinv n s' /\ i = ins s /\ size s' = Nat.min (size s + 1) n /\ maxsize s' = n.
Proof.
  clear pw eps Hpw Heps last_frame.
  intros Hs. pose proof (i_max _ _ Hs) as Hm. pose proof (i_pos _ _ Hs) as Hp.
  unfold update_state_pre_add, guard. destruct (negb _); [|discriminate].
  destruct (negb (_ <? _)) eqn:E; [|discriminate]. intros H.
  pose proof (sinv_advance n s Hs) as Ha. destruct Ha as [A1 A2 A3 A4 A5 A6 A7].
  cbn [advance maxsize ins size last_index ep_start_idx] in *.
  injection H as <- <- <- <- <-. split; [|destruct d; cbn; rewrite ?Hm; repeat split; lia].
  destruct d; split; cbn [maxsize ins size last_index ep_start_idx]; auto; try lia.
Qed.

Lemma add_loop_St ns : forall xs (bufs : list (bst R)) last lens bufs' last' lens' rs,
  map maxsize bufs = ns -> (forall s, In s bufs -> sinv (maxsize s) s) ->
  add_loop (Ob := Ob) (A := A) (Inf := Inf) r0 radd bufs last lens xs = Ok (bufs', last', lens', rs) ->
  forall i, St ns bufs' i <-> St ns bufs i \/ In i (map (fun r => fst (fst (fst r))) rs).
Proof.
  clear pw eps Hpw Heps last_frame.
  induction xs as [|[id t] xs IH]; intros bufs last lens bufs' last' lens' rs Hns Hs H i.
  - cbn in H. injection H as <- _ _ <-. cbn. tauto.
  - cbn [add_loop] in H. destruct (norm_index (length bufs) id) as [k|e] eqn:Ek; [|discriminate].
    cbn [bind] in H. destruct (nth_error bufs k) as [s|] eqn:Es; [|discriminate].
    destruct (update_state_pre_add _ _ _ _ _) as [[s' [[[j ret] len] st]]|e] eqn:Eu; [|discriminate].
    cbn [bind] in H.
    destruct (add_loop _ _ _ _ _ xs) as [[[[b1 l1] n1] rs1]|e] eqn:E; [|discriminate]. cbn [bind] in H.
    injection H as <- _ _ <-.
    assert (Hsk : sinv (maxsize s) s) by (apply Hs; eapply nth_error_In; exact Es).
    destruct (pre_add_ok _ _ _ _ _ _ _ _ _ Hsk Eu) as (Hs' & -> & Hz & Hm).
    assert (Hk : k < length bufs) by (apply nth_error_Some; congruence).
    assert (En : nth_error ns k = Some (maxsize s)) by (rewrite <- Hns, nth_error_map, Es; reflexivity).
    assert (Hupd : map maxsize (upd bufs k s') = ns).
    { rewrite map_upd, Hm, Hns. apply upd_same. exact En. }
    assert (Hs2 : forall x, In x (upd bufs k s') -> sinv (maxsize x) x).
    { intros x Hx. apply nth_error_In_upd in Hx as [->|Hx]; [rewrite Hm; exact Hs'|apply Hs, Hx]. }
    rewrite (IH _ _ _ _ _ _ _ Hupd Hs2 E i).
    cbn [map fst In].
    assert (Eoff : nth k (offsets 0 (map maxsize bufs)) 0 = off ns k).
    { rewrite Hns. assert (k < length ns) by (apply nth_error_Some; congruence).
      rewrite (nth_error_nth _ _ 0 (nth_error_offsets ns 0 k H)). reflexivity. }
    rewrite Eoff.
    assert (HSt : St ns (upd bufs k s') i <-> St ns bufs i \/ ins s + off ns k = i).
    { pose proof (i_ins _ _ Hsk) as F1. pose proof (i_part _ _ Hsk) as F2. pose proof (i_size _ _ Hsk) as F3.
      unfold St. split.
      - intros (j & x & Hj & Hr). rewrite (nth_error_upd_case bufs k j s' s Es) in Hj.
        destruct (Nat.eqb_spec k j) as [<-|Hkj].
        + injection Hj as <-. destruct (Nat.lt_ge_cases i (off ns k + size s)) as [Hlt|Hge].
          * left. exists k, s. split; [exact Es|lia].
          * right. lia.
        + left. exists j, x. split; [exact Hj|exact Hr].
      - intros [(j & x & Hj & Hr)|Hi].
        + destruct (Nat.eqb_spec k j) as [<-|Hkj].
          * rewrite Es in Hj. injection Hj as <-. exists k, s'. split; [apply nth_error_upd_same; exact Hk|lia].
          * exists j, x. split; [rewrite nth_error_upd_other by exact Hkj; exact Hj|exact Hr].
        + exists k, s'. split; [apply nth_error_upd_same; exact Hk|]. lia. }
    rewrite HSt. tauto.
Qed.

Lemma St_dec ns bufs i : {St ns bufs i} + {~ St ns bufs i}.
Proof.
  clear pw eps Hpw Heps last_frame r0 radd.
  assert (D : forall l k, {exists j s, nth_error l j = Some s /\ off ns (k + j) <= i < off ns (k + j) + size s}
             + {~ exists j (s : bst R), nth_error l j = Some s /\ off ns (k + j) <= i < off ns (k + j) + size s}).
  { induction l as [|s l IH]; intros k.
    - right. intros ([|j] & s & H & _); discriminate.
    - destruct (IH (S k)) as [H|H].
      + left. destruct H as (j & x & H1 & H2). exists (S j), x. rewrite Nat.add_succ_r. auto.
      + destruct (le_lt_dec (off ns k) i) as [H1|H1]; [destruct (le_lt_dec (off ns k + size s) i) as [H2|H2]|].
        * right. intros ([|j] & x & G1 & G2); [injection G1 as <-; rewrite Nat.add_0_r in G2; lia|].
          apply H. exists j, x. rewrite Nat.add_succ_r in G2. auto.
        * left. exists 0, s. rewrite Nat.add_0_r. auto.
        * right. intros ([|j] & x & G1 & G2); [injection G1 as <-; rewrite Nat.add_0_r in G2; lia|].
          apply H. exists j, x. rewrite Nat.add_succ_r in G2. auto. }
  exact (D bufs 0).
Qed.

Record GM (ns : list nat) (s : list (mop Ob A Inf R) * list Qc) (m : pmgr Ob A Inf R) : Prop := {
  gm_sim : exists bs, sim ns (pm_mgr m) bs /\ good ns bs;
  gm_tree : treeok (list_sum ns) (p_tree (pm_prio m)) (snd s);
  gm_max : (0 < p_max (pm_prio m))%Qc;
  gm_pos : wpos (St ns (m_bufs (pm_mgr m))) (snd s)
}.

Lemma gm_bufs ns s m : GM ns s m -> map maxsize (m_bufs (pm_mgr m)) = ns
  /\ forall x, In x (m_bufs (pm_mgr m)) -> sinv (maxsize x) x.
Proof.
  clear pw eps Hpw Heps last_frame r0 radd.
  intros [(bs & Hs & Hg) _ _ _]. destruct Hs as [H1 H2 H3 H4 H5 H6 H7 H8].
  assert (Hm : map maxsize (m_bufs (pm_mgr m)) = ns) by (rewrite H2, map_map; exact H1).
  split; [exact Hm|]. intros x Hx. rewrite H2 in Hx. apply in_map_iff in Hx as (b & <- & Hb).
  apply In_nth_error in Hb as [k Hk].
  assert (En : nth_error ns k = Some (bmax b)) by (rewrite <- H1, nth_error_map, Hk; reflexivity).
  destruct (good_nth _ _ _ _ _ Hg En Hk) as [q Hq]. exact (i_s _ _ _ Hq).
Qed.

Lemma GM_init ns : (forall n, In n ns -> 0 < n) ->
  GM ns ([], repeat 0%Qc (list_sum ns)) (pm_init r0 ns).
Proof.
  clear pw eps Hpw Heps radd last_frame.
  intros Hn. destruct (sim_init (Ob := Ob) (A := A) (Inf := Inf) r0 ns Hn) as [Hs Hg].
  split; cbn [pm_init pm_mgr pm_prio prio_init p_tree p_max snd].
  - eauto.
  - apply treeok_init.
  - qclra.
  - intros i Hi. split; [|intros _; apply nth_repeat0]. intros (k & s & Hk & Hr). cbn [m_init m_bufs] in Hk.
    rewrite nth_error_map in Hk. destruct (nth_error ns k); [|discriminate]. injection Hk as <-.
    cbn in Hr. lia.
Qed.

Lemma GM_total ns s m i : GM ns s m -> St ns (m_bufs (pm_mgr m)) i -> i < list_sum ns.
Proof.
  clear pw eps Hpw Heps last_frame r0 radd.
  intros Hg (k & x & Hk & Hr). destruct (gm_bufs _ _ _ Hg) as [H1 H2].
  assert (En : nth_error ns k = Some (maxsize x)) by (rewrite <- H1, nth_error_map, Hk; reflexivity).
  pose proof (off_le_total ns k _ En). pose proof (i_size _ _ (H2 x (nth_error_In _ _ Hk))). lia.
Qed.

Lemma GM_add o ns past arr m ids ts : GM ns (past, arr) m -> mop_ok (length ns) (MAdd ids ts) ->
  exists m' rs, pm_add pw r0 radd last_frame o m ids ts = Ok (m', rs)
    /\ m_add r0 radd last_frame o (pm_mgr m) ids ts = Ok (pm_mgr m', rs)
    /\ GM ns (past ++ [MAdd ids ts],
              write_all arr (map (fun r => Z.of_nat (fst (fst (fst r)))) rs)
                (map (fun _ => pw (p_max (pm_prio m))) rs)) m'
    /\ p_max (pm_prio m') = p_max (pm_prio m) /\ p_min (pm_prio m') = p_min (pm_prio m).
Proof.
  clear eps Heps.
  intros Hg Hok. pose proof (gm_bufs _ _ _ Hg) as [Hb1 Hb2].
  destruct Hg as [(bs & Hs & Hgd) Ht Hmx Hw]. cbn [snd] in *.
  destruct (m_add_sim r0 radd last_frame o ns (pm_mgr m) bs ids ts Hs Hgd Hok) as (m1 & bs1 & rs & E & Hs1 & Hg1 & _ & Hlr & _).
  unfold pm_add. rewrite E. cbn [bind fst snd].
  assert (HSt : forall i, St ns (m_bufs m1) i <-> St ns (m_bufs (pm_mgr m)) i \/ In i (map (fun r => fst (fst (fst r))) rs)).
  { unfold m_add, guard in E. destruct (_ <=? _); [|discriminate].
    destruct (add_loop _ _ _ _ _ _) as [[[[b1 l1] n1] rs1]|e] eqn:El; [|discriminate]. cbn [bind] in E.
    destruct (negb _); [|discriminate]. destruct (_ =? _); [|discriminate]. destruct (forallb _ _); [|discriminate].
    injection E as <- <-. cbn [m_bufs]. apply (add_loop_St ns _ _ _ _ _ _ _ _ Hb1 Hb2 El). }
  pose proof (treeok_length _ _ _ Ht) as Hl.
  assert (Hin : forall i, In i (map (fun r => Z.of_nat (fst (fst (fst r)))) rs) ->
                (0 <= i < Z.of_nat (list_sum ns))%Z).
  { intros i Hi. apply in_map_iff in Hi as (r & <- & Hr).
    assert (F : St ns (m_bufs m1) (fst (fst (fst r)))).
    { apply HSt. right. apply in_map_iff. exists r. auto. }
    destruct F as (k & x & Hk & Hr'). pose proof Hs1 as [K1 K2 K3 K4 K5 K6 K7 K8].
    rewrite K2, nth_error_map in Hk. destruct (nth_error bs1 k) as [b|] eqn:Eb; [|discriminate]. injection Hk as <-.
    assert (En : nth_error ns k = Some (bmax b)) by (rewrite <- K1, nth_error_map, Eb; reflexivity).
    destruct (good_nth _ _ _ _ _ Hg1 En Eb) as [q Hq]. pose proof (i_size _ _ (i_s _ _ _ Hq)).
    pose proof (off_le_total ns k _ En). lia. }
  assert (Hne : map (fun r : nat * R * nat * nat => Z.of_nat (fst (fst (fst r)))) rs <> []).
  { apply (mop_ok_ids r0 radd) in Hok as (Hl1 & Hne & _). destruct rs; [|discriminate].
    cbn in Hlr. rewrite <- Hlr in Hl1. destruct (ids_of (length ns) ids); [contradiction|discriminate]. }
  destruct (init_weight_ok pw (list_sum ns) (pm_prio m) arr _ Ht Hne Hin) as (p & Ep & Ht' & Em1 & Em2).
  rewrite Ep. cbn [bind fst snd]. rewrite map_map in Ht'.
  do 2 eexists. split; [reflexivity|]. split; [reflexivity|]. cbn [pm_mgr pm_prio]. split; [|auto].
  split; cbn [pm_mgr pm_prio snd]; [eauto|exact Ht'|rewrite Em1; exact Hmx|].
  apply (wpos_ext (fun i => St ns (m_bufs (pm_mgr m)) i
     \/ In (Z.of_nat i) (map (fun r => Z.of_nat (fst (fst (fst r)))) rs))).
  - intros i _. rewrite HSt. rewrite !in_map_iff. split; (intros [H|(r & H1 & H2)]; [left; exact H|right; exists r]).
    + split; [lia|exact H2].
    + split; [lia|exact H2].
  - apply wpos_write; [exact Hw|rewrite !map_length; reflexivity|rewrite Hl; exact Hin|].
    intros v Hv. apply in_map_iff in Hv as (r & <- & _). apply Hpw, Hmx.
Qed.

(** Stored indices seen from the state and from the history. *)
Lemma holds_row_St o ns (ops : list (mop Ob A Inf R)) m outs : (forall n, In n ns -> 0 < n) ->
  m_run r0 radd last_frame o (m_init r0 ns) ops = Ok (m, outs) ->
  forall i, holds_row last_frame o ns ops i <-> St ns (m_bufs m) i.
Proof.
  clear pw eps Hpw Heps.
  intros Hn Hrun i. destruct (run_view r0 radd last_frame o ns ops m outs Hn Hrun) as (Hv & _ & _ & Hlens & bs & Hs & Hb).
  pose proof Hs as [K1 K2 K3 K4 K5 K6 K7 K8].
  unfold holds_row, St.
  assert (Hl : length (m_bufs m) = length ns) by (rewrite K2, map_length, <- K1, map_length; reflexivity).
  assert (Hq : forall k s, nth_error (m_bufs m) k = Some s -> size s = length (mqueue last_frame o ns ops k)).
  { intros k s Hk. destruct (children_nth_inv ns m _ Hv) as (C1 & C2 & C3 & C4 & C5).
    destruct (nth_error (children m) k) as [c|] eqn:Ec.
    - destruct (C5 k c Ec) as (n & F1 & F2 & F3 & F4 & _). rewrite F4 in Hk. injection Hk as <-.
      rewrite qat_mqueue in F2. symmetry. apply (i_len _ _ _ F2).
    - apply nth_error_None in Ec. assert (k < length (m_bufs m)) by (apply nth_error_Some; congruence). lia. }
  split.
  - intros (k & Hr). destruct (nth_error (m_bufs m) k) as [s|] eqn:Ek.
    + exists k, s. rewrite (Hq k s Ek). auto.
    + apply nth_error_None in Ek. unfold mqueue in Hr. replace (nth_error ns k) with (@None nat) in Hr.
      * cbn in Hr. lia.
      * symmetry. apply nth_error_None. lia.
  - intros (k & s & Hk & Hr). exists k. rewrite <- (Hq k s Hk). exact Hr.
Qed.

Lemma m_run_app o l1 l2 : forall m : mgr Ob A Inf R,
  m_run r0 radd last_frame o m (l1 ++ l2)
  = (let* x := m_run r0 radd last_frame o m l1 in
     let* y := m_run r0 radd last_frame o (fst x) l2 in Ok (fst y, snd x ++ snd y)).
Proof.
  clear pw eps Hpw Heps.
  induction l1 as [|op l1 IH]; intros m.
  - cbn [app m_run bind fst snd]. destruct (m_run _ _ _ _ _ l2) as [[a b]|e]; reflexivity.
  - destruct op as [ids ts|keep]; cbn [app m_run]; [|apply IH].
    destruct (m_add _ _ _ _ _ _ _) as [x|e]; [|reflexivity]. cbn [bind].
    rewrite IH. destruct (m_run _ _ _ _ (fst x) l1) as [y|e]; [|reflexivity]. cbn [bind fst snd].
    destruct (m_run _ _ _ _ (fst y) l2) as [z|e]; [|reflexivity]. cbn [bind fst snd]. rewrite app_assoc. reflexivity.
Qed.

Lemma pm_run_ok o ns : (forall n, In n ns -> 0 < n) -> forall ops past arr m outs,
  m_run r0 radd last_frame o (m_init r0 ns) past = Ok (pm_mgr m, outs) ->
  GM ns (past, arr) m -> pmops_ok last_frame o ns past ops ->
  exists m' arr' outs', pm_run pw eps r0 radd last_frame o m ops = Ok m' /\ GM ns (past ++ adds_of ops, arr') m'
    /\ m_run r0 radd last_frame o (m_init r0 ns) (past ++ adds_of ops) = Ok (pm_mgr m', outs').
Proof.
  intros Hn. induction ops as [|op ops IH]; intros past arr m outs Hrun Hg Hok.
  - exists m, arr, outs. cbn [adds_of pm_run]. rewrite app_nil_r. auto.
  - destruct op as [ids ts|index ws]; cbn [pmops_ok pm_run adds_of] in *.
    + destruct Hok as [H1 H2]. destruct (GM_add o ns past arr m ids ts Hg H1) as (m1 & rs & E & Ea & Hg1 & _).
      rewrite E. cbn [bind fst].
      assert (Hrun1 : m_run r0 radd last_frame o (m_init r0 ns) (past ++ [MAdd ids ts])
         = Ok (pm_mgr m1, outs ++ combine (ids_of (length (m_bufs (pm_mgr m))) ids) rs ++ [])).
      { rewrite m_run_app, Hrun. cbn [bind fst snd m_run]. rewrite Ea. cbn [bind fst snd]. reflexivity. }
      destruct (IH _ _ _ _ Hrun1 Hg1 H2) as (m2 & arr2 & outs2 & E2 & Hg2 & Hr2).
      rewrite <- app_assoc in Hg2, Hr2. cbn [app] in Hg2, Hr2. exists m2, arr2, outs2. auto.
    + destruct Hok as [(Hne & Hlen & Hidx) H2].
      assert (HSt : forall i, In i index -> (0 <= i)%Z /\ St ns (m_bufs (pm_mgr m)) (Z.to_nat i)).
      { intros i Hi. destruct (Hidx i Hi) as [F1 F2]. split; [exact F1|].
        apply (holds_row_St o ns past (pm_mgr m) outs Hn Hrun). exact F2. }
      assert (Hin : forall i, In i index -> (0 <= i < Z.of_nat (list_sum ns))%Z).
      { intros i Hi. destruct (HSt i Hi) as [F1 F2]. pose proof (GM_total _ _ _ _ Hg F2). lia. }
      pose proof Hg as [(bs & Hs & Hgd) Ht Hmx Hw]. cbn [snd] in *.
      destruct (update_weight_ok pw eps (list_sum ns) (pm_prio m) arr index ws Ht Hne Hlen Hin) as (p & Ep & Ht' & Em1 & Em2).
      rewrite Ep. cbn [bind].
      apply (IH past (write_all arr index (map (fun w => pw (prio_of eps w)) ws)) (mkPM (pm_mgr m) p) outs Hrun); [|exact H2].
      split; cbn [pm_mgr pm_prio snd]; [eauto|exact Ht'| |].
      * rewrite Em1. destruct (max_of_is_max (map (prio_of eps) ws) (p_max (pm_prio m))) as [_ F].
        assert (p_max (pm_prio m) <= max_of (p_max (pm_prio m)) (map (prio_of eps) ws))%Qc by (apply F; left; reflexivity).
        qclra.
      * apply (wpos_ext (fun i => St ns (m_bufs (pm_mgr m)) i \/ In (Z.of_nat i) index)).
        -- intros i _. split; [intros [F|F]; [exact F|]|auto]. destruct (HSt _ F) as [_ G]. rewrite Nat2Z.id in G. exact G.
        -- apply wpos_write; [exact Hw|rewrite map_length; lia| |].
           ++ rewrite (treeok_length _ _ _ Ht). exact Hin.
           ++ intros v Hv. apply in_map_iff in Hv as (w & <- & _). apply Hpw. apply prio_pos. exact Heps.
Qed.
End PrioManager.

(** ** Theorems *)

(** C16.  After any legal calls the weight tree holds the specification's array: new rows get
    [pw] of the largest priority seen, updated rows get [pw (|w| + eps)], nothing else changes;
    [max_prio]/[min_prio] are the extremes seen; exactly the stored indices have weight > 0. *)
Lemma C16_weights_lemma : forall pw eps (Ob A Inf R : Type) (r0 : R) radd (last_frame : Ob -> Ob) o n
    (ops : list (pop Ob A Inf R)),
  (forall x, (0 < x)%Qc -> (0 < pw x)%Qc) -> (0 < eps)%Qc -> 0 < n ->
  pops_ok pw eps r0 radd last_frame o n (ps_init n) ops ->
  let s := ps_run pw eps n ops in
  exists b, p_run pw eps r0 radd last_frame o (pb_init r0 n) ops = Ok b
    /\ length (ps_arr s) = n
    /\ (forall i, i < n -> st_getitem (p_tree (pb_prio b)) (Z.of_nat i) = Ok (nth i (ps_arr s) 0%Qc))
    /\ p_max (pb_prio b) = highest (ps_seen s) /\ p_min (pb_prio b) = lowest (ps_seen s)
    /\ size (b_st (pb_buf b)) = Nat.min (ps_cnt s) n
    /\ (forall i, i < n -> (i < size (b_st (pb_buf b)) -> (0 < nth i (ps_arr s) 0)%Qc)
                        /\ (size (b_st (pb_buf b)) <= i -> nth i (ps_arr s) 0%Qc = 0%Qc)).
Proof.
  intros pw eps Ob A Inf R r0 radd lf o n ops Hpw Heps Hn Hok s.
  destruct (p_run_ok pw eps Hpw Heps r0 radd lf o n ops _ _ (G_init r0 n Hn) Hok) as (b & E & Hg).
  fold (ps_run pw eps n ops) in Hg. fold s in Hg.
  destruct Hg as [Hi Ht Hmx Hmn Hin Hsz Hw].
  exists b. split; [exact E|]. pose proof (treeok_length _ _ _ Ht) as Hl.
  split; [exact Hl|]. split; [intros i Hi'; apply (treeok_get n _ _ i Ht Hi')|].
  split; [exact Hmx|]. split; [exact Hmn|]. split; [exact Hsz|].
  intros i Hi'. destruct (Hw i) as [H1 H2]; [lia|]. rewrite Hsz. split; [exact H1|]. intros H. apply H2. lia.
Qed.

(** C16.  What was seen: [highest]/[lowest] are attained and bound everything seen. *)
Lemma C16_extremes_lemma : forall l : list Qc,
  In (highest l) (1%Qc :: l) /\ In (lowest l) (1%Qc :: l)
  /\ forall x, In x (1%Qc :: l) -> (x <= highest l)%Qc /\ (lowest l <= x)%Qc.
Proof.
  intros l. destruct (highest_is_max l) as [H1 H2]. destruct (lowest_is_min l) as [H3 H4].
  split; [exact H1|]. split; [exact H3|]. intros x Hx. split; [apply H2, Hx|apply H4, Hx].
Qed.

(** C16.  With draws in [0,1) a prioritized sample has the requested length, contains only
    stored indices, and each index obeys the proportional law [draw_law]. *)
Lemma C16_sampling_lemma : forall pw eps (Ob A Inf R : Type) (r0 : R) radd (last_frame : Ob -> Ob) o n
    (ops : list (pop Ob A Inf R)) b rnd draw z,
  (forall x, (0 < x)%Qc -> (0 < pw x)%Qc) -> (0 < eps)%Qc -> 0 < n ->
  pops_ok pw eps r0 radd last_frame o n (ps_init n) ops ->
  p_run pw eps r0 radd last_frame o (pb_init r0 n) ops = Ok b ->
  let s := ps_run pw eps n ops in
  0 < ps_cnt s -> (0 < z)%Z -> (forall j, (0 <= draw j)%Qc /\ (draw j < 1)%Qc) ->
  exists l, pb_sample_indices o b rnd draw (Some z) = Ok l /\ length l = Z.to_nat z
    /\ forall k j, nth_error l k = Some j -> j < size (b_st (pb_buf b)) /\ draw_law (ps_arr s) (draw k) j.
Proof.
  intros pw eps Ob A Inf R r0 radd lf o n ops b rnd draw z Hpw Heps Hn Hok Hrun s Hc Hz Hd.
  destruct (p_run_ok pw eps Hpw Heps r0 radd lf o n ops _ _ (G_init r0 n Hn) Hok) as (b' & E & Hg).
  rewrite Hrun in E. injection E as <-. fold (ps_run pw eps n ops) in Hg. fold s in Hg.
  destruct Hg as [Hi Ht Hmx Hmn Hin Hsz Hw].
  unfold pb_sample_indices. rewrite Hsz.
  replace ((0 <? z)%Z && (0 <? Nat.min (ps_cnt s) n)) with true by lia.
  destruct (prio_draw_ok n (pb_prio b) (ps_arr s) (fun i => i < Nat.min (ps_cnt s) n)
              (map draw (seq 0 (Z.to_nat z))) Ht Hw) as (l & El & Hf).
  - intros i. apply lt_dec.
  - exists 0. lia.
  - destruct (Z.to_nat z) eqn:Ez; [lia|discriminate].
  - intros r Hr. apply in_map_iff in Hr as (j & <- & _). apply Hd.
  - left. lia.
  - exists l. split; [exact El|]. split.
    + apply Forall2_length in Hf. rewrite map_length, seq_length in Hf. lia.
    + intros k j Hj.
      assert (G : forall ds l', Forall2 (fun r j => j < n /\ j < Nat.min (ps_cnt s) n /\ draw_law (ps_arr s) r j) ds l' ->
                forall k j, nth_error l' k = Some j -> exists r, nth_error ds k = Some r
                  /\ j < Nat.min (ps_cnt s) n /\ draw_law (ps_arr s) r j).
      { clear. induction 1 as [|r j0 ds l' (F1 & F2 & F3) _ IH]; intros [|k] j Hj; try discriminate.
        - injection Hj as <-. exists r. auto.
        - destruct (IH k j Hj) as (r' & ?). exists r'. auto. }
      destruct (G _ _ Hf k j Hj) as (r & Er & F1 & F2). rewrite nth_error_map_seq in Er.
      destruct (k <? Z.to_nat z); [|discriminate]. injection Er as <-. auto.
Qed.

Lemma seen_pos pw eps n {Ob A Inf R} : (0 < eps)%Qc -> forall (ops : list (pop Ob A Inf R)) st,
  (forall x, In x (ps_seen st) -> (0 < x)%Qc) ->
  forall x, In x (ps_seen (fold_left (ps_step pw eps n) ops st)) -> (0 < x)%Qc.
Proof.
  intros Heps. induction ops as [|op ops IH]; intros st Hst; [exact Hst|]. cbn [fold_left]. apply IH.
  destruct op; cbn [ps_step ps_seen]; try exact Hst. intros x Hx. apply in_app_or in Hx as [Hx|Hx]; [apply Hst, Hx|].
  apply in_map_iff in Hx as (w & <- & _). apply prio_pos. exact Heps.
Qed.

(** C16.  The normalised importance weights of a batch of stored indices are in (0, 1] and one
    of them is 1. *)
Lemma C16_normalised_weights_lemma : forall pw ipw eps (Ob A Inf R : Type) (r0 : R) radd (last_frame : Ob -> Ob) o n
    (ops : list (pop Ob A Inf R)) b index,
  (forall x, (0 < x)%Qc -> (0 < pw x)%Qc) -> (forall x, (0 < x)%Qc -> (0 < ipw x)%Qc) -> (0 < eps)%Qc -> 0 < n ->
  pops_ok pw eps r0 radd last_frame o n (ps_init n) ops ->
  p_run pw eps r0 radd last_frame o (pb_init r0 n) ops = Ok b ->
  index <> [] -> (forall i, In i index -> i < size (b_st (pb_buf b))) ->
  let s := ps_run pw eps n ops in
  let raw := map (fun i => ipw (nth i (ps_arr s) 0 / lowest (ps_seen s))%Qc) index in
  batch_weight ipw false (pb_prio b) (map Z.of_nat index) = Ok raw
  /\ exists top ws, In top raw /\ (forall x, In x raw -> (0 < x)%Qc /\ (x <= top)%Qc)
    /\ batch_weight ipw true (pb_prio b) (map Z.of_nat index) = Ok ws
    /\ ws = map (fun x => (x / top)%Qc) raw
    /\ (forall w, In w ws -> (0 < w)%Qc /\ (w <= 1)%Qc) /\ In 1%Qc ws.
Proof.
  intros pw ipw eps Ob A Inf R r0 radd lf o n ops b index Hpw Hipw Heps Hn Hok Hrun Hne Hidx s raw.
  destruct (C16_weights_lemma pw eps Ob A Inf R r0 radd lf o n ops Hpw Heps Hn Hok) as (b' & E & Hl & Hget & Hmx & Hmn & Hsz & Hpos).
  rewrite Hrun in E. injection E as <-. fold s in Hl, Hget, Hmx, Hmn, Hsz, Hpos.
  destruct (p_run_ok pw eps Hpw Heps r0 radd lf o n ops _ _ (G_init r0 n Hn) Hok) as (b' & E & [[q Hq] _ _ _ _ _ _]).
  rewrite Hrun in E. injection E as <-. pose proof (i_size _ _ (i_s _ _ _ Hq)) as Hzn.
  assert (Hlow : (0 < lowest (ps_seen s))%Qc).
  { destruct (lowest_is_min (ps_seen s)) as [[H|H] _].
    - rewrite <- H. qclra.
    - apply (seen_pos pw eps n Heps ops (ps_init n) ltac:(intros x []) _ H). }
  assert (Hraw : get_weight ipw (pb_prio b) (map Z.of_nat index) = Ok raw).
  { unfold get_weight, raw. clear Hne. induction index as [|i index IH]; [reflexivity|]. cbn [map mapM].
    assert (i < size (b_st (pb_buf b))) by (apply Hidx; left; reflexivity).
    rewrite Hget by lia. cbn [bind]. rewrite IH by (intros j Hj; apply Hidx; right; exact Hj).
    cbn [bind]. rewrite Hmn. reflexivity. }
  assert (Hp : forall x, In x raw -> (0 < x)%Qc).
  { intros x Hx. unfold raw in Hx. apply in_map_iff in Hx as (i & <- & Hi). apply Hipw.
    assert (Hi' := Hidx i Hi). destruct (Hpos i ltac:(lia)) as [H _]. specialize (H Hi').
    unfold Qcdiv. assert (Hinv : (0 < / lowest (ps_seen s))%Qc).
    { destruct (Qclt_le_dec 0 (/ lowest (ps_seen s))) as [G|G]; [exact G|]. exfalso.
      assert (E : (lowest (ps_seen s) * / lowest (ps_seen s) = 1)%Qc).
      { apply Qcmult_inv_r. intros F. rewrite F in Hlow. qclra. }
      clear - E G Hlow. qcnra. }
    clear - H Hinv. qcnra. }
  unfold batch_weight. rewrite Hraw. cbn [bind]. split; [reflexivity|].
  destruct raw as [|x t] eqn:Er; [destruct index; [contradiction|discriminate]|].
  destruct (max_of_is_max t x) as [Hin Hmax].
  exists (max_of x t), (map (fun y => (y / max_of x t)%Qc) (x :: t)).
  assert (Htop : (0 < max_of x t)%Qc) by (apply Hp, Hin).
  assert (Hnz : max_of x t <> 0%Qc) by (intros F; rewrite F in Htop; qclra).
  split; [exact Hin|]. split; [intros y Hy; split; [apply Hp, Hy|apply Hmax, Hy]|].
  split; [reflexivity|]. split; [reflexivity|]. split.
  - intros w Hw. apply in_map_iff in Hw as (y & <- & Hy).
    assert (E : (y / max_of x t * max_of x t = y)%Qc) by (field; exact Hnz).
    assert (H1 := Hp y Hy). assert (H2 := Hmax y Hy). set (d := (y / max_of x t)%Qc) in *.
    split.
    + destruct (Qclt_le_dec 0 d) as [F|F]; [exact F|]. exfalso. clear - F E H1 Htop. qcnra.
    + destruct (Qclt_le_dec 1 d) as [F|F]; [|exact F]. exfalso. clear - F E H2 Htop. qcnra.
  - apply in_map_iff. exists (max_of x t). split; [field; exact Hnz|exact Hin].
Qed.

(** C16, for the manager / vector buffer: exactly the stored indices have weight > 0 and, for
    positive draws, only stored indices are sampled. *)
Lemma C16_manager_lemma : forall pw eps (Ob A Inf R : Type) (r0 : R) radd (last_frame : Ob -> Ob) o ns
    (ops : list (pmop Ob A Inf R)) rnd_b rnd draw z,
  (forall x, (0 < x)%Qc -> (0 < pw x)%Qc) -> (0 < eps)%Qc -> (forall n, In n ns -> 0 < n) ->
  pmops_ok last_frame o ns [] ops ->
  exists m arr outs, pm_run pw eps r0 radd last_frame o (pm_init r0 ns) ops = Ok m
    /\ m_run r0 radd last_frame o (m_init r0 ns) (adds_of ops) = Ok (pm_mgr m, outs)
    /\ length arr = list_sum ns
    /\ (forall i, i < list_sum ns ->
          st_getitem (p_tree (pm_prio m)) (Z.of_nat i) = Ok (nth i arr 0%Qc)
          /\ (holds_row last_frame o ns (adds_of ops) i -> (0 < nth i arr 0)%Qc)
          /\ (~ holds_row last_frame o ns (adds_of ops) i -> nth i arr 0%Qc = 0%Qc))
    /\ ((exists i, holds_row last_frame o ns (adds_of ops) i) -> (0 < z)%Z ->
        (forall j, (0 < draw j)%Qc /\ (draw j < 1)%Qc) ->
        exists l, pm_sample_indices o m rnd_b rnd draw (Some z) = Ok l /\ length l = Z.to_nat z
          /\ Forall2 (fun k j => holds_row last_frame o ns (adds_of ops) j /\ draw_law arr (draw k) j)
               (seq 0 (Z.to_nat z)) l).
Proof.
  intros pw eps Ob A Inf R r0 radd lf o ns ops rnd_b rnd draw z Hpw Heps Hn Hok.
  destruct (pm_run_ok pw eps Hpw Heps r0 radd lf o ns Hn ops [] _ (pm_init r0 ns) [] eq_refl (GM_init r0 ns Hn) Hok)
    as (m & arr & outs & E & Hg & Hrun).
  cbn [app] in *. exists m, arr, outs. split; [exact E|]. split; [exact Hrun|].
  pose proof Hg as [_ Ht _ Hw]. cbn [snd] in *. pose proof (treeok_length _ _ _ Ht) as Hl.
  pose proof (holds_row_St r0 radd lf o ns (adds_of ops) (pm_mgr m) outs Hn Hrun) as HS.
  split; [exact Hl|]. split.
  - intros i Hi. split; [apply (treeok_get _ _ _ i Ht Hi)|]. destruct (Hw i) as [H1 H2]; [lia|].
    rewrite (HS i). auto.
  - intros (i0 & Hi0) Hz Hd. apply HS in Hi0. pose proof (GM_total _ _ _ _ Hg Hi0) as Hlt.
    assert (Hlen : 0 < m_len (pm_mgr m)).
    { destruct Hg as [(bs & Hs & _) _ _ _]. destruct Hs as [K1 K2 K3 K4 K5 K6 K7 K8].
      destruct Hi0 as (k & s & Hk & Hr). unfold m_len.
      assert (Hls : m_lens (pm_mgr m) = map size (m_bufs (pm_mgr m))).
      { rewrite K2, map_map. assumption. }
      rewrite Hls. clear - Hk Hr. assert (Hsz : 0 < size s) by lia. clear Hr. revert k Hk.
      induction (m_bufs (pm_mgr m)) as [|x l IH]; intros [|k] Hk; try discriminate; unfold list_sum in *; cbn [map fold_right].
      - injection Hk as ->. lia.
      - specialize (IH k Hk). lia. }
    unfold pm_sample_indices. replace ((0 <? z)%Z && (0 <? m_len (pm_mgr m))) with true by lia.
    destruct (prio_draw_ok (list_sum ns) (pm_prio m) arr (St ns (m_bufs (pm_mgr m)))
                (map draw (seq 0 (Z.to_nat z))) Ht Hw) as (l & El & Hf).
    + apply St_dec.
    + eauto.
    + destruct (Z.to_nat z) eqn:Ez; [lia|discriminate].
    + intros r Hr. apply in_map_iff in Hr as (j & <- & _). destruct (Hd j). split; [qclra|assumption].
    + right. intros r Hr. apply in_map_iff in Hr as (j & <- & _). apply Hd.
    + exists l. split; [exact El|]. split.
      * apply Forall2_length in Hf. rewrite map_length, seq_length in Hf. lia.
      * apply Forall2_map_l in Hf. clear - Hf HS. induction Hf as [|k j ks l (F1 & F2 & F3) Hf IH]; constructor.
        -- split; [apply HS, F2|exact F3].
        -- exact IH.
Qed.

(** C16.  One [add] on the manager: the reported indices get [pw max_prio], the others keep
    their weight. *)
Lemma C16_manager_add_lemma : forall pw eps (Ob A Inf R : Type) (r0 : R) radd (last_frame : Ob -> Ob) o ns
    (ops : list (pmop Ob A Inf R)) m ids ts,
  (forall x, (0 < x)%Qc -> (0 < pw x)%Qc) -> (0 < eps)%Qc -> (forall n, In n ns -> 0 < n) ->
  pmops_ok last_frame o ns [] ops -> pm_run pw eps r0 radd last_frame o (pm_init r0 ns) ops = Ok m ->
  mop_ok (length ns) (MAdd ids ts) ->
  exists m' rs, pm_add pw r0 radd last_frame o m ids ts = Ok (m', rs)
    /\ m_add r0 radd last_frame o (pm_mgr m) ids ts = Ok (pm_mgr m', rs)
    /\ p_max (pm_prio m') = p_max (pm_prio m) /\ p_min (pm_prio m') = p_min (pm_prio m)
    /\ forall i, i < list_sum ns ->
         st_getitem (p_tree (pm_prio m')) (Z.of_nat i)
         = if existsb (Nat.eqb i) (map (fun r => fst (fst (fst r))) rs)
           then Ok (pw (p_max (pm_prio m))) else st_getitem (p_tree (pm_prio m)) (Z.of_nat i).
Proof.
  intros pw eps Ob A Inf R r0 radd lf o ns ops m ids ts Hpw Heps Hn Hok Hrun Hmop.
  destruct (pm_run_ok pw eps Hpw Heps r0 radd lf o ns Hn ops [] _ (pm_init r0 ns) [] eq_refl (GM_init r0 ns Hn) Hok)
    as (m0 & arr & outs & E & Hg & _).
  rewrite Hrun in E. injection E as <-. cbn [app] in Hg.
  destruct (GM_add pw Hpw r0 radd lf o ns _ arr m ids ts Hg Hmop) as (m' & rs & E1 & E2 & Hg' & E3 & E4).
  exists m', rs. split; [exact E1|]. split; [exact E2|]. split; [exact E3|]. split; [exact E4|].
  intros i Hi. pose proof (gm_tree _ _ _ Hg) as Ht. pose proof (gm_tree _ _ _ Hg') as Ht'. cbn [snd] in Ht, Ht'.
  rewrite (treeok_get _ _ _ i Ht' Hi), (treeok_get _ _ _ i Ht Hi).
  pose proof (treeok_length _ _ _ Ht) as Hl. clear - Hi Hl Ht Ht'. revert arr Hl Ht Ht'.
  assert (W : forall (rs : list (nat * R * nat * nat)) (v : Qc) arr, i < length arr ->
    nth i (write_all arr (map (fun r => Z.of_nat (fst (fst (fst r)))) rs) (map (fun _ => v) rs)) 0%Qc
    = if existsb (Nat.eqb i) (map (fun r => fst (fst (fst r))) rs) then v else nth i arr 0%Qc).
  { clear. intros rs v. induction rs as [|r rs IH]; intros arr Hi; [reflexivity|].
    cbn [map write_all existsb]. rewrite IH by (rewrite upd_length; exact Hi). rewrite Nat2Z.id.
    destruct (existsb _ _); [rewrite orb_true_r; reflexivity|]. rewrite orb_false_r.
    destruct (Nat.lt_ge_cases (fst (fst (fst r))) (length arr)) as [H|H].
    - rewrite nth_upd by exact H. rewrite (Nat.eqb_sym i). reflexivity.
    - destruct (Nat.eqb_spec i (fst (fst (fst r)))); [lia|].
      destruct (nth_error arr i) as [y|] eqn:E; [|apply nth_error_None in E; lia].
      rewrite (nth_error_nth _ _ _ E). apply nth_error_nth. rewrite nth_error_upd_other by lia. exact E. }
  intros arr Hl _ _. rewrite W by lia. destruct (existsb _ _); reflexivity.
Qed.

(** *** Findings *)
Definition qq (n : Z) (d : positive) : Qc := Q2Qc (n # d).
Definition prun := p_run (A := nat) (Inf := unit) (fun x => (x * x)%Qc) (qq 1 8) 0%Z Z.add (fun x : nat => x).

(** C60.  [get_weight] divides the stored weight [p^alpha] by the un-exponentiated [min_prio]:
    with alpha = 2, beta = 1 the least likely transition, which should have weight 1 in the
    formula quoted in the comment, gets weight 2 without [weight_norm]. *)
Lemma C60_weight_above_one_refuted_lemma : exists (b : pbuf nat nat unit Z) w0 w1,
  prun plain (pb_init 0%Z 3) [PAdd (zt 1 false); PAdd (zt 2 false); PWeights [0%Z] [qq 3 8]] = Ok b
  /\ get_weight (fun x => (/ x)%Qc) (pb_prio b) [0; 1]%Z = Ok [w0; w1]
  /\ w0 = qq 2 1 /\ (1 < w0)%Qc.
Proof.
  do 3 eexists. split; [vm_compute; reflexivity|]. split; [vm_compute; reflexivity|].
  split; [apply Qc_is_canon; vm_compute; reflexivity|vm_compute; reflexivity].
Qed.

(** C61.  [reset] keeps the weights: a later sample returns an index that is no longer stored. *)
Lemma C61_reset_stale_refuted_lemma : exists (b b' : pbuf nat nat unit Z),
  prun plain (pb_init 0%Z 3) [PAdd (zt 1 false); PAdd (zt 2 false); PAdd (zt 3 true)] = Ok b
  /\ prun plain (pb_reset 0%Z false b) [PAdd (zt 4 false)] = Ok b'
  /\ size (b_st (pb_buf b')) = 1
  /\ pb_sample_indices plain b' (fun _ => 0) (fun _ => qq 1 2) (Some 1%Z) = Ok [1].
Proof. eexists. eexists. split; [vm_compute; reflexivity|]. split; [vm_compute; reflexivity|]. split; vm_compute; reflexivity. Qed.

(** C62.  [sample_avail] is ignored: with stack_num = 2 the first step of an episode is sampled
    although [sample_indices(0)] leaves it out. *)
Lemma C62_sample_avail_refuted_lemma : exists (b : pbuf nat nat unit Z),
  let o := mkOpts 2 true false true in
  prun o (pb_init 0%Z 3) [PAdd (zt 1 false); PAdd (zt 2 false)] = Ok b
  /\ pb_sample_indices o b (fun _ => 0) (fun _ => 0%Qc) (Some 0%Z) = Ok [1]
  /\ pb_sample_indices o b (fun _ => 0) (fun _ => 0%Qc) (Some 1%Z) = Ok [0].
Proof. eexists. cbv zeta. split; [vm_compute; reflexivity|]. split; vm_compute; reflexivity. Qed.

(** C63.  [PrioritizedVectorReplayBuffer.set_beta] does not change the weights it returns. *)
Lemma C63_set_beta_refuted_lemma : forall p beta n beta' m index,
  vec_get_weight p (vec_set_beta (betas_init beta n) beta') m index = vec_get_weight p (betas_init beta n) m index.
Proof. reflexivity. Qed.

(** C64.  [update] from an empty buffer, a no-op for ReplayBuffer, reads [index[0]] of an empty
    array in a prioritized buffer. *)
Lemma C64_update_empty_refuted_lemma : forall n n2 (b : pbuf nat nat unit Z), 0 < n ->
  b = pb_init 0%Z n ->
  update (pb_buf b) (buf_init 0%Z n2) = Ok (pb_buf b, [])
  /\ pb_update (fun x => x) b (buf_init 0%Z n2) = Err IndexError.
Proof.
  intros n n2 b Hn ->. split; [reflexivity|]. unfold pb_update.
  change (update _ _) with (Ok (pb_buf (pb_init (Ob := nat) (A := nat) (Inf := unit) 0%Z n), @nil nat)).
  cbn [bind snd map]. unfold init_weight, st_setitem, setitem_, guard. cbn [map forallb length Nat.eqb].
  destruct (length _); reflexivity.
Qed.

(** C65.  In a manager whose first sub-buffer is empty, a draw of exactly 0 returns index 0,
    which holds no transition. *)
Lemma C65_manager_draw_zero_refuted_lemma : exists (m : pmgr nat nat unit Z),
  pm_run (fun x => x) (qq 1 8) 0%Z Z.add (fun x : nat => x) plain (pm_init 0%Z [2; 2])
    [PMAdd (Some [1%Z]) [zt 1 false]] = Ok m
  /\ m_lens (pm_mgr m) = [0; 1]
  /\ pm_sample_indices plain m (fun _ => 0) (fun _ _ => 0) (fun _ => 0%Qc) (Some 1%Z) = Ok [0].
Proof. eexists. split; [vm_compute; reflexivity|]. split; vm_compute; reflexivity. Qed.

(** ** What holds of C60 and C61 *)
Definition from_seen (pw : Qc -> Qc) (seen arr : list Qc) (m : nat) : Prop :=
  forall i, i < m -> exists x, In x (1%Qc :: seen) /\ nth i arr 0%Qc = pw x.
Lemma ring_fill_length n v : forall k arr c, length (ring_fill n arr c k v) = length arr.
Proof. induction k as [|k IH]; intros arr c; [reflexivity|]. cbn [ring_fill]. rewrite IH. apply upd_length. Qed.
Lemma from_seen_fill pw seen n x : 0 < n -> In x (1%Qc :: seen) -> forall k arr c, length arr = n -> from_seen pw seen arr (Nat.min c n) ->
  from_seen pw seen (ring_fill n arr c k (pw x)) (Nat.min (c + k) n).
Proof.
  intros Hn Hx. induction k as [|k IH]; intros arr c Hl H; cbn [ring_fill]; [rewrite Nat.add_0_r; exact H|].
  replace (c + S k) with (S c + k) by lia. apply IH; [rewrite upd_length; exact Hl|]. intros i Hi.
  pose proof (Nat.mod_upper_bound c n ltac:(lia)) as Hm. rewrite nth_upd by lia. destruct (Nat.eqb_spec (c mod n) i) as [E|E]; [eauto|].
  apply H. destruct (Nat.lt_ge_cases i c) as [F|F]; [lia|]. exfalso. assert (i = c) by lia. subst i. apply E. apply Nat.mod_small. lia.
Qed.
Lemma from_seen_write pw seen m : forall idx ws arr (f : Qc -> Qc), (forall w, In w ws -> In (f w) (1%Qc :: seen)) -> m <= length arr -> (forall i, In i idx -> (0 <= i < Z.of_nat m)%Z) ->
  from_seen pw seen arr m -> from_seen pw seen (write_all arr idx (map (fun w => pw (f w)) ws)) m.
Proof.
  induction idx as [|i idx IH]; intros [|w ws] arr f Hf Hl Hi H; try exact H. cbn [map write_all]. apply IH.
  - intros w' Hw. apply Hf. right. exact Hw.
  - rewrite upd_length. exact Hl.
  - intros j Hj. apply Hi. right. exact Hj.
  - intros j Hj. assert (Hi0 := Hi i (or_introl eq_refl)). rewrite nth_upd by lia. destruct (Nat.eqb_spec (Z.to_nat i) j); [exists (f w); split; [apply Hf; left; reflexivity|reflexivity]|]. apply H, Hj.
Qed.
Lemma from_seen_more pw seen seen' arr m : (forall x, In x seen -> In x seen') -> from_seen pw seen arr m -> from_seen pw seen' arr m.
Proof. intros Hs H i Hi. destruct (H i Hi) as (x & [Hx|Hx] & E); exists x; split; auto; [left|right]; auto. Qed.
Lemma write_all_length : forall idx (vals arr : list Qc), length (write_all arr idx vals) = length arr.
Proof. induction idx as [|i idx IH]; intros [|v vals] arr; try reflexivity. cbn [write_all]. rewrite IH. apply upd_length. Qed.
Lemma ps_from_seen pw eps (Ob A Inf R : Type) (r0 : R) radd (last_frame : Ob -> Ob) o n : 0 < n -> forall (ops : list (pop Ob A Inf R)) s,
  length (ps_arr s) = n -> pops_ok pw eps r0 radd last_frame o n s ops -> from_seen pw (ps_seen s) (ps_arr s) (Nat.min (ps_cnt s) n) ->
  let s' := fold_left (ps_step pw eps n) ops s in from_seen pw (ps_seen s') (ps_arr s') (Nat.min (ps_cnt s') n).
Proof.
  intros Hn. induction ops as [|op ops IH]; intros s Hl Hok H; [exact H|]. destruct Hok as [Ho Hok]. cbn [fold_left]. apply IH; [|exact Hok|].
  - destruct op; cbn [ps_step ps_arr]; [rewrite ring_fill_length|rewrite ring_fill_length|rewrite write_all_length]; exact Hl.
  - destruct op as [t|src|index ws]; cbn [ps_step ps_arr ps_seen ps_cnt pop_ok] in *.
    + replace (S (ps_cnt s)) with (ps_cnt s + 1) by lia. apply from_seen_fill; auto. apply highest_is_max.
    + apply from_seen_fill; auto. apply highest_is_max.
    + destruct Ho as (Hne & Hlw & Hi). apply from_seen_write.
      * intros w Hw. right. apply in_or_app. right. apply in_map, Hw.
      * lia.
      * exact Hi.
      * apply (from_seen_more pw (ps_seen s)); [|exact H]. intros x Hx. apply in_or_app. left. exact Hx.
Qed.

(** C60.  For an exponent alpha in [0, 1] (then [x ** alpha >= min x 1]) the un-normalised weight of
    every stored transition is at most 1. *)
Lemma C60_small_alpha_partial_lemma : forall pw ipw eps (Ob A Inf R : Type) (r0 : R) radd (last_frame : Ob -> Ob) o n
    (ops : list (pop Ob A Inf R)) b index,
  (forall x, (0 < x)%Qc -> (x <= pw x \/ 1 <= pw x)%Qc) -> (forall x, (1 <= x)%Qc -> (ipw x <= 1)%Qc) -> (0 < eps)%Qc -> 0 < n ->
  pops_ok pw eps r0 radd last_frame o n (ps_init n) ops ->
  p_run pw eps r0 radd last_frame o (pb_init r0 n) ops = Ok b ->
  (forall i, In i index -> i < size (b_st (pb_buf b))) ->
  exists ws, get_weight ipw (pb_prio b) (map Z.of_nat index) = Ok ws /\ length ws = length index /\ forall w, In w ws -> (w <= 1)%Qc.
Proof.
  intros pw ipw eps Ob A Inf R r0 radd lf o n ops b index Hp Hipw Heps Hn Hok Hrun Hidx.
  assert (Hpw : forall x, (0 < x)%Qc -> (0 < pw x)%Qc) by (intros x Hx; destruct (Hp x Hx); qclra).
  destruct (C16_weights_lemma pw eps Ob A Inf R r0 radd lf o n ops Hpw Heps Hn Hok) as (b' & E & Hl & Hget & Hmx & Hmn & Hsz & Hpos).
  rewrite Hrun in E. injection E as <-. set (s := ps_run pw eps n ops) in *.
  pose proof (ps_from_seen pw eps Ob A Inf R r0 radd lf o n Hn ops (ps_init n)) as Hfs. cbn [ps_init ps_arr ps_cnt ps_seen] in Hfs. specialize (Hfs (repeat_length _ _) Hok ltac:(intros i Hi; lia)). cbv zeta in Hfs.
  fold (ps_init n) in Hfs. fold (ps_run pw eps n ops) in Hfs. fold s in Hfs.
  assert (Hlow : (0 < lowest (ps_seen s))%Qc).
  { destruct (lowest_is_min (ps_seen s)) as [[H|H] _].
    - rewrite <- H. qclra.
    - apply (seen_pos pw eps n Heps ops (ps_init n) ltac:(intros x []) _ H). }
  exists (map (fun i => ipw (nth i (ps_arr s) 0 / lowest (ps_seen s))%Qc) index). split; [|split; [apply map_length|]].
  - unfold get_weight. clear - Hidx Hget Hmn Hsz. induction index as [|i index IH]; [reflexivity|]. cbn [map mapM].
    assert (i < size (b_st (pb_buf b))) by (apply Hidx; left; reflexivity).
    rewrite Hget by lia. cbn [bind]. rewrite IH by (intros j Hj; apply Hidx; right; exact Hj).
    cbn [bind]. rewrite Hmn. reflexivity.
  - intros w Hw. apply in_map_iff in Hw as (i & <- & Hi). apply Hidx in Hi. apply Hipw. destruct (Hfs i ltac:(lia)) as (x & Hx & ->).
    destruct (lowest_is_min (ps_seen s)) as [_ Hmin]. pose proof (Hmin x Hx) as Hx1. pose proof (Hmin 1%Qc (or_introl eq_refl)) as H1.
    assert (Hge : (lowest (ps_seen s) <= pw x)%Qc) by (destruct (Hp x ltac:(qclra)); qclra).
    set (lo := lowest (ps_seen s)) in *. assert (Ed : (pw x / lo * lo = pw x)%Qc) by (field; intros F; rewrite F in Hlow; qclra).
    set (d := (pw x / lo)%Qc) in *. destruct (Qclt_le_dec d 1) as [F|F]; [|exact F]. exfalso. clear - F Ed Hge Hlow. qcnra.
Qed.

(** C61.  After reset() and at least as many adds as there were rows before (or as fit into the
    buffer), only stored indices are sampled again. *)
Lemma C61_refilled_partial_lemma : forall pw eps (Ob A Inf R : Type) (r0 : R) radd (last_frame : Ob -> Ob) o n
    (ops : list (pop Ob A Inf R)) b keep ts b' rnd draw z,
  (forall x, (0 < x)%Qc -> (0 < pw x)%Qc) -> (0 < eps)%Qc -> 0 < n ->
  pops_ok pw eps r0 radd last_frame o n (ps_init n) ops ->
  p_run pw eps r0 radd last_frame o (pb_init r0 n) ops = Ok b ->
  p_run pw eps r0 radd last_frame o (pb_reset r0 keep b) (map PAdd ts) = Ok b' ->
  0 < length ts -> size (b_st (pb_buf b)) <= length ts -> (0 < z)%Z -> (forall j, (0 <= draw j)%Qc /\ (draw j < 1)%Qc) ->
  exists l, pb_sample_indices o b' rnd draw (Some z) = Ok l /\ length l = Z.to_nat z /\ forall j, In j l -> j < size (b_st (pb_buf b')).
Proof.
  intros pw eps Ob A Inf R r0 radd lf o n ops b keep ts b' rnd draw z Hpw Heps Hn Hok Hrun Hrun2 Hts Hle Hz Hd.
  destruct (p_run_ok pw eps Hpw Heps r0 radd lf o n ops _ _ (G_init r0 n Hn) Hok) as (b1 & E & Hg).
  rewrite Hrun in E. injection E as <-. destruct Hg as [[q Hi] Ht Hmx Hmn Hin Hsz Hw]. set (s := fold_left _ ops _) in *. set (old := size (b_st (pb_buf b))) in *.
  assert (Hmax : (0 < p_max (pb_prio b))%Qc) by (rewrite Hmx; apply highest_pos).
  assert (Hold : old <= n) by (rewrite Hsz; lia). clearbody old.
  assert (Main : forall (ts : list (trans Ob A Inf R)) k (bb : pbuf Ob A Inf R) q arr bb', inv n (pb_buf bb) q -> treeok n (p_tree (pb_prio bb)) arr -> ins (b_st (pb_buf bb)) = k mod n -> size (b_st (pb_buf bb)) = Nat.min k n ->
      (0 < p_max (pb_prio bb))%Qc -> wpos (fun i => i < Nat.max old (Nat.min k n)) arr -> p_run pw eps r0 radd lf o bb (map PAdd ts) = Ok bb' ->
      exists arr', treeok n (p_tree (pb_prio bb')) arr' /\ size (b_st (pb_buf bb')) = Nat.min (k + length ts) n /\ wpos (fun i => i < Nat.max old (Nat.min (k + length ts) n)) arr').
  { clear - Hpw Hn Heps. induction ts as [|t ts IH]; intros k bb q arr bb' Hi Ht Hin Hsz Hmax Hw Hr; cbn [map p_run length] in *.
    - injection Hr as <-. rewrite Nat.add_0_r. eauto.
    - pose proof (i_s _ _ _ Hi) as Hs.
      destruct (add_ok r0 radd lf n (pb_buf bb) q o t Hi) as (b1 & ret & len & E & Hi1 & _ & _ & E1 & E2).
      unfold pb_add in Hr. rewrite E in Hr. cbn [bind fst snd] in Hr.
      destruct (init_weight_ok pw n (pb_prio bb) arr [Z.of_nat (ins (b_st (pb_buf bb)))] Ht) as (p & Ep & Ht' & Em1 & Em2).
      { discriminate. }
      { intros i [<-|[]]. pose proof (i_ins _ _ Hs). lia. }
      rewrite Ep in Hr. cbn [bind fst snd] in Hr. replace (k + S (length ts)) with (S k + length ts) by lia.
      eapply IH; [| | | | | |exact Hr]; cbn [pb_buf pb_prio].
      + exact Hi1.
      + exact Ht'.
      + rewrite E1. unfold advance. cbn [ins]. rewrite (i_max _ _ Hs), Hin, Nat.add_mod_idemp_l by lia. f_equal. lia.
      + rewrite E2. unfold advance. cbn [size]. rewrite (i_max _ _ Hs), Hsz. lia.
      + rewrite Em1. exact Hmax.
      + cbn [map write_all]. rewrite Nat2Z.id, Hin. pose proof (treeok_length _ _ _ Ht) as Hl. pose proof (Nat.mod_upper_bound k n ltac:(lia)) as Hm.
        eapply wpos_ext; [|apply wpos_upd; [exact Hw|lia|apply Hpw, Hmax]]. intros i Hi'. rewrite upd_length, Hl in Hi'. cbn beta.
        assert (Hk : k mod n < Nat.max old (Nat.min (S k) n)) by (destruct (Nat.lt_ge_cases k n); [rewrite Nat.mod_small by lia; lia|lia]).
        split; [lia|]. intros F. destruct (Nat.lt_ge_cases i (Nat.max old (Nat.min k n))) as [F'|F']; [left; exact F'|right].
        assert (k < n) by lia. rewrite Nat.mod_small by lia. lia. }
  destruct (Main ts 0 (pb_reset r0 keep b) [] (ps_arr s) b') as (arr' & Ht' & Hsz' & Hw').
  - cbn [pb_reset pb_buf]. apply (inv_reset r0 n _ q). exact Hi.
  - exact Ht.
  - cbn. rewrite Nat.mod_0_l by lia. reflexivity.
  - reflexivity.
  - exact Hmax.
  - eapply wpos_ext; [|exact Hw]. intros i _. cbn beta. rewrite Hsz. lia.
  - exact Hrun2.
  - cbn [Nat.add] in *. assert (Ho : Nat.max old (Nat.min (length ts) n) = Nat.min (length ts) n) by lia. rewrite Ho in Hw'.
    unfold pb_sample_indices. rewrite Hsz'. replace ((0 <? z)%Z && (0 <? Nat.min (length ts) n)) with true by lia.
    destruct (prio_draw_ok n (pb_prio b') arr' (fun i => i < Nat.min (length ts) n) (map draw (seq 0 (Z.to_nat z))) Ht' Hw') as (l & El & Hf).
    + intros i. apply lt_dec.
    + exists 0. lia.
    + destruct (Z.to_nat z) eqn:Ez; [lia|discriminate].
    + intros r Hr. apply in_map_iff in Hr as (j & <- & _). apply Hd.
    + left. lia.
    + exists l. split; [exact El|]. split; [apply Forall2_length in Hf; rewrite map_length, seq_length in Hf; lia|].
      intros j Hj. clear - Hf Hj. induction Hf as [|r j0 ds l' (F1 & F2 & F3) _ IH]; [destruct Hj|]. destruct Hj as [<-|Hj]; [exact F2|apply IH, Hj].
Qed.
