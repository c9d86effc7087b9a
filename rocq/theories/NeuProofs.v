(** * Proofs about options that make no difference *)
From Verif Require Import Py PyLemmas Num BufferModel ManagerModel PrioModel PrioSpec TatSpec TatProofs DqnModel DqnProofs ActorModel ActorProofs StatModel StatProofs OfflineModel IcmModel SpcSpec SpcProofs NeuSpec.
Open Scope nat_scope.

(** ** Targets *)
Lemma mean_repeat q k : 0 < k -> np_mean (repeat q k) = q.
Proof.
  intros Hk. unfold np_mean. rewrite repeat_length.
  assert (E : qsum (repeat q k) = (q * sq k)%Qc).
  { clear. induction k as [|k IH]; [change (sq 0) with 0%Qc; cbn; ring|]. cbn [repeat qsum fold_right]. change (fold_right Qcplus 0%Qc (repeat q k)) with (qsum (repeat q k)). rewrite IH, sq_S. ring. }
  rewrite E. unfold Qcdiv. rewrite <- Qcmult_assoc, Qcmult_inv_r; [ring|]. apply sq_neq. exact Hk.
Qed.
(** C345.  Without entropy term the target of SAC is that of TD3 without noise, at the same action. *)
Lemma C345_sac_td3_lemma : forall (Cfg OS Ob Rnd : Type) (W : @world Cfg OS Ob Rnd) (noise_clip log_prob : Qc) (z : list Qc) (s : @st Cfg OS) (o : Ob),
  length z = length (w_actor W (s_aold s) o) ->
  sac_target W 0 s o (w_actor W (s_aold s) o) log_prob = td3_target W 0 noise_clip z s o.
Proof.
  intros Cfg OS Ob Rnd W nc lp z s o Hz. unfold sac_target, td3_target. rewrite (no_noise nc z _ Hz). ring.
Qed.

(** C345.  REDQ with two members, both taken, has the target of SAC; with one member taken mean and minimum are the
    same, as they are when all members agree. *)
Lemma C345_redq_lemma : forall (alpha log_prob q1 q2 : Qc) (mode : tmode),
  redq_target TMin alpha log_prob [q1; q2] [0; 1] = Ok (Qcminb q1 q2 - alpha * log_prob)%Qc
  /\ redq_target TMin alpha log_prob [q1; q2] [1; 0] = Ok (Qcminb q1 q2 - alpha * log_prob)%Qc
  /\ (forall qs i, nth_error qs i = Some q1 -> redq_target mode alpha log_prob qs [i] = Ok (q1 - alpha * log_prob)%Qc)
  /\ (forall qs idx, idx <> [] -> (forall i, In i idx -> nth_error qs i = Some q1) -> redq_target mode alpha log_prob qs idx = Ok (q1 - alpha * log_prob)%Qc).
Proof.
  intros alpha lp q1 q2 mode.
  assert (Hall : forall qs idx, idx <> [] -> (forall i, In i idx -> nth_error qs i = Some q1) -> redq_target mode alpha lp qs idx = Ok (q1 - alpha * lp)%Qc).
  { intros qs idx Hne H. unfold redq_target.
    assert (E : mapM (fun i => zget qs (Z.of_nat i)) idx = Ok (repeat q1 (length idx))).
    { clear Hne. induction idx as [|i idx IH]; [reflexivity|]. cbn [mapM length repeat].
      rewrite (zget_nth_error qs i q1) by (apply H; left; reflexivity). cbn [bind]. rewrite IH; [reflexivity|]. intros j Hj. apply H. right. exact Hj. }
    rewrite E. cbn [bind]. destruct idx as [|i idx]; [contradiction|]. cbn [length repeat]. destruct mode.
    - do 2 f_equal. cbn [minl]. clear. induction (length idx) as [|k IH]; [reflexivity|]. cbn [repeat fold_left]. replace (Qcminb q1 q1) with q1; [exact IH|]. unfold Qcminb. destruct (Qcleb q1 q1); reflexivity.
    - do 2 f_equal. change (q1 :: repeat q1 (length idx)) with (repeat q1 (S (length idx))). apply mean_repeat, Nat.lt_0_succ. }
  assert (Ec : Qcminb q2 q1 = Qcminb q1 q2).
  { unfold Qcminb. destruct (Qcleb_spec q2 q1) as [E1|E1], (Qcleb_spec q1 q2) as [E2|E2]; try reflexivity.
    - apply Qcle_antisym; assumption.
    - exfalso. clear - E1 E2. qclra. }
  split; [reflexivity|]. split; [unfold redq_target; cbn [mapM bind]; change (zget [q1; q2] (Z.of_nat 1)) with (@Ok Qc q2); change (zget [q1; q2] (Z.of_nat 0)) with (@Ok Qc q1); cbn [bind minl fold_left]; rewrite Ec; reflexivity|].
  split; [|exact Hall]. intros qs i Hi. apply Hall; [discriminate|]. intros j [<-|[]]. exact Hi.
Qed.

(** C345.  The one-step target of CQL is built from the target of SAC; that of BCQ with one sampled action and lambda 1 is
    that of CQL without entropy term, at the decoded actions. *)
Lemma C345_offline_lemma : forall (Cfg OS Ob Rnd : Type) (W : @world Cfg OS Ob Rnd) (s : @st Cfg OS) (alpha gamma : Qc) (decode : nat -> Ob -> list Qc)
  (batch : list (Qc * bool * Ob)) (acts : list (list Qc * Qc)),
  let tgt o (a : list Qc) := Qcminb (w_critic W (s_c1old s) o a) (w_critic W (s_c2old s) o a) in
  cql_targets alpha gamma (map (fun x : Qc * bool * Ob * (list Qc * Qc) => let '((r, d, o), (a, lp)) := x in (r, d, tgt o a, lp)) (combine batch acts))
  = map (fun x : Qc * bool * Ob * (list Qc * Qc) => let '((r, d, o), (a, lp)) := x in (r + (if d then 0 else 1) * gamma * sac_target W alpha s o a lp)%Qc) (combine batch acts)
  /\ bcq_targets (w_critic W (s_c1old s)) (w_critic W (s_c2old s)) decode 1 1 gamma batch
  = cql_targets 0 gamma (map (fun x : nat * (Qc * bool * Ob) => let '(k, (r, d, o)) := x in (r, d, tgt o (decode k o), 0%Qc)) (combine (seq 0 (length batch)) batch)).
Proof.
  intros Cfg OS Ob Rnd W s alpha gamma decode batch acts tgt. split.
  - unfold cql_targets. rewrite map_map. apply map_ext. intros [[[r d] o] [a lp]]. reflexivity.
  - unfold bcq_targets, cql_targets. rewrite map_map.
    assert (Er : forall l : list Ob, repeat_rows 1 l = l) by (intros l; unfold repeat_rows; induction l as [|x l IH]; [reflexivity|cbn; f_equal; exact IH]).
    rewrite Er, map_length.
    assert (Esh : forall (l : list Qc) k, length l = k -> map maxl (reshape k 1 l) = l).
    { induction l as [|x l IH]; intros k <-; [reflexivity|]. cbn. f_equal. apply IH. reflexivity. }
    rewrite Esh by (rewrite map_length, combine_length, seq_length, map_length; lia).
    generalize 0 as k. induction batch as [|[[r d] o] batch IH]; intros k; [reflexivity|].
    cbn [length seq map combine snd]. f_equal; [|apply IH].
    unfold clipped, tgt. ring.
Qed.

(** C345.  With a policy that always takes one action, discrete SAC has the clipped double estimate of that action as target,
    and discrete CRR the value of that action. *)
Lemma C345_discrete_lemma : forall (alpha gamma : Qc) (i : nat) (logp q1 q2 : list Qc) (r : Qc) (d : bool),
  i < length q1 -> length q2 = length q1 -> length logp = length q1 -> nth i logp 0%Qc = 0%Qc ->
  dsac_target alpha (one_hot (length q1) i) logp q1 q2 = Qcminb (nth i q1 0%Qc) (nth i q2 0%Qc)
  /\ crr_targets gamma [(r, d, (q1, one_hot (length q1) i))] = [(r + gamma * (if d then 0 else nth i q1 0))%Qc].
Proof.
  intros alpha gamma i logp q1 q2 r d Hi H2 Hp Hz.
  assert (Hdot : forall (l : list Qc) a, dot (map (fun k => if k =? i then 1%Qc else 0%Qc) (seq a (length l))) l = if (a <=? i) && (i <? a + length l) then nth (i - a) l 0%Qc else 0%Qc).
  { intros l. induction l as [|x l IH]; intros a.
    - cbn [length seq map]. unfold dot. cbn [combine map qsum fold_right]. destruct ((a <=? i) && (i <? a + 0)); [destruct (i - a)|]; reflexivity.
    - cbn [length seq map]. unfold dot in IH |- *. cbn [combine map qsum fold_right fst snd]. change (fold_right Qcplus 0%Qc) with qsum. rewrite IH.
      destruct (Nat.eqb_spec a i) as [->|Hne].
      + rewrite Nat.sub_diag. cbn [nth]. replace (S i <=? i) with false by (symmetry; apply Nat.leb_gt; lia). cbn [andb].
        replace (i <=? i) with true by (symmetry; apply Nat.leb_le; lia). replace (i <? i + S (length l)) with true by (symmetry; apply Nat.ltb_lt; lia). cbn [andb]. ring.
      + replace (S a + length l) with (a + S (length l)) by lia.
        destruct (Nat.leb_spec a i) as [Hle|Hgt].
        * replace (S a <=? i) with true by (symmetry; apply Nat.leb_le; lia). cbn [andb].
          destruct (i <? a + S (length l)); [|ring]. replace (i - a) with (S (i - S a)) by lia. cbn [nth]. ring.
        * replace (S a <=? i) with false by (symmetry; apply Nat.leb_gt; lia). cbn [andb]. ring. }
  assert (H1 : forall l : list Qc, length l = length q1 -> dot (one_hot (length q1) i) l = nth i l 0%Qc).
  { intros l Hl. unfold one_hot. rewrite <- Hl. rewrite Hdot. cbn [Nat.leb andb Nat.add]. rewrite Nat.sub_0_r.
    replace (i <? length l) with true by (symmetry; apply Nat.ltb_lt; lia). reflexivity. }
  split.
  - unfold dsac_target, entropy. rewrite (H1 logp Hp), Hz. rewrite H1 by (unfold minrow; rewrite map_length, combine_length; lia).
    unfold minrow. rewrite (nth_indep _ 0%Qc (Qcminb 0 0)) by (rewrite map_length, combine_length; lia).
    change (Qcminb 0 0) with ((fun xy : Qc * Qc => Qcminb (fst xy) (snd xy)) (0%Qc, 0%Qc)) at 1. rewrite map_nth, combine_nth by (symmetry; exact H2). cbn [fst snd]. ring.
  - unfold crr_targets. cbn [map]. do 2 f_equal. f_equal. destruct d; [reflexivity|].
    rewrite <- (H1 q1 eq_refl). unfold qdot, dot. f_equal. generalize (one_hot (length q1) i). clear. induction q1 as [|x q IH]; intros [|y l]; try reflexivity. cbn [combine map fst snd]. rewrite IH. f_equal. ring.
Qed.

(** ** Prioritized buffer of one *)
Lemma pone_ops {Ob A Inf R : Type} (pw : Qc -> Qc) (eps : Qc) (r0 : R) (radd : R -> R -> R) (last_frame : Ob -> Ob) (o : opts) ids :
  ids = None \/ ids = Some [0%Z] -> forall (ops : list (wop Ob A Inf R)) (b : pbuf Ob A Inf R) outs, fits (pb_buf b) ->
  foldM (pmgr_op pw eps r0 radd last_frame o ids) ops (as_pmgr b, outs) = rmap (fun y => (as_pmgr (fst y), snd y)) (foldM (pbuf_op pw eps r0 radd last_frame o) ops (b, outs))
  /\ forall b' outs', foldM (pbuf_op pw eps r0 radd last_frame o) ops (b, outs) = Ok (b', outs') -> fits (pb_buf b').
Proof.
  intros Hi. induction ops as [|op ops IH]; intros b outs Hf.
  { split; [reflexivity|]. intros b' outs' H. injection H as <- _. exact Hf. }
  cbn [foldM]. destruct op as [t|i w]; cbn [pmgr_op pbuf_op fst snd].
  - unfold pm_add, pb_add, as_pmgr. cbn [pm_mgr pm_prio]. rewrite one_add by assumption.
    destruct (add r0 radd last_frame o (pb_buf b) t) as [[b1 r]|e] eqn:E; cbn [rmap bind fst snd map]; [|split; [reflexivity|discriminate]].
    destruct (init_weight pw (pb_prio b) [Z.of_nat (fst (fst (fst r)))]) as [p|e]; cbn [bind fst snd]; [|split; [reflexivity|discriminate]].
    apply (IH (mkPB b1 p)). cbn [pb_buf]. eapply fits_add; eauto.
  - unfold as_pmgr. cbn [pm_prio pm_mgr]. destruct (update_weight pw eps (pb_prio b) i w) as [p|e]; cbn [bind fst snd]; [|split; [reflexivity|discriminate]].
    apply (IH (mkPB (pb_buf b) p)). exact Hf.
Qed.

(** C346.  Adding transitions one by one and setting weights is the same for PrioritizedVectorReplayBuffer(n, 1) as for
    PrioritizedReplayBuffer(n), with the same returned values and errors. *)
Lemma C346_ops_lemma : forall (Ob A Inf R : Type) (pw : Qc -> Qc) (eps : Qc) (r0 : R) (radd : R -> R -> R) (last_frame : Ob -> Ob) (o : opts) (n : nat) (ids : option (list Z)) (ops : list (wop Ob A Inf R)),
  ids = None \/ ids = Some [0%Z] ->
  vec_sizes n 1 = Ok [n] /\
  foldM (pmgr_op pw eps r0 radd last_frame o ids) ops (pm_init r0 [n], []) =
  rmap (fun y => (as_pmgr (fst y), snd y)) (foldM (pbuf_op pw eps r0 radd last_frame o) ops (pb_init r0 n, [])).
Proof.
  intros Ob A Inf R pw eps r0 radd last_frame o n ids ops Hi. split; [unfold vec_sizes; cbn [Nat.ltb Nat.leb guard repeat]; rewrite Nat.add_sub, Nat.div_1_r; reflexivity|].
  replace (pm_init r0 [n]) with (as_pmgr (pb_init (Ob := Ob) (A := A) (Inf := Inf) r0 n)).
  - refine (proj1 (pone_ops pw eps r0 radd last_frame o ids Hi ops (pb_init r0 n) [] _)). apply fits_init.
  - unfold pm_init, as_pmgr, pb_init. cbn [pb_buf pb_prio list_sum fold_right]. rewrite Nat.add_0_r. reflexivity.
Qed.

(** C346.  And samples of a given size are the same. *)
Lemma C346_sample_lemma : forall (Ob A Inf R : Type) (pw : Qc -> Qc) (eps : Qc) (r0 : R) (radd : R -> R -> R) (last_frame : Ob -> Ob) (o : opts) (n : nat) (ops : list (wop Ob A Inf R)) b outs rnd_b rnd draw z,
  0 < stack_num o -> foldM (pbuf_op pw eps r0 radd last_frame o) ops (pb_init r0 n, []) = Ok (b, outs) ->
  pm_sample_indices o (as_pmgr b) rnd_b rnd draw (Some z) = pb_sample_indices o b (if sample_avail o && (1 <? stack_num o) then rnd_b else rnd 0) draw (Some z).
Proof.
  intros Ob A Inf R pw eps r0 radd last_frame o n ops b outs rnd_b rnd draw z Hk H.
  assert (Hf : fits (pb_buf b)) by (eapply (proj2 (pone_ops pw eps r0 radd last_frame o None (or_introl eq_refl) ops (pb_init r0 n) [] (fits_init r0 n))); exact H).
  unfold pm_sample_indices, pb_sample_indices. cbn [as_pmgr pm_mgr pm_prio].
  replace (m_len (as_manager (pb_buf b))) with (size (b_st (pb_buf b))) by (unfold m_len; cbn; lia).
  destruct ((0 <? z)%Z && (0 <? size (b_st (pb_buf b)))); [reflexivity|]. apply one_sample; assumption.
Qed.

(** ** Options that change nothing *)
Lemma true_row (f : Qc -> Qc -> Qc) (row : list Qc) : (forall x, f x 1%Qc = x) ->
  map (fun xm : Qc * bool => f (fst xm) (b2q (snd xm))) (combine row (map (fun _ => true) row)) = row.
Proof. intros H. induction row as [|x row IH]; [reflexivity|]. cbn [map combine fst snd b2q]. rewrite IH. f_equal. apply H. Qed.
Lemma true_rows (logits : list (list Qc)) : concat logits <> [] -> compute_q_value logits (Some (all_true logits)) = Ok logits.
Proof.
  intros H. unfold compute_q_value. destruct (concat logits) as [|x l] eqn:E; [contradiction|]. cbn [tmin tmax bind]. f_equal.
  set (mv := (_ - _ - 1)%Qc). clearbody mv. clear. unfold all_true. induction logits as [|row rows IH]; [reflexivity|]. cbn [map combine fst snd]. rewrite IH. f_equal.
  apply (true_row (fun x m => (x + (1 - m) * mv)%Qc)). intros x. ring.
Qed.
Lemma argmax_shift c : forall l best bi i, argmax_from (best + c)%Qc bi i (map (fun x => (x + c)%Qc) l) = argmax_from best bi i l.
Proof.
  induction l as [|x l IH]; intros best bi i; [reflexivity|]. cbn [map argmax_from].
  replace (Qcltb (best + c) (x + c)) with (Qcltb best x); [destruct (Qcltb best x); apply IH|].
  destruct (Qcltb_spec best x) as [H|H]; destruct (Qcltb_spec (best + c) (x + c)) as [H'|H']; try reflexivity; exfalso; clear - H H'; qclra.
Qed.

(** C347.  A mask that allows everything changes neither the actions nor the targets of DQN. *)
Lemma C347_mask_lemma : forall (logits q_old : list (list Qc)) (use_target is_double : bool), concat logits <> [] ->
  greedy logits (Some (all_true logits)) = greedy logits None /\
  target_q use_target is_double logits q_old (Some (all_true logits)) = target_q use_target is_double logits q_old None.
Proof.
  intros logits q_old ut dbl H. assert (E : greedy logits (Some (all_true logits)) = greedy logits None) by (unfold greedy; rewrite true_rows by exact H; reflexivity).
  split; [exact E|]. unfold target_q. rewrite E. reflexivity.
Qed.

(** C347.  Nor the exploration; and with eps 0 nothing is explored, whether or not the early return is taken. *)
Lemma C347_exploration_lemma : forall (near0 : bool) (eps : Qc) (n : option nat) (u : list Qc) (q : list (list Qc)) (mask : option (list (list bool))) (act : list nat),
  exploration_noise near0 eps n u q (Some (all_true q)) act = exploration_noise near0 eps n u q None act /\
  (n <> None -> length u = length act -> length q = length act -> (forall rows, mask = Some rows -> length rows = length q) -> (forall x, In x u -> (0 <= x)%Qc) ->
   exploration_noise near0 0 n u q mask act = Ok act).
Proof.
  intros near0 eps n u q mask act. split.
  - unfold exploration_noise. destruct near0; [reflexivity|]. destruct n; [|reflexivity]. f_equal.
    set (q1 := map _ (combine q (all_true q))).
    assert (E : q1 = map (map (fun x => (x + 1)%Qc)) q).
    { unfold q1, all_true. clear. induction q as [|row rows IH]; [reflexivity|]. cbn [map combine fst snd]. rewrite IH. f_equal.
      clear. induction row as [|x row IH]; [reflexivity|]. cbn [map combine fst snd b2q]. rewrite IH. reflexivity. }
    rewrite E. clear. revert u q. induction act as [|a act IH]; intros [|x u] [|row q]; try reflexivity. cbn [map combine]. rewrite IH. f_equal.
    destruct (Qcltb x eps); [|reflexivity]. destruct row as [|y row]; [reflexivity|]. unfold argmax. cbn [map]. apply (argmax_shift 1).
  - intros Hn Hu Hq Hm Hp. unfold exploration_noise. destruct near0; [reflexivity|]. destruct n; [|contradiction]. f_equal.
    set (q1 := match mask with None => _ | Some _ => _ end).
    assert (L : length q1 = length act).
    { unfold q1. destruct mask as [rows|]; [|exact Hq]. rewrite map_length, combine_length, (Hm rows eq_refl), Nat.min_id. exact Hq. }
    clearbody q1. clear - Hu Hp L. revert u q1 Hu Hp L. induction act as [|a act IH]; intros [|x u] [|row q] Hu Hp L; try discriminate; [reflexivity|].
    cbn [combine map]. rewrite IH; [|cbn in *; congruence|intros; apply Hp; right; assumption|cbn in *; congruence].
    f_equal. destruct (Qcltb_spec x 0) as [H|H]; [|reflexivity]. exfalso. specialize (Hp x (or_introl eq_refl)). clear - H Hp. qclra.
Qed.

(** C347.  A curiosity module with reward_scale 0 around a policy: the updates are those of the policy alone. *)
Lemma C347_icm_lemma : forall (Ob A W S X : Type) (mse : W -> orow Ob A -> Qc) (inner_process : S -> list (orow Ob A) -> res (S * X)) (inner_learn : S -> X -> res S) (w : W) (s : S) (h : heap) (rows : list (orow Ob A)),
  rmap (fun y => fst (fst y)) (icm_update mse 0 inner_process inner_learn w s h rows) =
  (let* sx := inner_process s rows in let* s' := inner_learn (fst sx) (snd sx) in Ok (s', snd sx)).
Proof.
  intros Ob A W S X mse ip il w s h rows. unfold icm_update, sample_batch, alloc, icm_process.
  set (h1 := h ++ [map o_rew rows]). set (b := mkIB rows (length h) None).
  assert (Ed : deref h1 (length h) = map o_rew rows) by (unfold deref, h1; rewrite app_nth2, Nat.sub_diag by lia; reflexivity).
  assert (Er : rows_of h1 b = rows).
  { unfold rows_of, b. cbn [b_rows b_rew]. rewrite Ed. clear. induction rows as [|r rows IH]; [reflexivity|]. cbn [map combine fst snd]. rewrite IH. f_equal. destruct r; reflexivity. }
  rewrite Er. cbn [b_rew b_rows b]. unfold iadd, guard. rewrite Ed, !map_length, Nat.eqb_refl. cbn [bind].
  set (h2 := upd h1 (length h) _).
  assert (E2 : deref h2 (length h) = map o_rew rows).
  { unfold h2, deref. apply nth_error_nth. rewrite nth_error_upd, Nat.eqb_refl. unfold h1. rewrite app_length. cbn [length].
    replace (length h <? length h + 1) with true by (symmetry; apply Nat.ltb_lt; lia). cbn [andb]. f_equal.
    rewrite map_map. clear. induction rows as [|r rows IH]; [reflexivity|]. cbn [map combine fst snd]. rewrite IH. f_equal. ring. }
  assert (Er2 : rows_of h2 (mkIB rows (length h) (Some (length h, map (mse w) rows))) = rows).
  { unfold rows_of. cbn [b_rows b_rew]. rewrite E2. clear. induction rows as [|r rows IH]; [reflexivity|]. cbn [map combine fst snd]. rewrite IH. f_equal. destruct r; reflexivity. }
  match goal with |- context[rows_of h2 ?z] => replace (rows_of h2 z) with rows by (symmetry; exact Er2) end. destruct (ip s rows) as [[s1 x]|e]; cbn [bind fst snd]; [|reflexivity].
  destruct (il s1 x) as [s2|e]; cbn [bind rmap]; reflexivity.
Qed.
