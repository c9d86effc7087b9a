(** * Proofs about special cases in which two components coincide *)
From Verif Require Import Py PyLemmas Num BatchMainProofs DqnProofs SpcSpec.
Open Scope nat_scope.

(** ** TD3 and DDPG *)
Section Td3.
Context {Cfg OS Ob Rnd : Type}.
Variable W : @world Cfg OS Ob Rnd.
Variable tau nc : Qc.
Notation st := (@st Cfg OS).
Notation mb := (@mb Ob).

Lemma halves_same : forall e, halves e e = e.
Proof.
  induction e as [|x e IH]; [reflexivity|]. unfold halves in *. cbn [combine map fst snd]. rewrite IH. f_equal.
  replace (x + x)%Qc with (x * Q2Qc (2 # 1))%Qc.
  - unfold Qcdiv. rewrite <- Qcmult_assoc, Qcmult_inv_r; [ring|]. intro H; apply (f_equal this) in H; vm_compute in H; discriminate H.
  - replace (Q2Qc (2 # 1)) with (1 + 1)%Qc by (apply Qc_is_canon; vm_compute; reflexivity). ring.
Qed.
Definition twins (s : st) : Prop :=
  n_par (s_c2 s) = n_par (s_c1 s) /\ n_opt (s_c2 s) = n_opt (s_c1 s) /\ s_c2old s = s_c1old s.
Lemma mse_same (b : mb) c c' : n_par c' = n_par c -> n_opt c' = n_opt c -> mse_optimizer W b c' = mse_optimizer W b c.
Proof. destruct c, c'; cbn. intros -> ->. reflexivity. Qed.
Lemma clamp_zero x : (0 < x)%Qc -> clampq (- x) x 0 = 0%Qc.
Proof.
  intros H. unfold clampq, Qcminb, Qcmaxb.
  destruct (Qcleb_spec (- x) 0) as [E|E]; [|exfalso; clear - H E; qclra].
  destruct (Qcleb_spec x 0) as [E2|E2]; [exfalso; clear - H E2; qclra|reflexivity].
Qed.
Lemma no_noise z a : length z = length a -> smoothed_action 0 nc z a = a.
Proof.
  intros H. unfold smoothed_action. 
  assert (E : forall x, In x (smooth_noise 0 nc z) -> x = 0%Qc).
  { unfold smooth_noise. intros x. destruct (Qcltb 0 nc) eqn:E.
    - rewrite map_map, in_map_iff. intros (y & <- & _). replace (y * 0)%Qc with 0%Qc by ring.
      apply clamp_zero. destruct (Qcltb_spec 0 nc) as [Hn|Hn]; [exact Hn|discriminate].
    - rewrite in_map_iff. intros (y & <- & _). ring. }
  assert (L : length (smooth_noise 0 nc z) = length a).
  { unfold smooth_noise. destruct (Qcltb 0 nc); rewrite ?map_length; exact H. }
  revert E L. generalize (smooth_noise 0 nc z) as l. clear. induction a as [|x a IH]; intros [|y l] E L; try discriminate; [reflexivity|].
  cbn [combine map fst snd]. rewrite (E y) by (left; reflexivity). f_equal; [ring|]. apply IH; [intros; apply E; right; assumption|]. cbn in L. congruence.
Qed.
Lemma min_same x : Qcminb x x = x.
Proof. unfold Qcminb. destruct (Qcleb x x); reflexivity. Qed.

Lemma td3_step (x : Rnd) (b : mb) (s t s' : st) w l : ddpg_part t = ddpg_part s -> twins t -> ddpg_learn W tau x b s = Ok (s', w, l) ->
  exists t' l', td3_learn W tau 1 x b t = Ok (t', w, l') /\ ddpg_part t' = ddpg_part s' /\ twins t' /\ t_actor l' = t_actor l /\ t_c1 l' = t_c1 l.
Proof.
  intros Hp (T1 & T2 & T3). unfold ddpg_part in Hp. injection Hp as Ha Hao Hc Hco.
  unfold ddpg_learn, td3_learn. rewrite (mse_same b _ _ T1 T2), Hc.
  destruct (mse_optimizer W b (s_c1 s)) as [[e l1] c1] eqn:Em. rewrite Ha, Hao, Hco, T3, Hco, halves_same.
  cbn [Nat.eqb negb guard]. rewrite Nat.mod_1_r. cbn [Nat.eqb].
  set (a := opt_step W _). 
  destruct (sync tau (s_aold s) (n_par a)) as [aold|e1] eqn:E1; cbn [bind]; [|discriminate].
  replace (n_par (backward (w_dspill W 0 (n_par (s_a s)) [n_par c1] 0%Qc x (mb_rows b)) c1)) with (n_par c1) by reflexivity.
  destruct (sync tau (s_c1old s) (n_par c1)) as [c1old|e2] eqn:E2; cbn [bind]; [|discriminate].
  rewrite ?E1. cbn [bind]. intros H. injection H as <- <- <-. do 2 eexists. split; [reflexivity|]. repeat split.
Qed.

Lemma td3_runs (us : list (@upd_t Ob Rnd)) : forall (s t s' : st) outs, ddpg_part t = ddpg_part s -> twins t ->
  (forall x z mk, In (x, z, mk) us -> (forall f g : Ob -> Qc, (forall o, f o = g o) -> mk f = mk g) /\ forall o p, length (z o) = length (w_actor W p o)) ->
  updates_with (ddpg_learn W tau) (fun _ => ddpg_target W) us s = Ok (s', outs) ->
  exists t', updates_with (td3_learn W tau 1) (fun z s o => td3_target W 0 nc (z o) s o) us t = Ok (t', outs) /\ ddpg_part t' = ddpg_part s' /\ twins t'.
Proof.
  induction us as [|[[x z] mk] us IH]; intros s t s' outs Hp Ht Hu.
  { cbn. intros H. injection H as <- <-. exists t. repeat split; try assumption; apply Ht. }
  destruct (Hu x z mk (or_introl eq_refl)) as [Hm Hz].
  cbn [updates_with].
  assert (E : mk (fun o => td3_target W 0 nc (z o) t o) = mk (ddpg_target W s)).
  { apply Hm. intros o. unfold td3_target, ddpg_target. rewrite no_noise by apply Hz.
    destruct Ht as (_ & _ & ->). rewrite min_same. unfold ddpg_part in Hp. injection Hp as _ -> _ ->. reflexivity. }
  rewrite E.
  destruct (ddpg_learn W tau x (mk (ddpg_target W s)) s) as [[[s1 w] l]|e] eqn:El; [|discriminate].
  destruct (td3_step _ _ _ _ _ _ _ Hp Ht El) as (t1 & l1 & -> & Hp1 & Ht1 & A1 & A2). cbn [bind].
  destruct (updates_with (ddpg_learn W tau) (fun _ => ddpg_target W) us s1) as [[s2 o2]|e] eqn:Er; [|discriminate].
  destruct (IH s1 t1 s2 o2 Hp1 Ht1 (fun a b c h => Hu a b c (or_intror h)) Er) as (t2 & -> & Hp2 & Ht2).
  cbn [bind fst snd]. intros H. injection H as <- <-. exists t2. rewrite A1, A2. auto.
Qed.
End Td3.

(** C339.  TD3 that is given one critic, without policy noise and with update_actor_freq = 1, makes the
    same updates as DDPG: actor, critic, their targets, priorities and reported losses agree. *)
Lemma C339_td3_lemma : forall (Cfg OS Ob Rnd : Type) (W : @world Cfg OS Ob Rnd) (tau nc : Qc) (a c1 : net) (k : optclass) (g : Cfg) s0 us s outs,
  n_opt c1 = mkO k g g (w_os0 W) -> init W true a c1 None None = Ok s0 ->
  (forall x z mk, In (x, z, mk) us ->
     (forall f h : Ob -> Qc, (forall o, f o = h o) -> mk f = mk h) /\ forall o p, length (z o) = length (w_actor W p o)) ->
  updates_with (ddpg_learn W tau) (fun _ => ddpg_target W) us s0 = Ok (s, outs) ->
  exists t, updates_with (td3_learn W tau 1) (fun z s o => td3_target W 0 nc (z o) s o) us s0 = Ok (t, outs) /\ ddpg_part t = ddpg_part s.
Proof.
  intros Cfg OS Ob Rnd W tau nc a c1 k g s0 us s outs Hf Hi Hu Hr.
  destruct (td3_runs W tau nc us s0 s0 s outs eq_refl) with (2 := Hu) (3 := Hr) as (t & H1 & H2 & _); [|eauto].
  unfold init in Hi. cbn [bind] in Hi. rewrite Hf in Hi. unfold clone_optimizer in Hi. cbn [o_cls o_defaults] in Hi.
  unfold guard in Hi. destruct (is_standard k); [|discriminate]. cbn [bind] in Hi. injection Hi as <-.
  repeat split. cbn. symmetry. exact Hf.
Qed.

(** ** Value-based learners *)
Lemma pairs_seq {T} (f : nat -> T) : forall k s, combine (removelast (map f (seq s (S k)))) (tl (map f (seq s (S k)))) = map (fun i => (f i, f (S i))) (seq s k).
Proof.
  induction k as [|k IH]; intros s; [reflexivity|].
  change (seq s (S (S k))) with (s :: seq (S s) (S k)). cbn [map tl].
  change (removelast (f s :: map f (seq (S s) (S k)))) with (f s :: removelast (map f (seq (S s) (S k)))).
  change (seq s (S k)) with (s :: seq (S s) k). cbn [map]. rewrite <- IH.
  cbn [seq map combine tl]. reflexivity.
Qed.
Lemma cumsum_repeat p : forall n s, cumsum_from (qn s * p)%Qc (repeat p n) = map (fun i => (qn i * p)%Qc) (seq (S s) n).
Proof.
  induction n as [|n IH]; intros s; [reflexivity|]. cbn [repeat cumsum_from seq map].
  replace (qn s * p + p)%Qc with (qn (S s) * p)%Qc by (rewrite qn_S; ring). f_equal. apply IH.
Qed.
Lemma taus_uniform n : taus_of (repeat (1 / qn n)%Qc n) = linspace01 n.
Proof.
  unfold taus_of, linspace01. change (seq 0 (S n)) with (0 :: seq 1 n). cbn [map]. f_equal.
  - rewrite qn_0. unfold Qcdiv. ring.
  - replace 0%Qc with (qn 0 * (1 / qn n))%Qc by (rewrite qn_0; ring). rewrite cumsum_repeat. apply map_ext. intros i. unfold Qcdiv. ring.
Qed.
Lemma weighted_const p : forall (z : list Qc) s, qsum (map (fun x : Qc * Qc => (fst x * snd x)%Qc) (combine (map (fun _ => p) (seq s (length z))) z)) = (p * qsum z)%Qc.
Proof.
  induction z as [|x z IH]; intros s; cbn [length seq map combine]; [cbn; ring|].
  change (qsum (?a :: ?l)) with (a + qsum l)%Qc. rewrite IH. cbn [fst snd]. ring.
Qed.

(** C340.  FQF whose proposal is uniform has the fractions and the values of QRDQN. *)
Lemma C340_fqf_lemma : forall (n : nat) (z : list Qc), 0 < n -> length z = n ->
  tau_hats_of (repeat (1 / qn n)%Qc n) = tau_hat n /\ fqf_q (taus_of (repeat (1 / qn n)%Qc n)) z = qr_q z.
Proof.
  intros n z Hn Hz. unfold tau_hats_of. rewrite taus_uniform. split; [reflexivity|].
  unfold fqf_q, linspace01. rewrite pairs_seq, map_map. subst n.
  rewrite (map_ext (fun i => (snd (qn i / qn (length z), qn (S i) / qn (length z)) - fst (qn i / qn (length z), qn (S i) / qn (length z)))%Qc) (fun _ => (1 / qn (length z))%Qc)).
  - rewrite weighted_const. unfold qr_q, np_mean. change (sq (length z)) with (qn (length z)). unfold Qcdiv. ring.
  - intros i. cbn [fst snd]. rewrite qn_S. unfold Qcdiv. ring.
Qed.

Lemma mean_one x : np_mean [x] = x.
Proof.
  unfold np_mean. cbn [length qsum fold_right]. replace (sq 1) with 1%Qc by (apply Qc_is_canon; vm_compute; reflexivity).
  unfold qsum. cbn. unfold Qcdiv. replace (/ 1)%Qc with 1%Qc by (apply Qc_is_canon; vm_compute; reflexivity). ring.
Qed.
Lemma map_mean_one (l : list Qc) : map (fun z => qr_q z) (map (fun x => [x]) l) = l.
Proof. rewrite map_map. rewrite <- (map_id l) at 2. apply map_ext. intros x. apply mean_one. Qed.

(** C340.  QRDQN with one quantile has the targets of double DQN, and half the Huber loss. *)
Lemma C340_quantile_lemma : forall (use_target is_double : bool) (q_new q_old : list Qc) (c t : Qc),
  qr_target use_target is_double qr_q (map (fun x => [x]) q_new) (map (fun x => [x]) q_old)
  = match nth_error (if use_target then q_old else q_new) (argmax q_new) with Some v => Ok [v] | None => Err IndexError end
  /\ target_q use_target true [q_new] [q_old] None
     = match nth_error (if use_target then q_old else q_new) (argmax q_new) with Some v => Ok [v] | None => Err IndexError end
  /\ tau_hat 1 = [half]
  /\ quantile_row (tau_hat 1) [c] [t] = Ok (half * huber (t - c))%Qc.
Proof.
  intros ut d qn_ qo c t.
  assert (E1 : tau_hat 1 = [half]) by (unfold tau_hat, midpoints, linspace01; cbn; f_equal; apply Qc_is_canon; vm_compute; reflexivity).
  split; [|split; [|split; [exact E1|]]].
  - unfold qr_target. rewrite map_mean_one.
    replace (if ut then map (fun x => [x]) qo else map (fun x => [x]) qn_) with (map (fun x : Qc => [x]) (if ut then qo else qn_)) by (destruct ut; reflexivity).
    rewrite nth_error_map. destruct (nth_error (if ut then qo else qn_) (argmax qn_)); reflexivity.
  - unfold target_q, greedy. cbn [compute_q_value bind map]. destruct ut; cbn [combine mapM fst snd]; destruct (nth_error _ _); reflexivity.
  - rewrite E1. unfold quantile_row. cbn [length Nat.eqb guard combine map fst snd]. rewrite mean_one. f_equal.
    unfold quantile_term. cbn [map]. change (qsum [?a]) with (a + 0)%Qc.
    assert (E : qweight half (t - c) = half).
    { unfold qweight. destruct (Qcleb (t - c) 0); apply Qc_is_canon; vm_compute; reflexivity. }
    rewrite E. ring.
Qed.

Lemma max_entry (l : list Qc) : l <> [] -> exists v, nth_error l (argmax l) = Some v /\ tmax l = Ok v.
Proof.
  intros H. destruct (argmax_spec l H) as (v & Hv & Hm). exists v. split; [exact Hv|].
  destruct l as [|x l]; [congruence|]. unfold tmax. f_equal.
  assert (G : forall l x, In (fold_left Qcmaxb l x) (x :: l) /\ forall y, In y (x :: l) -> (y <= fold_left Qcmaxb l x)%Qc).
  { clear. induction l as [|y l IH]; intros x; cbn [fold_left]; [split; [left; reflexivity|intros z [<-|[]]; apply Qcle_refl]|].
    destruct (IH (Qcmaxb x y)) as [I1 I2]. split.
    - destruct I1 as [I1|I1]; [|right; right; exact I1]. rewrite <- I1. unfold Qcmaxb. destruct (Qcleb x y); [right; left|left]; reflexivity.
    - assert (Hx : (x <= Qcmaxb x y)%Qc /\ (y <= Qcmaxb x y)%Qc).
      { unfold Qcmaxb. destruct (Qcleb_spec x y) as [E|E]; split; try apply Qcle_refl; try exact E. apply Qclt_le_weak, E. }
      intros z [<-|[<-|Hz]]; [eapply Qcle_trans; [apply Hx|]|eapply Qcle_trans; [apply Hx|]|]; apply I2; [left|left|right]; auto. }
  destruct (G l x) as [G1 G2]. apply Qcle_antisym; [apply Hm, G1|]. apply G2. eapply nth_error_In, Hv.
Qed.

(** C340.  Without a target network double DQN and DQN have the same targets. *)
Lemma C340_target_lemma : forall (q q' : list (list Qc)), (forall r, In r q -> r <> []) ->
  target_q false true q q' None = target_q false false q q' None.
Proof.
  intros q q' H. unfold target_q, greedy. cbn [compute_q_value bind].
  induction q as [|r q IH]; [reflexivity|]. cbn [map combine mapM fst snd].
  destruct (max_entry r) as (v & -> & ->); [apply H; left; reflexivity|]. cbn [bind]. rewrite IH; [reflexivity|].
  intros x Hx. apply H. right. exact Hx.
Qed.

(** C340.  Branching DQN with one branch has the targets of DQN, double or not. *)
Lemma C340_branching_lemma : forall (Ob : Type) (q_new q_old : Ob -> list (list Qc)) (use_target is_double : bool) (o : Ob) (n t : list Qc),
  q_new o = [n] -> q_old o = [t] -> n <> [] -> length t = length n ->
  target_q use_target is_double [n] [t] None = Ok (bdq_branch_values q_new q_old use_target is_double o).
Proof.
  intros Ob q_new q_old ut d o n t En Eo Hn Hl. unfold bdq_branch_values. rewrite En, Eo.
  assert (Ht : t <> []) by (destruct t, n; cbn in *; congruence).
  assert (An : argmax n < length n) by (destruct (argmax_spec n Hn) as (v & Hv & _); apply nth_error_Some; congruence).
  unfold target_q, greedy. cbn [compute_q_value bind map].
  destruct ut, d; cbn [combine map mapM fst snd].
  - destruct (nth_error t (argmax n)) as [v|] eqn:E; [|apply nth_error_None in E; lia]. cbn. rewrite (nth_error_nth _ _ _ E). reflexivity.
  - destruct (max_entry t Ht) as (v & E & ->). cbn. rewrite (nth_error_nth _ _ _ E). reflexivity.
  - destruct (nth_error n (argmax n)) as [v|] eqn:E; [|apply nth_error_None in E; lia]. cbn. rewrite (nth_error_nth _ _ _ E). reflexivity.
  - destruct (max_entry n Hn) as (v & E & ->). cbn. rewrite (nth_error_nth _ _ _ E). reflexivity.
Qed.

(** C340.  Discrete BCQ with threshold 0 acts like DQN. *)
Lemma C340_bcq_lemma : forall (INF : Qc) (q logits : list Qc), length logits = length q ->
  greedy [q] None = Ok [dbcq_act INF None q logits].
Proof.
  intros INF q logits H. unfold greedy, dbcq_act, dbcq_mask. cbn [compute_q_value bind map]. do 3 f_equal.
  revert logits H. induction q as [|x q IH]; intros [|y l] H; try discriminate; [reflexivity|].
  cbn [map combine fst snd]. cbn in H. f_equal; [ring|]. apply (IH l). congruence.
Qed.

(** ** A manager of one buffer *)
Section One.
Context {Ob A Inf R : Type}.
Variable r0 : R.
Variable radd : R -> R -> R.
Variable last_frame : Ob -> Ob.
Variable o : opts.
Notation buf := (buf Ob A Inf R).
Notation trans := (trans Ob A Inf R).
Definition fits (b : buf) : Prop :=
  size (b_st b) <= maxsize (b_st b) /\ match b_meta b with Some m => length m = maxsize (b_st b) | None => size (b_st b) = 0 end.
Lemma fits_init n : fits (buf_init r0 n).
Proof. split; cbn; [apply Nat.le_0_l|reflexivity]. Qed.
Lemma fits_reset keep (b : buf) : fits b -> fits (buf_reset r0 keep b).
Proof. intros [H1 H2]. split; cbn; [lia|]. destruct (b_meta b); [exact H2|reflexivity]. Qed.
Lemma fits_add (b : buf) t b' r : fits b -> add r0 radd last_frame o b t = Ok (b', r) -> fits b'.
Proof.
  intros [H1 H2] H. unfold add, update_state_pre_add, guard in H.
  destruct (negb (maxsize (b_st b) =? 0)); [|discriminate].
  destruct (negb (Nat.min (size (b_st b) + 1) (maxsize (b_st b)) <? ep_start_idx (b_st b))); [|discriminate]. cbn [bind] in H.
  destruct (t_term t || t_trunc t); cbn [maxsize] in H;
    (destruct (ins (b_st b) <? length (meta_rows (maxsize (b_st b)) (b_meta b))); [|discriminate]; injection H as <- _;
     split; cbn; [lia|]; rewrite upd_length; destruct (b_meta b); cbn; [exact H2|apply repeat_length]).
Qed.
Lemma one_add (b : buf) t ids : fits b -> ids = None \/ ids = Some [0%Z] ->
  m_add r0 radd last_frame o (as_manager b) ids [t] = rmap (fun y => (as_manager (fst y), [snd y])) (add r0 radd last_frame o b t).
Proof.
  intros _ Hi. unfold m_add. cbn [as_manager m_bufs m_last m_lens m_meta length seq map].
  replace (match ids with Some ids => ids | None => [Z.of_nat 0] end) with [0%Z] by (destruct Hi as [-> | ->]; reflexivity).
  cbn [length Nat.leb guard combine]. unfold add.
  cbn [add_loop length]. replace (norm_index 1 0%Z) with (@Ok nat 0) by reflexivity. cbn [bind nth_error].
  destruct (update_state_pre_add r0 radd (b_st b) (t_rew t) (t_term t || t_trunc t)) as [[s' [[[i ret] len] st]]|e] eqn:E; [|reflexivity].
  cbn [bind map offsets nth upd Nat.eqb negb]. unfold guard.
  assert (Em : maxsize s' = maxsize (b_st b) /\ last_index s' = i).
  { unfold update_state_pre_add, guard in E. destruct (negb (maxsize (b_st b) =? 0)); [|discriminate].
    destruct (negb _) in E; [|discriminate]. destruct (t_term t || t_trunc t); injection E as <- <- _ _ _; split; reflexivity. }
  destruct Em as [Em El].
  replace (m_total (as_manager b)) with (maxsize s') by (unfold m_total, m_sizes; cbn; lia).
  cbn [fst snd map forallb length Nat.eqb]. rewrite !Nat.add_0_r, andb_true_r.
  destruct (i <? length (meta_rows (maxsize s') (b_meta b))) eqn:Ei.
  - cbn [Nat.eqb negb]. cbn [rmap fst snd combine fold_left]. unfold as_manager. cbn [b_st b_meta]. rewrite El. reflexivity.
  - reflexivity.
Qed.
Lemma one_reset keep (b : buf) : m_reset r0 keep (as_manager b) = as_manager (buf_reset r0 keep b).
Proof. reflexivity. Qed.
Lemma one_ops ids : ids = None \/ ids = Some [0%Z] -> forall ops b outs, fits b ->
  foldM (mgr_op r0 radd last_frame o ids) ops (as_manager b, outs) = rmap (fun y => (as_manager (fst y), snd y)) (foldM (buf_op r0 radd last_frame o) ops (b, outs))
  /\ forall b' outs', foldM (buf_op r0 radd last_frame o) ops (b, outs) = Ok (b', outs') -> fits b'.
Proof.
  intros Hi. induction ops as [|op ops IH]; intros b outs Hf.
  { split; [reflexivity|]. intros b' outs' H. injection H as <- _. exact Hf. }
  cbn [foldM]. destruct op as [t|keep]; cbn [mgr_op buf_op fst snd].
  - rewrite one_add by assumption. destruct (add r0 radd last_frame o b t) as [[b1 r]|e] eqn:E; cbn [rmap bind fst snd]; [|split; [reflexivity|discriminate]].
    apply IH. eapply fits_add; eauto.
  - cbn [bind]. rewrite one_reset. apply IH. apply fits_reset, Hf.
Qed.

Lemma one_children (b : buf) : fits b -> children (as_manager b) = [b].
Proof.
  intros [_ H]. unfold children. cbn. destruct b as [s [m|]]; cbn in *; [|reflexivity].
  unfold slice. rewrite skipn_O, firstn_all2 by lia. reflexivity.
Qed.
Lemma map_add0 l : map (fun i : nat => i + 0) l = l.
Proof. rewrite <- (map_id l) at 2. apply map_ext. intros. lia. Qed.
Lemma one_unfinished (b : buf) : fits b -> m_unfinished_index (as_manager b) = unfinished_index b.
Proof.
  intros H. unfold m_unfinished_index. rewrite one_children by exact H. cbn [as_manager m_offsets m_sizes m_bufs map offsets combine mapM fst snd].
  unfold m_offsets, m_sizes. cbn. destruct (unfinished_index b); cbn; [|reflexivity]. rewrite map_add0, app_nil_r. reflexivity.
Qed.
Definition inside (b : buf) (index : list Z) : Prop := forall i, In i index -> (0 <= i < Z.of_nat (size (b_st b)))%Z.
Lemma one_zip (b : buf) : m_zip (as_manager b) = [(0, maxsize (b_st b), size (b_st b), Z.of_nat (last_index (b_st b)))].
Proof. unfold m_zip, m_offsets, m_edges, m_total, m_sizes. cbn. rewrite Nat.add_0_r. reflexivity. Qed.
Lemma one_total (b : buf) : m_total (as_manager b) = maxsize (b_st b).
Proof. unfold m_total, m_sizes. cbn. lia. Qed.
Lemma one_prev (b : buf) index : fits b -> inside b index -> m_prev (as_manager b) index = prev b index.
Proof.
  intros [H1 H2] Hi. unfold m_prev, prev. cbn [as_manager m_meta]. destruct (b_meta b) as [m|]; [|reflexivity].
  apply mapM_ext_in. intros i Hin. specialize (Hi i Hin). rewrite one_zip, one_total.
  unfold prev_index1. replace (np_mod i (Z.of_nat (maxsize (b_st b)))) with i.
  2: { unfold np_mod. destruct (Z.eqb_spec (Z.of_nat (maxsize (b_st b))) 0); [lia|]. symmetry. apply Z.mod_small. lia. }
  cbn [foldM].
  replace ((Z.of_nat 0 <=? i)%Z && (i <? Z.of_nat (maxsize (b_st b)))%Z) with true by (symmetry; apply andb_true_intro; split; [apply Z.leb_le|apply Z.ltb_lt]; lia).
  replace (Nat.max 1 (size (b_st b))) with (size (b_st b)) by lia.
  unfold np_mod. replace (Z.of_nat (size (b_st b)) =? 0)%Z with false by (symmetry; apply Z.eqb_neq; lia).
  change (Z.of_nat 0) with 0%Z. rewrite Z.sub_0_r, Z.add_0_r.
  destruct (zget m ((i - 1) mod Z.of_nat (size (b_st b)))) as [d|e]; cbn [bind]; [|reflexivity]. rewrite Z.add_0_r. reflexivity.
Qed.
Lemma one_next (b : buf) index : fits b -> inside b index -> m_next (as_manager b) index = next b index.
Proof.
  intros [H1 H2] Hi. unfold m_next, next. cbn [as_manager m_meta]. destruct (b_meta b) as [m|]; [|reflexivity].
  apply mapM_ext_in. intros i Hin. specialize (Hi i Hin). rewrite one_zip, one_total.
  unfold next_index1. replace (np_mod i (Z.of_nat (maxsize (b_st b)))) with i.
  2: { unfold np_mod. destruct (Z.eqb_spec (Z.of_nat (maxsize (b_st b))) 0); [lia|]. symmetry. apply Z.mod_small. lia. }
  cbn [foldM].
  replace ((Z.of_nat 0 <=? i)%Z && (i <? Z.of_nat (maxsize (b_st b)))%Z) with true by (symmetry; apply andb_true_intro; split; [apply Z.leb_le|apply Z.ltb_lt]; lia).
  replace (Nat.max 1 (size (b_st b))) with (size (b_st b)) by lia.
  unfold np_mod. replace (Z.of_nat (size (b_st b)) =? 0)%Z with false by (symmetry; apply Z.eqb_neq; lia).
  change (Z.of_nat 0) with 0%Z. rewrite Z.sub_0_r.
  destruct (zget m i) as [d|e]; cbn [bind]; [|reflexivity]. rewrite Z.add_0_r. do 2 f_equal. lia.
Qed.
Lemma np_mod_inside x n : (0 < n)%Z -> (0 <= np_mod x n < n)%Z.
Proof. intros H. unfold np_mod. destruct (Z.eqb_spec n 0); [lia|]. apply Z.mod_pos_bound. exact H. Qed.
Lemma prev_inside (b : buf) index r : inside b index -> prev b index = Ok r -> inside b r.
Proof.
  intros Hi. unfold prev. destruct (b_meta b) as [m|]; [|discriminate].
  destruct index as [|i0 l0].
  { cbn. intros H. injection H as <-. intros x []. }
  assert (Hs : (0 < Z.of_nat (size (b_st b)))%Z) by (specialize (Hi i0 (or_introl eq_refl)); lia).
  clear Hi. revert r. generalize (i0 :: l0) as l. induction l as [|i l IH]; intros r H.
  { cbn in H. injection H as <-. intros x []. }
  cbn [mapM] in H. destruct (zget m (np_mod (i - 1) (Z.of_nat (size (b_st b))))) as [d|]; [|discriminate]. cbn [bind] in H.
  match type of H with context [mapM ?f l] => destruct (mapM f l) as [r'|] eqn:E; [|discriminate] end. cbn [bind] in H. injection H as <-.
  intros x [<-|Hx]; [|exact (IH r' eq_refl x Hx)].
  apply np_mod_inside. exact Hs.
Qed.
Lemma next_inside (b : buf) index r : inside b index -> next b index = Ok r -> inside b r.
Proof.
  intros Hi. unfold next. destruct (b_meta b) as [m|]; [|discriminate].
  destruct index as [|i0 l0].
  { cbn. intros H. injection H as <-. intros x []. }
  assert (Hs : (0 < Z.of_nat (size (b_st b)))%Z) by (specialize (Hi i0 (or_introl eq_refl)); lia).
  clear Hi. revert r. generalize (i0 :: l0) as l. induction l as [|i l IH]; intros r H.
  { cbn in H. injection H as <-. intros x []. }
  cbn [mapM] in H. destruct (zget m i) as [d|]; [|discriminate]. cbn [bind] in H.
  match type of H with context [mapM ?f l] => destruct (mapM f l) as [r'|] eqn:E; [|discriminate] end. cbn [bind] in H. injection H as <-.
  intros x [<-|Hx]; [|exact (IH r' eq_refl x Hx)].
  apply np_mod_inside. exact Hs.
Qed.
Lemma one_get_loop (b : buf) : fits b -> forall k index st, inside b index -> m_get_loop k (as_manager b) index st = get_loop k b index st.
Proof.
  intros Hf. induction k as [|k IH]; intros index st Hi; [reflexivity|]. cbn [m_get_loop get_loop].
  change (m_rows_at (as_manager b) index) with (rows_at b index). destruct (rows_at b index); cbn [bind]; [|reflexivity].
  rewrite one_prev by assumption. destruct (prev b index) as [i'|] eqn:E; cbn [bind]; [|reflexivity]. apply IH. eapply prev_inside; eauto.
Qed.
Lemma one_get_rows (b : buf) k index : fits b -> inside b index -> m_get_rows (as_manager b) k index = get_rows b k index.
Proof.
  intros Hf Hi. unfold m_get_rows, get_rows. destruct (k =? 1); [reflexivity|]. rewrite one_get_loop by assumption. reflexivity.
Qed.
Lemma one_getitem (b : buf) index : fits b -> inside b index -> m_getitem o (as_manager b) index = getitem o b index.
Proof.
  intros Hf Hi. unfold m_getitem, getitem. rewrite one_get_rows by assumption.
  destruct (get_rows b (stack_num o) index) as [fr|]; cbn [bind]; [|reflexivity].
  destruct (save_obs_next o); [reflexivity|].
  rewrite one_next by assumption. destruct (next b index) as [nx|] eqn:E; cbn [bind]; [|reflexivity].
  rewrite one_get_rows; [reflexivity|assumption|]. eapply next_inside; eauto.
Qed.
Lemma choice_map_id rnd (l : list nat) k : choice rnd (map (fun i => i + 0) l) k = choice rnd l k.
Proof. rewrite map_add0. reflexivity. Qed.
Lemma bincount_one {X} (f : X -> nat) (l : list X) : (forall x, In x l -> f x = 0) -> bincount 1 (map f l) = [length l].
Proof.
  intros H. unfold bincount. cbn. f_equal. induction l as [|x l IH]; [reflexivity|]. cbn. rewrite (H x) by (left; reflexivity). cbn. rewrite IH; [reflexivity|].
  intros y Hy. apply H. right. exact Hy.
Qed.
Lemma one_sample (b : buf) rnd_b rnd (z : Z) : fits b -> 0 < stack_num o ->
  m_sample_indices o (as_manager b) rnd_b rnd (Some z) = sample_indices o b (if sample_avail o && (1 <? stack_num o) then rnd_b else rnd 0) (Some z).
Proof.
  intros Hf Hk. unfold m_sample_indices. rewrite one_children by exact Hf.
  unfold m_offsets, m_sizes. cbn [as_manager m_bufs m_lens length seq map offsets combine mapM fst snd].
  destruct (Z.ltb_spec z 0) as [Hz|Hz].
  { unfold sample_indices. destruct ((stack_num o =? 1) || negb (sample_avail o)).
    - replace (0 <? z)%Z with false by (symmetry; apply Z.ltb_ge; lia). replace (z =? 0)%Z with false by (symmetry; apply Z.eqb_neq; lia). reflexivity.
    - replace (z <? 0)%Z with true by (symmetry; apply Z.ltb_lt; lia). reflexivity. }
  destruct (sample_avail o && (1 <? stack_num o)) eqn:Ea.
  - apply andb_prop in Ea. destruct Ea as [Ea Eb]. apply Nat.ltb_lt in Eb.
    unfold sample_indices. rewrite Ea. replace (stack_num o =? 1) with false by (symmetry; apply Nat.eqb_neq; lia). cbn [orb negb].
    change (0 <? 0)%Z with false. cbn iota.
    replace (z <? 0)%Z with false by (symmetry; apply Z.ltb_ge; lia).
    destruct (prev_n b (stack_num o - 2) (map Z.of_nat (all_indices (b_st b)))) as [pi|]; cbn [bind]; [|reflexivity].
    destruct (prev b pi) as [pp|]; cbn [bind]; [|reflexivity]. cbn [concat]. rewrite map_add0, app_nil_r.
    destruct (Z.eqb_spec z 0) as [->|Hz0]; [reflexivity|].
    replace (0 <? z)%Z with true by (symmetry; apply Z.ltb_lt; lia). reflexivity.
  - assert (Hc : (stack_num o =? 1) || negb (sample_avail o) = true).
    { destruct (sample_avail o); [|apply orb_true_r]. cbn [andb] in Ea. apply Nat.ltb_ge in Ea. apply orb_true_intro. left. apply Nat.eqb_eq. lia. }
    destruct (Z.eqb_spec z 0) as [->|Hz0].
    + cbn [bind repeat combine mapM]. destruct (sample_indices o b (rnd 0) (Some 0%Z)); cbn [bind]; [|reflexivity]. cbn. rewrite map_add0, app_nil_r. reflexivity.
    + cbn [list_sum fold_right]. rewrite Nat.add_0_r.
      destruct (Nat.eqb_spec (size (b_st b)) 0) as [Hs|Hs].
      * cbn [bind]. unfold sample_indices. rewrite Hc. replace (0 <? z)%Z with true by (symmetry; apply Z.ltb_lt; lia).
        rewrite Hs. unfold choice. cbn [seq length Nat.eqb]. replace (negb (Z.to_nat z =? 0)) with true by (symmetry; apply negb_true_iff, Nat.eqb_neq; lia). reflexivity.
      * cbn [bind]. rewrite bincount_one.
        2: { intros j _. cbn [pick]. replace (rnd_b j mod size (b_st b) <? size (b_st b)) with true; [reflexivity|]. symmetry. apply Nat.ltb_lt. apply Nat.mod_upper_bound. exact Hs. }
        rewrite seq_length. cbn [map combine mapM]. replace (Z.to_nat z =? 0) with false by (symmetry; apply Nat.eqb_neq; lia).
        rewrite Z2Nat.id by lia. destruct (sample_indices o b (rnd 0) (Some z)); cbn [bind]; [|reflexivity]. cbn. rewrite map_add0, app_nil_r. reflexivity.
Qed.
End One.

(** C341.  The sub-buffers of VectorReplayBuffer(n, 1): one of capacity n.  Adding transitions one by one and
    resetting is the same for it as for ReplayBuffer(n), with the same returned values and errors. *)
Lemma C341_ops_lemma : forall (Ob A Inf R : Type) (r0 : R) (radd : R -> R -> R) (last_frame : Ob -> Ob) (o : opts) (n : nat) (ids : option (list Z)) (ops : list (aop Ob A Inf R)),
  ids = None \/ ids = Some [0%Z] ->
  vec_sizes n 1 = Ok [n] /\
  foldM (mgr_op r0 radd last_frame o ids) ops (m_init r0 [n], []) =
  rmap (fun y => (as_manager (fst y), snd y)) (foldM (buf_op r0 radd last_frame o) ops (buf_init r0 n, [])).
Proof.
  intros. split; [unfold vec_sizes; cbn [Nat.ltb Nat.leb guard repeat]; rewrite Nat.add_sub, Nat.div_1_r; reflexivity|].
  change (m_init r0 [n]) with (as_manager (buf_init (Ob := Ob) (A := A) (Inf := Inf) r0 n)).
  refine (proj1 (one_ops r0 radd last_frame o ids _ ops (buf_init r0 n) [] (fits_init r0 n))). assumption.
Qed.

(** C341.  And what is read is the same: unfinished episodes, samples of a given size, neighbours and
    rows of stored indices. *)
Lemma C341_reads_lemma : forall (Ob A Inf R : Type) (r0 : R) (radd : R -> R -> R) (last_frame : Ob -> Ob) (o : opts) (n : nat) (ops : list (aop Ob A Inf R)) b outs,
  foldM (buf_op r0 radd last_frame o) ops (buf_init r0 n, []) = Ok (b, outs) ->
  m_len (as_manager b) = size (b_st b) /\ m_unfinished_index (as_manager b) = unfinished_index b /\
  (forall rnd_b rnd z, 0 < stack_num o ->
     m_sample_indices o (as_manager b) rnd_b rnd (Some z) = sample_indices o b (if sample_avail o && (1 <? stack_num o) then rnd_b else rnd 0) (Some z)) /\
  forall index, (forall i, In i index -> (0 <= i < Z.of_nat (size (b_st b)))%Z) ->
    m_prev (as_manager b) index = prev b index /\ m_next (as_manager b) index = next b index /\ m_getitem o (as_manager b) index = getitem o b index.
Proof.
  intros Ob A Inf R r0 radd last_frame o n ops b outs H.
  assert (Hf : fits b) by (eapply (proj2 (one_ops r0 radd last_frame o None (or_introl eq_refl) ops (buf_init r0 n) [] (fits_init r0 n))); exact H).
  split; [unfold m_len; cbn; lia|]. split; [apply one_unfinished; assumption|].
  apply conj; [intros; apply one_sample; assumption|]. intros index Hi.
  apply conj; [apply one_prev; assumption|]. apply conj; [apply one_next; assumption|apply one_getitem; assumption].
Qed.
