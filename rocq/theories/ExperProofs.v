(** * Proofs about experiments *)
From Verif Require Export ExperSpec TrainProofs PyLemmas.
From Coq Require Import Ascii DecimalString DecimalZ DecimalFacts.
Open Scope string_scope.
Open Scope list_scope.
Open Scope Z_scope.

(** C126. A configuration is accepted exactly if one of step_per_collect and episode_per_collect is
    set and there are test environments for the test episodes; only a number of training
    environments of -1 is changed. *)
Lemma C126_accepts_lemma : forall cpu sc,
  ((exists sc', post_init cpu sc = Ok sc') <->
   exactly_one (sc_step_per_collect sc) (sc_episode_per_collect sc) /\ (sc_test_episodes sc = 0 \/ sc_test_envs sc <> 0)) /\
  forall sc', post_init cpu sc = Ok sc' ->
    (sc_train_envs sc <> -1 -> sc' = sc) /\ (sc_train_envs sc = -1 -> sc' = set_train_envs sc cpu).
Proof.
  intros cpu sc.
  assert (E : post_init cpu sc =
    if (sc_test_episodes sc =? 0) || negb (sc_test_envs sc =? 0)
    then if given (sc_step_per_collect sc) + given (sc_episode_per_collect sc) =? 1
         then Ok (if sc_train_envs sc =? -1 then set_train_envs sc cpu else sc) else Err AssertionError
    else Err ZeroDivisionError).
  { unfold post_init. destruct (sc_train_envs sc =? -1); cbn;
      destruct (sc_test_episodes sc =? 0), (sc_test_envs sc =? 0); reflexivity. }
  rewrite E. split.
  - destruct (Z.eqb_spec (sc_test_episodes sc) 0) as [E1|E1]; destruct (Z.eqb_spec (sc_test_envs sc) 0) as [E2|E2]; cbn;
      unfold exactly_one; destruct (sc_step_per_collect sc), (sc_episode_per_collect sc); cbn;
      (split; [intros [? [=]] | intros [[[? [? ?]]|[? [? ?]]] [?|?]]]; try discriminate; try contradiction; eauto 10).
  - intros sc'. destruct (_ || _); [|discriminate]. destruct (_ =? 1); [|discriminate]. intros [= <-].
    destruct (Z.eqb_spec (sc_train_envs sc) (-1)); split; intros; try contradiction; auto.
Qed.

(** C126. The trainer made for an accepted configuration has its numbers; its collections are valid
    exactly if step_per_collect is set (and not zero), its tests exactly if there are test
    episodes. *)
Lemma C126_arguments_lemma : forall cpu sc sc' enabled,
  post_init cpu sc = Ok sc' ->
  (forall ta, ta = create_onpolicy enabled sc' \/ ta = create_offpolicy enabled sc' ->
    ta_max_epoch ta = sc_epochs sc /\ ta_step_per_epoch ta = sc_step_per_epoch sc /\ ta_batch ta = sc_batch sc /\
    ta_step_per_collect ta = sc_step_per_collect sc /\ ta_episode_per_test ta = Some (sc_test_episodes sc) /\
    ta_test_in_train ta = false /\ ta_save_best ta = true /\
    (train_request ta = Ok tt <-> exists n, sc_step_per_collect sc = Some n /\ n <> 0) /\
    (test_request ta = Ok tt <-> sc_test_episodes sc <> 0)) /\
  ta_repeat (create_onpolicy enabled sc') = sc_repeat sc /\
  ta_update_per_step (create_offpolicy enabled sc') = sc_update_per_step sc /\
  ta_save_checkpoint (create_onpolicy enabled sc') = enabled.
Proof.
  intros cpu sc sc' enabled H.
  destruct (C126_accepts_lemma cpu sc) as [_ HA]. destruct (HA sc' H) as [H1 H2].
  assert (HE : sc_epochs sc' = sc_epochs sc /\ sc_step_per_epoch sc' = sc_step_per_epoch sc /\ sc_batch sc' = sc_batch sc /\
    sc_step_per_collect sc' = sc_step_per_collect sc /\ sc_test_episodes sc' = sc_test_episodes sc /\
    sc_repeat sc' = sc_repeat sc /\ sc_update_per_step sc' = sc_update_per_step sc).
  { destruct (Z.eq_dec (sc_train_envs sc) (-1)) as [E|E]; [rewrite (H2 E) | rewrite (H1 E)]; repeat split; reflexivity. }
  destruct HE as (E1 & E2 & E3 & E4 & E5 & E6 & E7).
  split; [|cbn; auto].
  intros ta [-> | ->]; cbn; rewrite ?E1, ?E2, ?E3, ?E4, ?E5; repeat split; try reflexivity;
    unfold train_request, test_request, validate_request; cbn; rewrite ?E4, ?E5;
    try (destruct (sc_step_per_collect sc) as [n|]; cbn; [destruct (Z.eqb_spec n 0) | ]; cbn; intros; eauto;
         try discriminate; fail);
    try (destruct (sc_step_per_collect sc) as [n|]; cbn; [destruct (Z.eqb_spec n 0) | ]; cbn; intros (? & [= <-] & ?);
         try contradiction; reflexivity);
    destruct (Z.eqb_spec (sc_test_episodes sc) 0); cbn; intros; try discriminate; try contradiction; auto.
Qed.

(** C126. With episode_per_collect in place of step_per_collect, as the configuration allows, the
    first collection of either trainer fails. *)
Lemma C126_episodes_refuted_lemma : forall cpu sc sc' enabled k,
  sc_episode_per_collect sc = Some k -> post_init cpu sc = Ok sc' ->
  train_request (create_onpolicy enabled sc') = Err ValueError /\ train_request (create_offpolicy enabled sc') = Err ValueError.
Proof.
  intros cpu sc sc' enabled k Hk H.
  destruct (C126_accepts_lemma cpu sc) as [HA HB]. destruct (HB sc' H) as [H1 H2].
  destruct (proj1 HA (ex_intro _ _ H)) as [[(x & Hx & Hn)|(y & Hx & Hn)] _]; [congruence|].
  assert (E : sc_step_per_collect sc' = None).
  { destruct (Z.eq_dec (sc_train_envs sc) (-1)) as [E|E]; [rewrite (H2 E) | rewrite (H1 E)]; exact Hx. }
  unfold train_request, create_onpolicy, create_offpolicy. cbn. rewrite E. split; reflexivity.
Qed.

(** C126. A configuration without test episodes is accepted, but the trainer's first test fails. *)
Lemma C126_no_tests_refuted_lemma : forall cpu sc,
  sc_test_episodes sc = 0 -> exactly_one (sc_step_per_collect sc) (sc_episode_per_collect sc) ->
  exists sc', post_init cpu sc = Ok sc' /\ forall enabled,
    test_request (create_onpolicy enabled sc') = Err ValueError /\ test_request (create_offpolicy enabled sc') = Err ValueError.
Proof.
  intros cpu sc H0 H1. destruct (C126_accepts_lemma cpu sc) as [HA HB].
  destruct (proj2 HA (conj H1 (or_introl H0))) as [sc' H]. exists sc'. split; [exact H|]. intros enabled.
  destruct (HB sc' H) as [Ha Hb].
  assert (E : sc_test_episodes sc' = 0).
  { destruct (Z.eq_dec (sc_train_envs sc) (-1)) as [E|E]; [rewrite (Hb E) | rewrite (Ha E)]; exact H0. }
  unfold test_request, create_onpolicy, create_offpolicy. cbn. rewrite E. split; reflexivity.
Qed.

(** C126. An off-policy trainer gets no function to save checkpoints, even with persistence
    enabled. *)
Lemma C126_checkpoints_refuted_lemma : forall sc,
  ta_save_checkpoint (create_onpolicy true sc) = true /\ ta_save_checkpoint (create_offpolicy true sc) = false.
Proof. intros sc. split; reflexivity. Qed.

(** ** Counts of a run *)
Section Counts.
Variable ta : targs.
Variable collect : nat -> cstat.
Variable test : nat -> tstat.
Variable buflen : nat -> Z.
Variables c q s : Z.
Hypothesis Hs : ta_step_per_epoch ta = s.
Hypothesis Hcol : forall k, cs_steps (collect k) = c.
Hypothesis Hc : 0 < c.
Hypothesis Hept : exists n, ta_episode_per_test ta = Some n.
Hypothesis Hkind : (ta_kind ta = Onpolicy /\ q = 1) \/ (ta_kind ta = Offpolicy /\ q = pyround (ta_update_per_step ta * inject_Z c) /\ 0 < q).
Local Notation cfg := (trainer_config ta).

Lemma counts_step st : s_stop st = false -> exists st',
  training_step cfg collect test buflen st = (st', Ok (c, false)) /\
  s_epoch st' = s_epoch st /\ s_iter st' = s_iter st /\ s_start st' = s_start st /\ s_stop st' = false /\
  s_nc st' = S (s_nc st) /\ s_env st' = s_env st + c /\ upds (s_ev st') = upds (s_ev st) + q.
Proof.
  intros Hst. destruct Hept as [n En]. unfold training_step, collect_training_data, train_stop. cbn.
  rewrite En. cbn. unfold policy_update. cbn. rewrite (Hcol (s_nc st)).
  destruct Hkind as [[-> Hq]|[-> [Hq Hq0]]].
  - eexists. split; [reflexivity|].
    destruct (ta_batch ta) as [b|]; cbn; [destruct (0 <? b); cbn|]; rewrite ?Hcol;
      (repeat split; auto; rewrite !upds_app; cbn; rewrite Hq; unfold upds; cbn; lia).
  - rewrite <- Hq. destruct (Z.eqb_spec q 0) as [E|E]; [lia|].
    eexists. split; [reflexivity|]. rewrite updates_eq. cbn.
    repeat split; auto.
    rewrite !upds_app, upds_repeat. unfold upds. cbn. lia.
Qed.

Lemma counts_loop (k : nat) : forall fuel done st, s_stop st = false -> (k <= fuel)%nat ->
  c * (Z.of_nat k - 1) < s - done -> s - done <= c * Z.of_nat k -> exists st',
  epoch_loop cfg collect test buflen fuel done st = (st', Ok tt) /\
  s_epoch st' = s_epoch st /\ s_iter st' = s_iter st /\ s_start st' = s_start st /\ s_stop st' = false /\
  s_nc st' = (s_nc st + k)%nat /\ s_env st' = s_env st + Z.of_nat k * c /\ upds (s_ev st') = upds (s_ev st) + Z.of_nat k * q.
Proof.
  induction k as [|k IH]; intros fuel done st Hst Hf H1 H2.
  - exists st. destruct fuel; cbn; rewrite Hs, Hst; destruct (Z.ltb_spec done s); try nia; cbn; repeat split; auto; nia.
  - destruct fuel as [|fuel]; [lia|].
    cbn [epoch_loop]. change (c_step_per_epoch cfg) with (ta_step_per_epoch ta). rewrite Hs, Hst.
    destruct (Z.ltb_spec done s); [|nia]. cbn [andb negb].
    destruct (counts_step st Hst) as (st' & E & A1 & A2 & A3 & A4 & A5 & A6 & A7). rewrite E.
    destruct (IH fuel (done + c) (set_stop st' false)) as (st'' & E' & B1 & B2 & B3 & B4 & B5 & B6 & B7);
      [reflexivity | lia | nia | nia |].
    exists st''. split; [exact E'|].
    cbn [set_stop s_epoch s_iter s_start s_nc s_env s_ev s_stop] in B1, B2, B3, B5, B6, B7. rewrite B1, B2, B3, B5, B6, B7, A1, A2, A3, A5, A6, A7.
    repeat split; auto; nia.
Qed.

Lemma counts_next k fuel st : is_ceil s c (Z.of_nat k) -> 0 < s -> (k <= fuel)%nat -> s_stop st = false ->
  s_iter st <= 0 \/ s_epoch st + 1 <= ta_max_epoch ta -> exists st',
  next cfg collect test buflen fuel st = (st', Ok (s_epoch st + 1)) /\
  s_epoch st' = s_epoch st + 1 /\ s_iter st' = s_iter st + 1 /\ s_stop st' = false /\
  s_nc st' = (s_nc st + k)%nat /\ s_env st' = s_env st + Z.of_nat k * c /\ upds (s_ev st') = upds (s_ev st) + Z.of_nat k * q.
Proof.
  intros [K1 K2] Hs0 Hf Hst Hit. unfold next. cbn [set_epoch s_epoch s_iter s_stop].
  rewrite Hst, andb_false_r.
  replace ((1 <? s_iter st + 1) && (c_max_epoch cfg <? s_epoch st + 1)) with false.
  2: { symmetry. cbn. destruct (Z.ltb_spec 1 (s_iter st + 1)), (Z.ltb_spec (ta_max_epoch ta) (s_epoch st + 1)); cbn; auto. lia. }
  destruct (counts_loop k fuel 0 (set_epoch st (s_epoch st + 1) (s_iter st + 1))) as (st' & E & A1 & A2 & A3 & A4 & A5 & A6 & A7);
    [exact Hst | exact Hf | nia | nia |].
  rewrite E. cbn. rewrite A4. destruct Hept as [n En]. unfold test_step, test_episode. cbn. rewrite En. cbn.
  rewrite Hs. destruct (Z.leb_spec s 0); [lia|].
  cbn in A1, A2, A5, A6, A7.
  destruct ((s_best_epoch st' <? 0) || Qcltb (s_best_score st') (ts_score (test (s_nt st')))); [destruct (ta_save_best ta)|];
    cbn; rewrite ?A1; (eexists; split; [reflexivity|]); cbn;
    rewrite ?A1, ?A2, ?A5, ?A6; repeat split; auto; rewrite !upds_app, ?A7; unfold upds; cbn; lia.
Qed.

Lemma counts_run_loop k fuel (Hk : is_ceil s c (Z.of_nat k)) (Hs0 : 0 < s) (Hf : (k <= fuel)%nat) e : forall n st,
  (e < n)%nat -> s_stop st = false -> s_epoch st + Z.of_nat e = ta_max_epoch ta ->
  0 < s_iter st \/ (s_iter st = 0 /\ (0 < e)%nat) -> exists st',
  run_loop cfg collect test buflen fuel n st = (st', Ok (map (fun i => s_epoch st + 1 + Z.of_nat i) (seq 0 e))) /\
  s_nc st' = (s_nc st + e * k)%nat /\ s_env st' = s_env st + Z.of_nat (e * k) * c /\ upds (s_ev st') = upds (s_ev st) + Z.of_nat (e * k) * q.
Proof.
  induction e as [|e IH]; intros n st Hn Hst He Hit; (destruct n as [|n]; [lia|]).
  - exists (set_epoch st (s_epoch st + 1) (s_iter st + 1)). cbn [run_loop]. unfold next. cbn [set_epoch s_epoch s_iter s_stop].
    replace ((1 <? s_iter st + 1) && (c_max_epoch cfg <? s_epoch st + 1)) with true.
    2: { symmetry. cbn. destruct (Z.ltb_spec 1 (s_iter st + 1)), (Z.ltb_spec (ta_max_epoch ta) (s_epoch st + 1)); cbn; auto; lia. }
    cbn. repeat split; lia.
  - cbn [run_loop].
    destruct (counts_next k fuel st Hk Hs0 Hf Hst) as (st' & E & A1 & A2 & A3 & A4 & A5 & A6); [lia|].
    rewrite E. destruct (IH n st') as (st'' & E' & B1 & B2 & B3); [lia | exact A3 | lia | left; lia |].
    rewrite E'. exists st''. cbn [seq map]. rewrite <- seq_shift, map_map.
    split. { apply f_equal, f_equal, f_equal2; [cbn; lia|]. apply map_ext. intros i. lia. }
    rewrite B1, B2, B3, A4, A5, A6. repeat split; nia.
Qed.
End Counts.

(** C127. The run of a created trainer whose collections have [c] steps each, on-policy or
    off-policy with [q] updates for [c] steps: as many epochs as configured, ceil(s/c) collections
    in each, and as many updates. *)
Lemma C127_counts_lemma : forall enabled sc ta collect test buflen c q (k e fuel n : nat),
  ta = create_onpolicy enabled sc /\ q = 1 \/
  ta = create_offpolicy enabled sc /\ rounds_to (sc_update_per_step sc * inject_Z c) q /\ 0 < q ->
  0 < sc_step_per_epoch sc -> sc_epochs sc = Z.of_nat e -> (0 < e)%nat ->
  0 < c -> (forall i, cs_steps (collect i) = c) ->
  is_ceil (sc_step_per_epoch sc) c (Z.of_nat k) -> (k <= fuel)%nat -> (e < n)%nat ->
  exists st, run (trainer_config ta) collect test buflen fuel n true (new_trainer (ta_test_in_train ta)) =
      (st, Ok (map (fun i => 1 + Z.of_nat i) (seq 0 e))) /\
    s_nc st = (e * k)%nat /\ s_env st = Z.of_nat e * Z.of_nat k * c /\ upds (s_ev st) = Z.of_nat e * Z.of_nat k * q.
Proof.
  intros enabled sc ta collect test buflen c q k e fuel n Hta Hs He He0 Hc Hcol Hk Hf Hn.
  assert (Hkind : (ta_kind ta = Onpolicy /\ q = 1) \/ (ta_kind ta = Offpolicy /\ q = pyround (ta_update_per_step ta * inject_Z c) /\ 0 < q)).
  { destruct Hta as [[-> ->]|(-> & Hr & H0)]; [left; auto|right]. split; [reflexivity|]. split; [|exact H0]. cbn.
    pose proof (pyround_spec (sc_update_per_step sc * inject_Z c)) as Hp. cbn zeta in Hp.
    symmetry. destruct Hp as [P1 P2], Hr as [R1 R2]. eapply round_unique; eauto. }
  assert (HS : ta_step_per_epoch ta = sc_step_per_epoch sc) by (destruct Hta as [[-> _]|[-> _]]; reflexivity).
  assert (HE : ta_max_epoch ta = sc_epochs sc) by (destruct Hta as [[-> _]|[-> _]]; reflexivity).
  assert (HT : ta_episode_per_test ta = Some (sc_test_episodes sc)) by (destruct Hta as [[-> _]|[-> _]]; reflexivity).
  assert (HB : ta_save_best ta = true) by (destruct Hta as [[-> _]|[-> _]]; reflexivity).
  unfold run.
  assert (R : forall st0, s_start st0 = 0 -> upds (s_ev st0) = 0 -> s_nc st0 = 0%nat -> exists st1,
    reset (trainer_config ta) test st0 = (st1, Ok tt) /\ s_start st1 = 0 /\ s_epoch st1 = 0 /\ s_iter st1 = 0 /\ s_stop st1 = false /\
    s_env st1 = 0 /\ s_nc st1 = 0%nat /\ upds (s_ev st1) = 0).
  { intros st0 A B C. unfold reset, test_episode. cbn. rewrite HT, HB. cbn. eexists. split; [reflexivity|]. cbn.
    rewrite !upds_app, A, B, C. repeat split. }
  destruct (R (new_trainer (ta_test_in_train ta))) as (s1 & E1 & A1 & A2 & A3 & A4 & A5 & A6 & A7); [reflexivity..|].
  rewrite E1. destruct (R s1 A1 A7 A6) as (s2 & E2 & B1 & B2 & B3 & B4 & B5 & B6 & B7). rewrite E2.
  destruct (counts_run_loop ta collect test buflen c q (sc_step_per_epoch sc) HS Hcol Hc (ex_intro _ _ HT) Hkind k fuel Hk Hs Hf e n s2)
    as (st & E & D1 & D2 & D3); [exact Hn | exact B4 | lia | right; lia |].
  exists st. rewrite E, D1, D2, D3, B2, B5, B6, B7. repeat split; try nia.
Qed.

(** ** Schedules *)
Lemma cdiv_ceil a b : 0 < b -> is_ceil a b (cdiv a b).
Proof. intros Hb. unfold is_ceil, cdiv. pose proof (Z.div_mod (- a) b ltac:(lia)). pose proof (Z.mod_pos_bound (- a) b Hb). nia. Qed.
Lemma is_ceil_unique a b k k' : 0 < b -> is_ceil a b k -> is_ceil a b k' -> k = k'.
Proof.
  unfold is_ceil. intros Hb [H1 H2] [H3 H4].
  assert (k - 1 < k') by (apply (Z.mul_lt_mono_pos_l b); lia).
  assert (k' - 1 < k) by (apply (Z.mul_lt_mono_pos_l b); lia). lia.
Qed.
Lemma is_ceil_pos a b k : 0 < b -> 0 < a -> is_ceil a b k -> 0 < k.
Proof. unfold is_ceil. intros. nia. Qed.
Lemma is_ceil_mono a b b' k k' : 0 < b -> b <= b' -> 0 < a -> is_ceil a b k -> is_ceil a b' k' -> k' <= k.
Proof.
  intros Hb Hbb Ha Hk Hk'. pose proof (is_ceil_pos a b k Hb Ha Hk) as Hk0. destruct Hk as [H1 H2], Hk' as [H3 H4].
  assert (b * k <= b' * k) by (apply Z.mul_le_mono_nonneg_r; lia).
  assert (k' - 1 < k) by (apply (Z.mul_lt_mono_pos_l b'); lia). lia.
Qed.
Lemma Qc_div_Z a b : 0 < b -> (Q2Qc (inject_Z a) / Q2Qc (inject_Z b) = Q2Qc (inject_Z a / inject_Z b))%Qc.
Proof.
  intros Hb. apply Qc_is_canon. unfold Qcdiv. rewrite this_mult. cbn [this Qcinv Q2Qc]. rewrite !Qred_correct.
  unfold Qdiv. reflexivity.
Qed.
Lemma Q2Qc_inj_lt a b : (Q2Qc (inject_Z a) < Q2Qc (inject_Z b))%Qc <-> a < b.
Proof. unfold Qclt. cbn [this Q2Qc]. rewrite !Qred_correct. rewrite <- Zlt_Qlt. reflexivity. Qed.
Lemma Q2Qc_inj_le a b : (Q2Qc (inject_Z a) <= Q2Qc (inject_Z b))%Qc <-> a <= b.
Proof. unfold Qcle. cbn [this Q2Qc]. rewrite !Qred_correct. rewrite <- Zle_Qle. reflexivity. Qed.
Definition Zc (n : Z) : Qc := Q2Qc (inject_Z n).
Lemma Zc_mult a b : Zc (a * b) = (Zc a * Zc b)%Qc.
Proof. apply Qc_is_canon. unfold Zc. rewrite this_mult. cbn [this Q2Qc]. rewrite !Qred_correct, inject_Z_mult. reflexivity. Qed.
Lemma Zc_sub a b : Zc (a - b) = (Zc a - Zc b)%Qc.
Proof.
  apply Qc_is_canon. unfold Zc, Qcminus. rewrite this_plus. cbn [this Q2Qc Qcopp]. rewrite !Qred_correct.
  unfold Z.sub. rewrite inject_Z_plus, inject_Z_opp. reflexivity.
Qed.
Lemma Zc_neq0 a : a <> 0 -> Zc a <> 0%Qc.
Proof. intros H E. apply H. unfold Zc in E. apply Qc_eq_Qeq in E. cbn [this Q2Qc] in E. rewrite Qred_correct in E. unfold Qeq in E. cbn in E. lia. Qed.
Lemma Zc_inj a b : Zc a = Zc b -> a = b.
Proof. intros E. unfold Zc in E. apply Qc_eq_Qeq in E. cbn [this Q2Qc] in E. rewrite !Qred_correct in E. unfold Qeq in E. cbn in E. lia. Qed.

Lemma lr_factor_eq sc n M t : sc_step_per_collect sc = Some n -> 0 < n -> is_ceil (sc_step_per_epoch sc) n M -> 0 < M * sc_epochs sc ->
  lr_factor sc t = Ok (1 - Zc t / Zc (M * sc_epochs sc))%Qc.
Proof.
  intros En Hn HM Hp. unfold lr_factor, max_update_num. rewrite En. unfold guard. destruct (Z.eqb_spec n 0); [lia|]. cbn.
  rewrite (is_ceil_unique _ _ _ _ Hn (cdiv_ceil _ _ Hn) HM). destruct (Z.eqb_spec (M * sc_epochs sc) 0); [lia|]. reflexivity.
Qed.
Lemma frac_mult a b : b <> 0 -> ((1 - Zc a / Zc b) * Zc b = Zc (b - a))%Qc.
Proof. intros H. rewrite Zc_sub. field. apply Zc_neq0, H. Qed.

(** C128. With the linear schedule and an on-policy trainer collecting c >= step_per_collect steps
    at a time, the factor of the learning rate after t of the updates of the run is between 0 and
    1, starts at 1, falls with every update by the same amount, and ends with 0 if
    step_per_collect steps are collected exactly. *)
Lemma C128_onpolicy_lemma : forall sc n c k e,
  sc_step_per_collect sc = Some n -> 0 < n -> n <= c -> 0 < sc_step_per_epoch sc -> sc_epochs sc = e -> 0 < e ->
  is_ceil (sc_step_per_epoch sc) c k ->
  exists f, (forall t, lr_factor sc t = Ok (f t)) /\ f 0 = 1%Qc /\
    (forall t, 0 <= t <= e * k -> (0 <= f t <= 1)%Qc) /\
    (exists d, (0 < d)%Qc /\ forall t, (f t - f (t + 1)%Z = d)%Qc) /\
    (c = n -> f (e * k)%Z = 0%Qc).
Proof.
  intros sc n c k e En Hn Hc Hs He He0 Hk. pose proof (cdiv_ceil (sc_step_per_epoch sc) n Hn) as HM.
  set (M := cdiv (sc_step_per_epoch sc) n) in *. clearbody M.
  pose proof (is_ceil_pos _ _ _ Hn Hs HM) as HM0. pose proof (is_ceil_mono _ _ _ _ _ Hn Hc Hs HM Hk) as HkM.
  assert (HP : 0 < M * e) by nia.
  exists (fun t => 1 - Zc t / Zc (M * e))%Qc.
  assert (Hpos : (0 < Zc (M * e))%Qc) by (change 0%Qc with (Zc 0); apply Q2Qc_inj_lt; exact HP).
  split; [|split; [|split; [|split]]].
  - intros t. rewrite (lr_factor_eq sc n M t En Hn HM); rewrite He; auto.
  - change (Zc 0) with 0%Qc. field. apply Zc_neq0. lia.
  - intros t [T1 T2].
    assert (F : ((1 - Zc t / Zc (M * e)) * Zc (M * e) = Zc (M * e - t))%Qc) by (apply frac_mult; lia).
    assert (0 <= Zc (M * e - t))%Qc by (change 0%Qc with (Zc 0); apply Q2Qc_inj_le; nia).
    assert (Zc (M * e - t) <= Zc (M * e))%Qc by (apply Q2Qc_inj_le; lia).
    split; apply Qcnot_lt_le; intros HL.
    + pose proof (Qcmult_lt_compat_r _ _ _ Hpos HL) as Q. rewrite F in Q. rewrite Qcmult_0_l in Q. exact (Qcle_not_lt _ _ H Q).
    + pose proof (Qcmult_lt_compat_r _ _ _ Hpos HL) as Q. rewrite F in Q. rewrite Qcmult_1_l in Q. exact (Qcle_not_lt _ _ H0 Q).
  - exists (/ Zc (M * e))%Qc. split.
    + destruct (Qc_dec 0 (/ Zc (M * e))%Qc) as [[L|L]|L]; [exact L| exfalso | exfalso].
      * pose proof (Qcmult_lt_compat_r _ _ _ Hpos L) as Q. rewrite (Qcmult_comm (/ _)), Qcmult_inv_r, Qcmult_0_l in Q by (apply Zc_neq0; lia).
        discriminate Q.
      * assert (Q : (/ Zc (M * e) * Zc (M * e) = 0)%Qc) by (rewrite <- L; ring).
        rewrite (Qcmult_comm (/ _)), Qcmult_inv_r in Q by (apply Zc_neq0; lia). discriminate Q.
    + intros t. replace (t + 1) with (t - (-1)) by lia. rewrite Zc_sub. change (Zc (-1)) with (- (1))%Qc. field. apply Zc_neq0. lia.
  - intros ->. rewrite (is_ceil_unique _ _ _ _ Hn Hk HM), (Z.mul_comm e). field. apply Zc_neq0. lia.
Qed.

(** C128. Off-policy with q updates for the step_per_collect steps of a collection, the factor at
    the end of the run is 1 - q: negative as soon as there are several updates per collection. *)
Lemma C128_offpolicy_refuted_lemma : forall sc n k e q,
  sc_step_per_collect sc = Some n -> 0 < n -> 0 < sc_step_per_epoch sc -> sc_epochs sc = e -> 0 < e ->
  is_ceil (sc_step_per_epoch sc) n k -> 1 < q ->
  exists f, lr_factor sc (e * k * q) = Ok f /\ f = (1 - Q2Qc (inject_Z q))%Qc /\ (f < 0)%Qc.
Proof.
  intros sc n k e q En Hn Hs He He0 Hk Hq. pose proof (is_ceil_pos _ _ _ Hn Hs Hk) as Hk0.
  eexists. split; [|split; [reflexivity|]].
  - rewrite (lr_factor_eq sc n k _ En Hn Hk) by nia. rewrite He. apply f_equal. rewrite (Z.mul_comm k e), Zc_mult. fold (Zc q).
    field. apply Zc_neq0. nia.
  - replace (1 - Q2Qc (inject_Z q))%Qc with (Zc (1 - q)) by (rewrite Zc_sub; reflexivity).
    change 0%Qc with (Zc 0). apply Q2Qc_inj_lt. lia.
Qed.

(** C129. The linear decay of epsilon: from the initial value at step 0 to the final one at
    decay_steps and after, falling and between the two on the way. *)
Lemma C129_decay_lemma : forall eps final decay, (final <= eps)%Qc -> 0 < decay ->
  exists f, (forall t, eps_at eps final decay t = Ok (f t)) /\ f 0 = eps /\ (forall t, decay <= t -> f t = final) /\
    (forall t t', 0 <= t <= t' -> (final <= f t' /\ f t' <= f t /\ f t <= eps)%Qc) /\
    (forall t, 0 <= t <= decay -> ((f t - final) * Q2Qc (inject_Z decay) = (eps - final) * Q2Qc (inject_Z (decay - t)))%Qc).
Proof.
  intros eps final decay Hf Hd.
  exists (fun t => if t <=? decay then (eps - Zc t / Zc decay * (eps - final))%Qc else final).
  assert (Hpos : (0 < Zc decay)%Qc) by (change 0%Qc with (Zc 0); apply Q2Qc_inj_lt; exact Hd).
  assert (Hne : Zc decay <> 0%Qc) by (apply Zc_neq0; lia).
  assert (K : forall t, ((eps - Zc t / Zc decay * (eps - final) - final) * Zc decay = (eps - final) * Zc (decay - t))%Qc).
  { intros t. rewrite Zc_sub. field. exact Hne. }
  assert (Hd0 : (0 <= eps - final)%Qc) by qclra.
  assert (G : forall a b, (a * Zc decay <= b * Zc decay)%Qc -> (a <= b)%Qc).
  { intros a b H. apply Qcnot_lt_le. intros L. exact (Qcle_not_lt _ _ H (Qcmult_lt_compat_r _ _ _ Hpos L)). }
  assert (Mono : forall t t', t <= t' -> ((eps - final) * Zc (decay - t') <= (eps - final) * Zc (decay - t))%Qc).
  { intros t t' H. rewrite !(Qcmult_comm (eps - final)). apply Qcmult_le_compat_r; [apply Q2Qc_inj_le; lia | exact Hd0]. }
  split; [|split; [|split; [|split]]].
  - intros t. unfold eps_at, guard. destruct (t <=? decay); [|reflexivity]. destruct (Z.eqb_spec decay 0); [lia|]. reflexivity.
  - destruct (Z.leb_spec 0 decay); [|lia]. change (Zc 0) with 0%Qc. field. exact Hne.
  - intros t Ht. destruct (Z.leb_spec t decay); [|reflexivity]. replace t with decay by lia. field. exact Hne.
  - intros t t' [T1 T2].
    assert (A : forall x, 0 <= x <= decay -> (final <= eps - Zc x / Zc decay * (eps - final) /\ eps - Zc x / Zc decay * (eps - final) <= eps)%Qc).
    { intros x [X1 X2]. pose proof (Mono x decay X2) as M1. pose proof (Mono 0 x X1) as M2.
      rewrite <- K in M1. rewrite <- !K in M2. rewrite <- K in M1. apply G in M1, M2.
      replace (Zc decay / Zc decay)%Qc with 1%Qc in M1 by (field; exact Hne).
      change (Zc 0) with 0%Qc in M2. replace (0 / Zc decay)%Qc with 0%Qc in M2 by (field; exact Hne).
      split; qclra. }
    destruct (Z.leb_spec t' decay); destruct (Z.leb_spec t decay); try lia.
    + pose proof (A t ltac:(lia)). pose proof (A t' ltac:(lia)). pose proof (Mono t t' T2) as M1. rewrite <- !K in M1. apply G in M1.
      repeat split; try tauto. qclra.
    + pose proof (A t ltac:(lia)). repeat split; try tauto. apply Qcle_refl.
    + repeat split; try apply Qcle_refl. exact Hf.
  - intros t Ht. destruct (Z.leb_spec t decay); [|lia]. apply K.
Qed.

(** C129. decay_steps = 0 (the final value at once) is an error at the first step. *)
Lemma C129_zero_refuted_lemma : forall eps final,
  eps_at eps final 0 0 = Err ZeroDivisionError /\ forall t, 0 < t -> eps_at eps final 0 t = Ok final.
Proof. intros eps final. split; [reflexivity|]. intros t Ht. unfold eps_at. destruct (Z.leb_spec t 0); [lia|reflexivity]. Qed.

(** ** Runs of experiments *)
(** C130. The result of an experiment does not contain that of the trainer: trainer_result is None
    also when the training succeeded. *)
Lemma C130_result_refuted_lemma : forall (Info : Type) factory (info : Info) c sc dir ex coll ev r,
  run_experiment factory (Ok info) c sc dir ex coll = (ev, Ok r) -> x_train c = true ->
  In XTrain ev /\ r = None.
Proof.
  intros Info factory info c sc dir ex coll ev r H Ht. unfold run_experiment in H.
  destruct (create_world factory c sc dir ex coll) as [ev0 [u|e]]; [|discriminate]. rewrite Ht in H.
  destruct (x_watch c); [destruct (validate_request None (Some (x_watch_episodes c))); [|discriminate]|]; injection H as <- <-;
    (split; [|reflexivity]); rewrite !in_app_iff; cbn; tauto.
Qed.

(** C130. What a successful run does, and in which order: seeding before environments and policy
    are made, restoring and the initial collection before training, watching last; collecting and
    training only if asked for. *)
Lemma C130_order_lemma : forall (Info : Type) factory (train : res Info) c sc dir ex coll ev r,
  run_experiment factory train c sc dir ex coll = (ev, Ok r) ->
  let envs := XEnvs (sc_train_envs sc) (sc_test_envs sc) (x_watch c) in
  before (XSeed (x_seed c)) envs ev /\ before envs XPolicy ev /\
  (x_train c = true -> before XPolicy XTrain ev /\ before (XTrainer (factory (x_persist c) sc)) XTrain ev) /\
  (forall d, restore_dir c = Some d -> before XPolicy (XRestore d) ev /\ (x_train c = true -> before (XRestore d) XTrain ev)) /\
  (x_train c = true -> 0 < sc_start sc -> before (XPrefill (sc_start sc) (sc_start_random sc)) XTrain ev) /\
  (forall n rnd, In (XPrefill n rnd) ev -> x_train c = true /\ n = sc_start sc /\ 0 < n) /\
  (In XTrain ev -> x_train c = true) /\
  (forall n, In (XWatch n) ev <-> x_watch c = true /\ n = x_watch_episodes c) /\
  (x_watch c = true -> exists ev', ev = ev' ++ [XWatch (x_watch_episodes c)]).
Proof.
  intros Info factory train c sc dir ex coll ev r H envs. unfold run_experiment in H.
  unfold create_world in H. destruct (x_persist c && ex && coll); [discriminate|].
  set (a := if x_persist c then [XMakeDir dir] else []) in *.
  set (b := if x_persist c && x_log_file c then [XLogFile dir] else []) in *.
  set (p := if x_persist c then [XPickle dir; XLogger dir] else []) in *.
  set (col := if x_train c then [XCollectors] else []) in *.
  set (rs := match restore_dir c with Some d => [XRestore d] | None => [] end) in *.
  set (tr := if x_train c then [XTrainer (factory (x_persist c) sc)] else []) in *.
  set (pre := if 0 <? sc_start sc then [XPrefill (sc_start sc) (sc_start_random sc)] else []) in *.
  set (fin := if x_persist c then [XFinalize] else []) in *.
  set (w := if x_watch c then [XWatch (x_watch_episodes c)] else []).
  set (mid := if x_train c then pre ++ [XTrain] ++ fin else []).
  assert (E : ev = a ++ b ++ [XSeed (x_seed c); envs] ++ p ++ [XPolicy] ++ col ++ rs ++ tr ++ b ++ mid ++ w).
  { subst mid w col tr. clearbody a b p rs pre fin. clear - H. subst envs. destruct (x_train c).
    - destruct train as [i|]; [|discriminate].
      destruct (x_watch c); [destruct (validate_request None (Some (x_watch_episodes c))); [|discriminate]|];
        injection H as <- _; repeat (progress (cbn [app]; rewrite <- ?List.app_assoc)); rewrite ?List.app_nil_r; reflexivity.
    - destruct (x_watch c); [destruct (validate_request None (Some (x_watch_episodes c))); [|discriminate]|];
        injection H as <- _; repeat (progress (cbn [app]; rewrite <- ?List.app_assoc)); rewrite ?List.app_nil_r; reflexivity. }
  clear H. subst ev.
  assert (Na : forall x, In x (a ++ b ++ p ++ b ++ fin) -> writes x = true).
  { intros x. unfold a, b, p, fin. destruct (x_persist c), (x_log_file c); cbn; intuition (subst; reflexivity). }
  assert (Nr : forall x, In x rs -> exists d, x = XRestore d /\ restore_dir c = Some d).
  { intros x. unfold rs. destruct (restore_dir c); cbn; [intros [<-|[]]; eauto | intros []]. }
  assert (Nin : forall x, In x (a ++ b ++ [XSeed (x_seed c); envs] ++ p ++ [XPolicy] ++ col ++ rs ++ tr ++ b ++ mid ++ w) ->
    writes x = true \/ x = XSeed (x_seed c) \/ x = envs \/ x = XPolicy \/ x = XCollectors \/ (exists d, x = XRestore d) \/ (exists t, x = XTrainer t) \/
    (x_train c = true /\ (In x pre \/ x = XTrain)) \/ In x w).
  { intros x. rewrite !in_app_iff. intros HI.
    assert (Hm : In x mid -> x_train c = true /\ (In x pre \/ x = XTrain) \/ In x fin).
    { unfold mid. destruct (x_train c); [|intros []]. rewrite !in_app_iff. cbn. intuition. }
    assert (Hcol : In x col -> x = XCollectors) by (unfold col; destruct (x_train c); cbn; intuition).
    assert (Htr : In x tr -> exists t, x = XTrainer t) by (unfold tr; destruct (x_train c); cbn; [intros [<-|[]]; eauto | intros []]).
    assert (Hw : In x a \/ In x b \/ In x p \/ In x fin -> writes x = true).
    { intros HH. apply Na. rewrite !in_app_iff. tauto. }
    destruct HI as [HI|[HI|[HI|[HI|[HI|[HI|[HI|[HI|[HI|[HI|HI]]]]]]]]]].
    - left. apply Hw. auto.
    - left. apply Hw. auto.
    - cbn in HI. destruct HI as [<-|[<-|[]]]; auto.
    - left. apply Hw. auto.
    - cbn in HI. destruct HI as [<-|[]]. auto.
    - do 4 right. left. auto.
    - destruct (Nr x HI) as (d & -> & _). do 5 right. left. eauto.
    - destruct (Htr HI) as (t & ->). do 6 right. left. eauto.
    - left. apply Hw. auto.
    - destruct (Hm HI) as [?|?]; [do 7 right; left; assumption | left; auto].
    - do 8 right. assumption. }
  assert (Hpre : forall x, In x pre -> x = XPrefill (sc_start sc) (sc_start_random sc) /\ 0 < sc_start sc).
  { unfold pre. destruct (Z.ltb_spec 0 (sc_start sc)); cbn; intuition (subst; auto). }
  assert (Hww : forall x, In x w -> x = XWatch (x_watch_episodes c) /\ x_watch c = true).
  { unfold w. destruct (x_watch c); cbn; intuition (subst; auto). }
  split; [|split; [|split; [|split; [|split; [|split; [|split; [|split]]]]]]].
  - exists (a ++ b), [], (p ++ [XPolicy] ++ col ++ rs ++ tr ++ b ++ mid ++ w). rewrite <- !List.app_assoc. reflexivity.
  - exists (a ++ b ++ [XSeed (x_seed c)]), p, (col ++ rs ++ tr ++ b ++ mid ++ w). rewrite <- !List.app_assoc. reflexivity.
  - intros Ht. unfold mid, tr. rewrite Ht. split.
    + exists (a ++ b ++ [XSeed (x_seed c); envs] ++ p), (col ++ rs ++ [XTrainer (factory (x_persist c) sc)] ++ b ++ pre), (fin ++ w).
      rewrite <- !List.app_assoc. reflexivity.
    + exists (a ++ b ++ [XSeed (x_seed c); envs] ++ p ++ [XPolicy] ++ col ++ rs), (b ++ pre), (fin ++ w).
      rewrite <- !List.app_assoc. reflexivity.
  - intros d Hd. unfold rs. rewrite Hd. split.
    + exists (a ++ b ++ [XSeed (x_seed c); envs] ++ p), col, (tr ++ b ++ mid ++ w). rewrite <- !List.app_assoc. reflexivity.
    + intros Ht. unfold mid. rewrite Ht.
      exists (a ++ b ++ [XSeed (x_seed c); envs] ++ p ++ [XPolicy] ++ col), (tr ++ b ++ pre), (fin ++ w).
      rewrite <- !List.app_assoc. reflexivity.
  - intros Ht H0. unfold mid, pre. rewrite Ht. destruct (Z.ltb_spec 0 (sc_start sc)); [|lia].
    exists (a ++ b ++ [XSeed (x_seed c); envs] ++ p ++ [XPolicy] ++ col ++ rs ++ tr ++ b), [], (fin ++ w).
    rewrite <- !List.app_assoc. reflexivity.
  - intros n rnd HI. apply Nin in HI. cbn in HI.
    destruct HI as [HI|[HI|[HI|[HI|[HI|[[d HI]|[[t HI]|[[Ht [HI|HI]]|HI]]]]]]]]; try discriminate.
    + destruct (Hpre _ HI) as [[= -> ->] ?]. auto.
    + destruct (Hww _ HI) as [? _]. discriminate.
  - intros HI. apply Nin in HI. cbn in HI.
    destruct HI as [HI|[HI|[HI|[HI|[HI|[[d HI]|[[t HI]|[[Ht [HI|HI]]|HI]]]]]]]]; try discriminate; auto.
    destruct (Hww _ HI) as [? _]. discriminate.
  - intros n. split.
    + intros HI. apply Nin in HI. cbn in HI.
      destruct HI as [HI|[HI|[HI|[HI|[HI|[[d HI]|[[t HI]|[[Ht [HI|HI]]|HI]]]]]]]]; try discriminate.
      * destruct (Hpre _ HI) as [? _]. discriminate.
      * destruct (Hww _ HI) as [[= ->] ?]. auto.
    + intros [Hx ->]. rewrite !in_app_iff. unfold w. rewrite Hx. cbn. tauto.
  - intros Hx. unfold w. rewrite Hx. exists (a ++ b ++ [XSeed (x_seed c); envs] ++ p ++ [XPolicy] ++ col ++ rs ++ tr ++ b ++ mid).
    rewrite <- !List.app_assoc. reflexivity.
Qed.

(** C130. A run restores exactly the given directory (an empty name counts as none), after the
    policy is made and before training. *)
Lemma C130_restore_lemma : forall (Info : Type) factory (train : res Info) c sc dir ex coll ev r,
  run_experiment factory train c sc dir ex coll = (ev, Ok r) ->
  forall d, (In (XRestore d) ev <-> x_restore c = Some d /\ d <> EmptyString) /\
    (x_restore c = Some d -> d <> EmptyString -> before XPolicy (XRestore d) ev /\ (x_train c = true -> before (XRestore d) XTrain ev)).
Proof.
  intros Info factory train c sc dir ex coll ev r H d.
  assert (R : restore_dir c = Some d <-> x_restore c = Some d /\ d <> EmptyString).
  { unfold restore_dir. destruct (x_restore c) as [[|ch s]|]; split; try discriminate.
    - intros [[= <-] N]. contradiction.
    - intros [= <-]. split; [reflexivity|discriminate].
    - intros [E _]. exact E.
    - intros [E _]. discriminate. }
  destruct (C130_order_lemma _ _ _ _ _ _ _ _ _ _ H) as (_ & _ & _ & B & _).
  split; [|intros E N; apply B, R; auto]. rewrite <- R. split.
  - clear B R. unfold run_experiment, create_world in H. destruct (x_persist c && ex && coll); [discriminate|].
    set (rs := match restore_dir c with Some d => [XRestore d] | None => [] end) in *.
    assert (Nr : In (XRestore d) rs -> restore_dir c = Some d).
    { unfold rs. destruct (restore_dir c); cbn; [intros [[= <-]|[]]; reflexivity | intros []]. }
    clearbody rs. intros HI. apply Nr.
    destruct (x_train c), train as [i|], (x_watch c), (x_persist c), (x_log_file c), (0 <? sc_start sc), (validate_request None (Some (x_watch_episodes c)));
      cbn [andb] in H; try discriminate H; injection H as <- _; cbn in HI; repeat (setoid_rewrite in_app_iff in HI; cbn in HI);
      repeat match goal with X : _ \/ _ |- _ => destruct X as [X|X] | X : False |- _ => destruct X end;
      first [assumption | discriminate HI].
  - intros E. destruct (B d E) as [(a & b & c' & ->) _]. rewrite in_app_iff. right. right. rewrite in_app_iff. right. left. reflexivity.
Qed.

(** C130. A run with persistence disabled leaves nothing on disk; an experiment whose directory is
    there already is not started unless this is allowed. *)
Lemma C130_disk_lemma : forall (Info : Type) factory (train : res Info) c sc dir ex coll ev r,
  run_experiment factory train c sc dir ex coll = (ev, r) ->
  (x_persist c = false -> forall e, In e ev -> writes e = false) /\
  (x_persist c = true -> ex = true -> coll = true -> ev = [] /\ r = Err RuntimeError) /\
  (x_persist c = true -> ex = false \/ coll = false -> before (XMakeDir dir) (XPickle dir) ev).
Proof.
  intros Info factory train c sc dir ex coll ev r H.
  unfold run_experiment, create_world in H.
  set (v := validate_request None (Some (x_watch_episodes c))) in H. clearbody v.
  split; [|split].
  - intros Hp. rewrite Hp in H. cbn in H.
    assert (HR : forall e, In e (match restore_dir c with Some d => [XRestore d] | None => [] end) -> writes e = false).
    { destruct (restore_dir c); cbn; intuition (subst; reflexivity). }
    set (rs := match restore_dir c with Some d => [XRestore d] | None => [] end) in *. clearbody rs.
    destruct (x_train c), train, (0 <? sc_start sc), (x_watch c), v; cbn in H;
      injection H as <- _; intros evt; cbn; rewrite ?in_app_iff; cbn; rewrite ?in_app_iff; cbn; rewrite ?in_app_iff; cbn;
      intuition (subst; auto).
  - intros Hp -> ->. rewrite Hp in H. cbn in H. injection H as <- <-. auto.
  - intros Hp Hc. rewrite Hp in H. replace (true && ex && coll) with false in H by (destruct Hc as [-> | ->]; [reflexivity | destruct ex; reflexivity]).
    assert (HB : forall x, exists y, ev = [XMakeDir dir] ++ (if x_log_file c then [XLogFile dir] else []) ++
       [XSeed (x_seed c); XEnvs (sc_train_envs sc) (sc_test_envs sc) (x_watch c)] ++ [XPickle dir] ++ y \/ x = 1).
    { intros x. destruct (x_train c), train, (x_watch c); cbn [andb] in H;
        try (destruct v);
        injection H as <- _; eexists; left; rewrite <- !List.app_assoc; cbn; reflexivity. }
    destruct (HB 0) as [y [-> |]]; [|discriminate].
    exists [], ((if x_log_file c then [XLogFile dir] else []) ++
       [XSeed (x_seed c); XEnvs (sc_train_envs sc) (sc_test_envs sc) (x_watch c)]), y.
    rewrite <- !List.app_assoc. reflexivity.
Qed.

(** ** Seeds *)
Fixpoint has_us (s : string) : bool :=
  match s with EmptyString => false | String a s => Ascii.eqb a "_"%char || has_us s end.
Lemma has_us_uint d : has_us (NilEmpty.string_of_uint d) = false.
Proof. induction d; cbn; auto. Qed.
Lemma has_us_str z : has_us (str_of_Z z) = false.
Proof.
  unfold str_of_Z, NilZero.string_of_int, NilZero.string_of_uint.
  destruct (Z.to_int z) as [d|d]; destruct d; cbn; auto using has_us_uint.
Qed.
Lemma us_split a : forall b x y, has_us a = false -> has_us b = false ->
  String.append a (String.append "_" x) = String.append b (String.append "_" y) -> a = b /\ x = y.
Proof.
  induction a as [|ca a IH]; intros [|cb b] x y Ha Hb E; cbn in *.
  - injection E as E. auto.
  - injection E as <- E. cbn in Hb. discriminate.
  - injection E as -> E. cbn in Ha. discriminate.
  - injection E as -> E. apply orb_false_iff in Ha, Hb. destruct (IH b x y) as [-> ->]; tauto.
Qed.
Lemma str_of_Z_inj a b : str_of_Z a = str_of_Z b -> a = b.
Proof.
  unfold str_of_Z. intros E. apply DecimalZ.to_int_inj.
  assert (N : forall z, Z.to_int z <> Decimal.Pos Decimal.Nil /\ Z.to_int z <> Decimal.Neg Decimal.Nil).
  { intros [|p|p]; cbn; split; try discriminate; intros [= H]; exact (DecimalPos.Unsigned.to_uint_nonnil p H). }
  apply (f_equal NilZero.int_of_string) in E. destruct (N a), (N b). rewrite !NilZero.isi in E by assumption. injection E as E. exact E.
Qed.
Lemma append_inj p : forall a b, String.append p a = String.append p b -> a = b.
Proof. induction p; cbn; intros a' b' E; [exact E | injection E as E; auto]. Qed.
Lemma in_venv s n x : In x (venv_seeds s n) <-> s <= x < s + n.
Proof.
  unfold venv_seeds. rewrite in_map_iff. split.
  - intros (j & <- & Hj). apply in_seq in Hj. lia.
  - intros H. exists (Z.to_nat (x - s)). split; [lia|]. apply in_seq. lia.
Qed.
Lemma seeds_disjoint t n i j : i < j -> 0 <= n -> t + i * n + n <= t + j * n.
Proof. intros. assert (i * n + n <= j * n) by nia. lia. Qed.

(** C131. The experiments of a seeded collection: the first has the configured seeds, and no two
    have the same seed, name, or a common seed for training environments (as configured).  In each, no test environment has the
    seed of a training environment. *)
Lemma C131_distinct_lemma : forall b n, 0 <= sc_train_envs (e_sampling b) ->
  length (seeded_collection b n) = n /\
  (forall x, nth_error (seeded_collection b n) 0 = Some x ->
     e_seed x = e_seed b /\ sc_train_seed (e_sampling x) = sc_train_seed (e_sampling b)) /\
  (forall i j x y, i <> j -> nth_error (seeded_collection b n) i = Some x -> nth_error (seeded_collection b n) j = Some y ->
     e_seed x <> e_seed y /\ e_name x <> e_name y /\
     ~ share (venv_seeds (sc_train_seed (e_sampling x)) (sc_train_envs (e_sampling x)))
             (venv_seeds (sc_train_seed (e_sampling y)) (sc_train_envs (e_sampling y)))) /\
  (forall i x, nth_error (seeded_collection b n) i = Some x ->
     ~ share (venv_seeds (sc_train_seed (e_sampling x)) (sc_train_envs (e_sampling x)))
             (venv_seeds (test_seed (e_sampling x)) (sc_test_envs (e_sampling x)))).
Proof.
  intros b n Hn. unfold seeded_collection.
  assert (N : forall i x, nth_error (map (seeded_experiment b) (seq 0 n)) i = Some x -> x = seeded_experiment b i).
  { intros i x H. rewrite nth_error_map in H. destruct (nth_error (seq 0 n) i) as [k|] eqn:E; [|discriminate].
    pose proof (nth_error_In _ _ E) as HI. apply in_seq in HI.
    assert (i < n)%nat by (rewrite <- (seq_length n 0); apply nth_error_Some; congruence).
    rewrite (nth_error_nth' _ 0%nat) in E by (rewrite seq_length; lia). rewrite seq_nth in E by lia. injection E as E. cbn [Nat.add] in E. subst k. cbn [option_map] in H. congruence. }
  split; [rewrite map_length, seq_length; reflexivity|]. split; [|split].
  - intros x H. rewrite (N _ _ H). cbn. split; lia.
  - intros i j x y Hij Hx Hy. rewrite (N _ _ Hx), (N _ _ Hy). clear Hx Hy x y. cbn. split; [lia|]. split.
    + intros E. apply append_inj in E. cbn in E. injection E as E.
      apply us_split in E; try apply has_us_str. destruct E as [E _]. apply str_of_Z_inj in E. lia.
    + intros (s & H1 & H2). apply in_venv in H1, H2.
      destruct (Nat.lt_ge_cases i j) as [L|L].
      * pose proof (seeds_disjoint (sc_train_seed (e_sampling b)) (sc_train_envs (e_sampling b)) (Z.of_nat i) (Z.of_nat j)). lia.
      * pose proof (seeds_disjoint (sc_train_seed (e_sampling b)) (sc_train_envs (e_sampling b)) (Z.of_nat j) (Z.of_nat i)). lia.
  - intros i x Hx (s & H1 & H2). rewrite (N _ _ Hx) in H1, H2. apply in_venv in H1, H2. unfold test_seed in H2. cbn in H1, H2. lia.
Qed.

(** C131. The seeds of different experiments do overlap: the test environments of each experiment
    have seeds of the training environments of the next one. *)
Lemma C131_overlap_refuted_lemma : forall b n i x y,
  0 < sc_train_envs (e_sampling b) -> 0 < sc_test_envs (e_sampling b) ->
  nth_error (seeded_collection b n) i = Some x -> nth_error (seeded_collection b n) (S i) = Some y ->
  share (venv_seeds (test_seed (e_sampling x)) (sc_test_envs (e_sampling x)))
        (venv_seeds (sc_train_seed (e_sampling y)) (sc_train_envs (e_sampling y))).
Proof.
  intros b n i x y Hn Hm Hx Hy. unfold seeded_collection in *.
  assert (N : forall i x, nth_error (map (seeded_experiment b) (seq 0 n)) i = Some x -> x = seeded_experiment b i).
  { clear i x y Hx Hy. intros i x H. rewrite nth_error_map in H. destruct (nth_error (seq 0 n) i) as [k|] eqn:E; [|discriminate].
    assert (i < n)%nat by (rewrite <- (seq_length n 0); apply nth_error_Some; congruence).
    rewrite (nth_error_nth' _ 0%nat) in E by (rewrite seq_length; lia). rewrite seq_nth in E by lia. injection E as E. cbn [Nat.add] in E. subst k. cbn [option_map] in H. congruence. }
  rewrite (N _ _ Hx), (N _ _ Hy). exists (test_seed (e_sampling (seeded_experiment b i))).
  split; apply in_venv; unfold test_seed; cbn [seeded_experiment e_sampling set_train_seed sc_train_seed sc_train_envs sc_test_envs]; nia.
Qed.

(** C131. With environments from a registered factory, all experiments of the collection use the
    same seeds for their environments, those given to the factory. *)
Lemma C131_registered_refuted_lemma : forall b n i j x y mode,
  nth_error (seeded_collection b n) i = Some x -> nth_error (seeded_collection b n) j = Some y ->
  registered_seeds x mode = registered_seeds y mode /\ registered_seeds x mode = registered_seeds b mode.
Proof.
  intros b n i j x y mode Hx Hy. unfold seeded_collection in *.
  assert (N : forall i x, nth_error (map (seeded_experiment b) (seq 0 n)) i = Some x -> registered_seeds x mode = registered_seeds b mode).
  { clear. intros i x H. rewrite nth_error_map in H. destruct (nth_error (seq 0 n) i) as [k|]; [|discriminate]. injection H as <-. destruct mode; reflexivity. }
  rewrite (N _ _ Hx), (N _ _ Hy). split; reflexivity.
Qed.

(** ** Launchers *)
(** C132. Launching several experiments, one after the other or in parallel: the results of those
    that succeed, in order; RuntimeError exactly if all fail.  A single experiment gives its own
    result. *)
Lemma C132_results_lemma : forall (X R : Type) (runner : X -> res R) exps l,
  l = sequential runner \/ l = joblib runner ->
  (length exps <> 1%nat ->
    launch runner l exps = match successes (map runner exps) with [] => Err RuntimeError | rs => Ok rs end) /\
  (forall x r, exps = [x] -> runner x = Ok r -> launch runner l exps = Ok [r]).
Proof.
  intros X R runner exps l Hl.
  assert (S : forall exps s f, fst (sequential_loop runner exps s f) = s ++ successes (map runner exps)).
  { clear. induction exps as [|x exps IH]; intros s f; cbn; [rewrite List.app_nil_r; reflexivity|].
    destruct (runner x); rewrite IH, <- ?List.app_assoc; reflexivity. }
  assert (J : forall exps s f, fst (joblib_loop (combine exps (map runner exps)) s f) = s ++ successes (map runner exps)).
  { clear. induction exps as [|x exps IH]; intros s f; cbn; [rewrite List.app_nil_r; reflexivity|].
    destruct (runner x); rewrite IH, <- ?List.app_assoc; reflexivity. }
  assert (E : l exps = match successes (map runner exps) with [] => Err RuntimeError | rs => Ok rs end).
  { destruct Hl as [-> | ->]; unfold sequential, joblib.
    - specialize (S exps [] []). destruct (sequential_loop runner exps [] []) as [s f]. cbn in S. subst s. unfold return_from. destruct (successes (map runner exps)); reflexivity.
    - specialize (J exps [] []). destruct (joblib_loop (combine exps (map runner exps)) [] []) as [s f]. cbn in J. subst s. unfold return_from. destruct (successes (map runner exps)); reflexivity. }
  split.
  - intros Hlen. destruct exps as [|x [|y exps]]; [exact E | cbn in Hlen; lia | exact E].
  - intros x r -> Hx. cbn. rewrite Hx. reflexivity.
Qed.

(** C132. The error of a single failing experiment is not caught: it is raised in place of the
    RuntimeError. *)
Lemma C132_single_refuted_lemma : forall (X R : Type) (runner : X -> res R) l x e,
  runner x = Err e -> launch runner l [x] = Err e.
Proof. intros X R runner l x e H. cbn. rewrite H. reflexivity. Qed.

(** ** Persistence *)
Section PersistProofs.
Context {P E D : Type}.
Local Notation live := (@live P E D).
Local Notation fs := (@fs P E D).
Local Notation pop := (@pop P E D).
Lemma items_other : forall (items : list (string * D)) (f : fs) k, ~ In k (map fst items) ->
  fold_left (fun f kd => write f (fst kd) (FItem (snd kd))) items f k = f k.
Proof.
  induction items as [|[k0 d0] items IH]; intros f k H; cbn in *; [reflexivity|].
  rewrite IH by tauto. unfold write. destruct (String.eqb_spec k k0); [subst; tauto | reflexivity].
Qed.
Lemma items_in : forall (items : list (string * D)) (f : fs) k d, NoDup (map fst items) -> In (k, d) items ->
  fold_left (fun f kd => write f (fst kd) (FItem (snd kd))) items f k = Some (FItem d).
Proof.
  induction items as [|[k0 d0] items IH]; intros f k d H HI; cbn in *; [destruct HI|]. apply NoDup_cons_iff in H. destruct H as [H1 H2].
  destruct HI as [[= -> ->]|HI].
  - rewrite items_other by exact H1. unfold write. rewrite String.eqb_refl. reflexivity.
  - apply IH; assumption.
Qed.
Lemma app_len (a b : string) : String.length (String.append a b) = (String.length a + String.length b)%nat.
Proof. induction a; cbn; auto. Qed.
Lemma best_not_checkpoint m e : filename m <> checkpoint_name m e.
Proof.
  intros H. apply (f_equal String.length) in H. unfold filename, checkpoint_name in H. rewrite !app_len in H. cbn in H. lia.
Qed.
Lemma append_inj_r (s : string) : forall a b, String.length a = String.length b -> String.append a s = String.append b s -> a = b.
Proof. induction a as [|c a IH]; intros [|c' b]; cbn; intros L H; try discriminate; auto. injection H as -> H. f_equal. apply IH; auto. Qed.
Lemma checkpoint_inj m e e' : checkpoint_name m e = checkpoint_name m e' -> e = e'.
Proof.
  unfold checkpoint_name. intros H. apply append_inj in H. apply append_inj in H. apply str_of_Z_inj.
  pose proof (f_equal String.length H) as L. rewrite !app_len in L. eapply append_inj_r; [|exact H]. lia.
Qed.

Lemma runs_best m names ops : forall (cur : live) (f : fs) seen f0,
  items_ok m names cur ops ->
  f (filename m) = match seen with Some l => Some (save_policy m l) | None => f0 end ->
  snd (pruns true m (cur, f) ops) (filename m) = match last_at is_best_save cur seen ops with Some l => Some (save_policy m l) | None => f0 end.
Proof.
  induction ops as [|o ops IH]; intros cur f seen f0 (N1 & N2 & N3 & N4 & N5) H; [exact H|].
  cbn [pruns fold_left pstep last_at]. destruct o as [l| |e]; cbn [pstep fst snd].
  - apply IH; [|exact H]. repeat split; auto. apply N5. left. reflexivity. intros l' Hl. apply N5. right. exact Hl.
  - apply IH; [repeat split; auto; intros l' Hl; apply N5; right; exact Hl|]. cbn. unfold persist, persist_items. cbn.
    rewrite items_other by (rewrite N4; exact N2). unfold write. rewrite String.eqb_refl. reflexivity.
  - apply IH; [repeat split; auto; intros l' Hl; apply N5; right; exact Hl|]. cbn. unfold save_checkpoint, persist_items. cbn.
    rewrite items_other by (rewrite N4; exact N2). unfold write.
    destruct (String.eqb_spec (filename m) (checkpoint_name m e)) as [C|C]; [destruct (best_not_checkpoint m e C) | exact H].
Qed.
Lemma runs_checkpoint m names e ops : forall (cur : live) (f : fs) seen f0,
  items_ok m names cur ops ->
  f (checkpoint_name m e) = match seen with Some l => Some (save_policy m l) | None => f0 end ->
  snd (pruns true m (cur, f) ops) (checkpoint_name m e) = match last_at (is_checkpoint e) cur seen ops with Some l => Some (save_policy m l) | None => f0 end.
Proof.
  induction ops as [|o ops IH]; intros cur f seen f0 (N1 & N2 & N3 & N4 & N5) H; [exact H|].
  cbn [pruns fold_left pstep last_at]. destruct o as [l| |e']; cbn [pstep fst snd].
  - apply IH; [|exact H]. repeat split; auto. apply N5. left. reflexivity. intros l' Hl. apply N5. right. exact Hl.
  - apply IH; [repeat split; auto; intros l' Hl; apply N5; right; exact Hl|]. cbn. unfold persist, persist_items. cbn.
    rewrite items_other by (rewrite N4; apply N3). unfold write.
    destruct (String.eqb_spec (checkpoint_name m e) (filename m)) as [C|C]; [destruct (best_not_checkpoint m e); auto | exact H].
  - apply IH; [repeat split; auto; intros l' Hl; apply N5; right; exact Hl|]. cbn. unfold save_checkpoint, persist_items. cbn.
    rewrite items_other by (rewrite N4; apply N3). unfold write.
    destruct (Z.eqb_spec e' e) as [-> |Ne].
    + rewrite String.eqb_refl. reflexivity.
    + destruct (String.eqb_spec (checkpoint_name m e) (checkpoint_name m e')) as [C|C]; [apply checkpoint_inj in C; congruence | exact H].
Qed.
Lemma runs_items m names ops : forall (cur : live) (f : fs) seen,
  items_ok m names cur ops ->
  (forall l, seen = Some l -> map fst (l_items l) = names /\ forall k d, In (k, d) (l_items l) -> f k = Some (FItem d)) ->
  forall l, last_at is_any_save cur seen ops = Some l ->
    map fst (l_items l) = names /\ forall k d, In (k, d) (l_items l) -> snd (pruns true m (cur, f) ops) k = Some (FItem d).
Proof.
  induction ops as [|o ops IH]; intros cur f seen (N1 & N2 & N3 & N4 & N5) H l HL; [exact (H l HL)|].
  cbn [pruns fold_left pstep last_at] in *.
  assert (HN : NoDup (map fst (l_items cur))) by (rewrite N4; exact N1).
  destruct o as [l0| |e']; cbn [pstep fst snd is_any_save] in *.
  - eapply IH; [| |exact HL]; [|exact H]. repeat split; auto. apply N5. left. reflexivity. intros l' Hl. apply N5. right. exact Hl.
  - eapply IH; [| |exact HL]; [repeat split; auto; intros l' Hl; apply N5; right; exact Hl|].
    intros l' [= <-]. split; [exact N4|]. intros k d HI. unfold persist, persist_items. cbn. apply items_in; assumption.
  - eapply IH; [| |exact HL]; [repeat split; auto; intros l' Hl; apply N5; right; exact Hl|].
    intros l' [= <-]. split; [exact N4|]. intros k d HI. unfold save_checkpoint, persist_items. cbn. apply items_in; assumption.
Qed.
Lemma restore_items_ok (f : fs) : forall (items0 items : list (string * D)), map fst items0 = map fst items ->
  (forall k d, In (k, d) items -> f k = Some (FItem d)) -> mapM (restore_item f) items0 = Ok items.
Proof.
  induction items0 as [|[k0 d0] items0 IH]; intros [|[k d] items] HE H; cbn in HE; try discriminate; [reflexivity|].
  injection HE as -> HE. cbn. unfold restore_item at 1. cbn. rewrite (H k d) by (left; reflexivity). cbn.
  rewrite (IH items HE) by (intros; apply H; right; assumption). reflexivity.
Qed.
End PersistProofs.

(** C133. Restoring from the directory of a run gives the parameters of the policy last saved as
    the best and the items of the last save of any kind; the rest of the policy object stays. *)
Lemma C133_restore_lemma : forall (P E D : Type) m names (cur : @live P E D) f ops best any l0,
  items_ok m names cur ops -> last_at is_best_save cur None ops = Some best -> last_at is_any_save cur None ops = Some any ->
  map fst (l_items l0) = names ->
  restore m (snd (pruns true m (cur, f) ops)) l0 = Ok (mkLive (l_params best) (l_extra l0) (l_items any)).
Proof.
  intros P E D m names cur f ops best any l0 HO HB HA HN.
  pose proof (runs_best m names ops cur f None (f (filename m)) HO eq_refl) as R1. rewrite HB in R1.
  destruct (runs_items m names ops cur f None HO ltac:(discriminate) any HA) as [R2 R3].
  unfold restore. rewrite (restore_items_ok _ (l_items l0) (l_items any)); [|congruence|exact R3].
  destruct m; rewrite R1; reflexivity.
Qed.

(** C133. The checkpoint of an epoch is the policy at the last checkpoint of that epoch, whatever
    else was saved. *)
Lemma C133_checkpoints_lemma : forall (P E D : Type) m names (cur : @live P E D) f ops e l,
  items_ok m names cur ops -> last_at (is_checkpoint e) cur None ops = Some l ->
  snd (pruns true m (cur, f) ops) (checkpoint_name m e) =
    Some (match m with StateDict => FState (l_params l) | WholePolicy => FPolicy (l_params l) (l_extra l) end).
Proof.
  intros P E D m names cur f ops e l HO HL.
  pose proof (runs_checkpoint m names e ops cur f None (f (checkpoint_name m e)) HO eq_refl) as R. rewrite HL in R. exact R.
Qed.

(** C133. With persistence disabled, nothing is written. *)
Lemma C133_disabled_lemma : forall (P E D : Type) m (cur : @live P E D) f ops, snd (pruns false m (cur, f) ops) = f.
Proof. intros P E D m cur f ops. revert cur. induction ops as [|o ops IH]; intros cur; [reflexivity|]. cbn. destruct o; cbn; apply IH. Qed.

(** C133. Without checkpoints, what is restored is the best policy with its own items. *)
Lemma C133_best_partial_lemma : forall (P E D : Type) m names (cur : @live P E D) f ops best l0,
  items_ok m names cur ops -> (forall e, ~ In (SaveCheckpoint e) ops) -> last_at is_best_save cur None ops = Some best ->
  map fst (l_items l0) = names ->
  restore m (snd (pruns true m (cur, f) ops)) l0 = Ok (mkLive (l_params best) (l_extra l0) (l_items best)).
Proof.
  intros P E D m names cur f ops best l0 HO HC HB HN. eapply C133_restore_lemma; eauto.
  rewrite <- HB. clear - HC. generalize (@None (@live P E D)) as seen. revert cur.
  induction ops as [|o ops IH]; intros cur seen; [reflexivity|]. cbn. destruct o as [l| |e].
  - apply IH. intros e He. apply (HC e). right. exact He.
  - cbn. apply IH. intros e He. apply (HC e). right. exact He.
  - destruct (HC e). left. reflexivity.
Qed.

(** C133. A later checkpoint overwrites the items saved with the best policy: restoring gives the
    best policy together with items it was not saved with. *)
Lemma C133_items_refuted_lemma : exists (cur later : @live nat nat nat) ops l0,
  items_ok WholePolicy ["obs_rms.pt"] cur ops /\ last_at is_best_save cur None ops = Some cur /\
  restore WholePolicy (snd (pruns true WholePolicy (cur, fun _ => None) ops)) l0 = Ok (mkLive (l_params cur) (l_extra l0) (l_items later)) /\
  l_items later <> l_items cur /\ l_params later <> l_params cur.
Proof.
  exists (mkLive 1%nat 0%nat [("obs_rms.pt", 10%nat)]), (mkLive 2%nat 0%nat [("obs_rms.pt", 20%nat)]),
    [SaveBest; Change (mkLive 2%nat 0%nat [("obs_rms.pt", 20%nat)]); SaveCheckpoint 1], (mkLive 0%nat 0%nat [("obs_rms.pt", 0%nat)]).
  split; [|split; [reflexivity | split; [reflexivity | cbn; split; discriminate]]].
  unfold items_ok. repeat split.
  - constructor; [intros [] | constructor].
  - cbn. intros [H|[]]. discriminate.
  - cbn. intros e [H|[]]. discriminate.
  - intros l [H|[H|[H|[]]]]; try discriminate. injection H as <-. reflexivity.
Qed.

(** ** Groups of learning rate schedulers *)
(** C134. A step of the group steps every scheduler once and sets the rate each prescribes. *)
Lemma C134_step_lemma : forall gs m, length gs = length m -> (forall s, In s m -> s_lam s <> Replaced) ->
  exists out, multi_step gs m = Ok out /\ length out = length m /\
    forall i s g, nth_error m i = Some s -> nth_error gs i = Some g ->
      nth_error out i = Some (mkSched (s_last s + 1) (s_nums s) (s_lam s),
        match s_lam s with Callable f => (nth 0 (s_nums s) 0 * f (s_last s + 1)%Z)%Qc | _ => g (s_nums s) (s_last s + 1)%Z end).
Proof.
  induction gs as [|g gs IH]; intros [|s m] HL HR; cbn in HL; try discriminate.
  - exists []. repeat split. intros [|i]; discriminate.
  - destruct (IH m) as (out & E & L & H); [lia | intros s' Hs; apply HR; right; exact Hs |].
    unfold multi_step in *. cbn.
    assert (HS : sched_step g s = Ok (mkSched (s_last s + 1) (s_nums s) (s_lam s),
      match s_lam s with Callable f => (nth 0 (s_nums s) 0 * f (s_last s + 1)%Z)%Qc | _ => g (s_nums s) (s_last s + 1)%Z end)).
    { unfold sched_step. pose proof (HR s (or_introl eq_refl)) as H0. destruct (s_lam s); [reflexivity | reflexivity | congruence]. }
    rewrite HS. cbn [bind]. rewrite E. cbn [bind].
    eexists. split; [reflexivity|]. split; [cbn; lia|].
    intros [|i] s' g' H1 H2; cbn in H1, H2; [injection H1 as <-; injection H2 as <-; reflexivity | apply (H i); assumption].
Qed.

(** C134. Loading the state of a group into a group of as many schedulers gives the same schedulers
    if none has a lambda; a state of another length is an error. *)
Lemma C134_roundtrip_partial_lemma : forall m m' sds,
  (length m' = length m -> (forall s, In s m -> s_lam s = NoLambda) -> multi_load m' (multi_state m) = (m, Ok tt)) /\
  (length m' <> length sds -> snd (multi_load m' sds) = Err ValueError).
Proof.
  intros m m' sds. split.
  - revert m'. induction m as [|s m IH]; intros [|s' m'] HL HN; cbn in HL; try discriminate; [reflexivity|].
    cbn. rewrite IH by (try lia; intros; apply HN; right; assumption).
    unfold sched_state. rewrite (HN s (or_introl eq_refl)).
    pose proof (HN s (or_introl eq_refl)) as H0. destruct s as [a b c]. cbn in *. subst c. reflexivity.
  - revert sds. induction m' as [|s' m' IH]; intros [|sd sds] HL; cbn in *; try congruence; try lia; try reflexivity.
    specialize (IH sds ltac:(lia)). destruct (multi_load m' sds). exact IH.
Qed.

(** C134. A scheduler with a lambda, such as the linear one, cannot be stepped after the state of
    its own group was loaded. *)
Lemma C134_lambda_refuted_lemma : forall g s f, s_lam s = Callable f ->
  exists s', multi_load [s] (multi_state [s]) = ([s'], Ok tt) /\ multi_step [g] [s'] = Err TypeError /\
    exists out, multi_step [g] [s] = Ok out.
Proof.
  intros g s f H. eexists. split; [reflexivity|]. split.
  - unfold multi_step, sched_state, sched_step. cbn. rewrite H. reflexivity.
  - unfold multi_step, sched_step. cbn. rewrite H. eexists. reflexivity.
Qed.
