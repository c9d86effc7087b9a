(** * Proofs about parameters and the construction of policies *)
From Coq Require Import String.
From Verif Require Import Py Num PyLemmas ParamsModel ParamsSpec ParamsOutcome.
Import List.
Open Scope string_scope.
Open Scope list_scope.
Open Scope nat_scope.

(** C121.  For each of the twelve algorithms and all parameter values which the documentation
    allows, the dictionary of arguments is created, it fits the constructor (no argument is
    given twice, none is unknown, none is missing), and the call receives a value for each
    parameter of the constructor. *)
Lemma C121_binds_lemma :
  forall (a : algo) (e : envs) (p : string -> pv),
  (forall k, In k (fields a) -> admissible e k (p k)) -> env_fits a e ->
  (exists kw, create_kwargs a e p = Ok kw
     /\ NoDup (map fst (explicit a ++ added a ++ kw))
     /\ incl (map fst (explicit a ++ added a ++ kw)) (map fst (signature a))
     /\ forall k, In (k, None) (signature a) -> In k (map fst (explicit a ++ added a ++ kw)))
  /\ exists d, policy_args a e p = Ok d /\ map fst d = map fst (signature a).
Proof.
  intros a e p Hadm Hfit. destruct (outcome_ok a e p Hadm Hfit) as [(kw & Hkw & Hg) (d & Hd & Hk & _)].
  split; [| exists d; split; assumption].
  exists kw. split; [exact Hkw |]. unfold kw_good in Hg.
  apply andb_true_iff in Hg. destruct Hg as [Hg H3]. apply andb_true_iff in Hg. destruct Hg as [H1 H2].
  split; [apply nodupb_ok; exact H1 |]. split.
  - intros k Hin. rewrite forallb_forall in H2. apply memb_In, H2, Hin.
  - intros k Hin. rewrite forallb_forall in H3. apply memb_In, H3.
    unfold required. apply in_map_iff. exists (k, None). split; [reflexivity |].
    apply filter_In. split; [exact Hin | reflexivity].
Qed.

(** C121.  An algorithm is refused for the wrong kind of action space. *)
Lemma C121_wrong_env_lemma :
  forall (a : algo) (e : envs) (p : string -> pv),
  (forall k, In k (fields a) -> admissible e k (p k)) -> ~ env_fits a e ->
  policy_args a e p = Err AssertionError.
Proof.
  intros a e p Hadm Hfit. destruct a; try (exfalso; apply Hfit; exact Logic.I).
  - destruct e as [sh m | n]; [| exfalso; apply Hfit; exists n; reflexivity].
    sched DQN OOptim "lr_scheduler_factory" Hadm; norm; rew_all; reflexivity.
  - destruct e as [sh m | n]; [| exfalso; apply Hfit; exists n; reflexivity].
    sched IQN OOptim "lr_scheduler_factory" Hadm; norm; rew_all; reflexivity.
  - destruct e as [sh m | n]; [exfalso; apply Hfit; exists sh, m; reflexivity |]. reflexivity.
Qed.

(** C122.  Every parameter which is not consumed on the way arrives at the policy under its own
    name: unchanged, or replaced by the value that it stands for in these environments.  The
    learning rate schedulers for which factories are given are joined into one, in the order
    actor, critic, second critic; and each network is accompanied by its own optimizer. *)
Lemma C122_values_lemma :
  forall (a : algo) (e : envs) (p : string -> pv) (d : dict),
  (forall k, In k (fields a) -> admissible e k (p k)) -> env_fits a e ->
  policy_args a e p = Ok d ->
  (forall k, In k (fields a) -> ~ In k consumed ->
     exists w, dget k d = Some w /\ reaches e k (p k) w)
  /\ (exists w, dget "lr_scheduler" d = Some w /\ joint (wanted p (schedulers a)) w)
  /\ (forall n o, In (n, o) (trained a) ->
       exists x, dget n d = Some (PTok x) /\ dget o d = Some (PTok (x ++ ".optim")%string)).
Proof.
  intros a e p d Hadm Hfit Hd.
  destruct (outcome_ok a e p Hadm Hfit) as [_ (d' & Hd' & _ & Hv & Hl & Ht)].
  rewrite Hd in Hd'. injection Hd' as <-. split; [| split].
  - intros k Hin Hc. rewrite Forall_forall in Hv. apply Hv. apply filter_In. split; [exact Hin |].
    destruct (memb k consumed) eqn:E; [| reflexivity]. apply memb_In in E. contradiction.
  - exact Hl.
  - intros n o Hin. rewrite Forall_forall in Ht. apply (Ht (n, o) Hin).
Qed.

(** ** Constructors *)

Lemma is_ok_bind {A B : Type} (x : res A) (y : res B) :
  is_ok (bind x (fun _ => y)) = is_ok x && is_ok y.
Proof. destruct x; reflexivity. Qed.

Lemma is_ok_guard {A : Type} (b : bool) (e : exn) (k : res A) : is_ok (guard b e k) = b && is_ok k.
Proof. destruct b; reflexivity. Qed.

Lemma number_spec (v : pv) (q : Qc) : number v q <-> as_num v = Ok q.
Proof.
  split.
  - intros []; reflexivity.
  - destruct v; cbn; try discriminate; intros E; injection E as <-; try constructor.
    destruct b; constructor.
Qed.

Lemma assert_unit_spec (v : pv) : is_ok (assert_unit v) = true <-> in_unit v.
Proof.
  unfold assert_unit, in_unit. split.
  - destruct (as_num v) as [q | x] eqn:E; [| discriminate]. cbn [bind]. rewrite is_ok_guard.
    destruct (Qcleb_spec 0 q); [| discriminate]. destruct (Qcleb_spec q 1); [| discriminate].
    intros _. exists q. split; [apply number_spec; exact E | split; assumption].
  - intros (q & Hn & H0 & H1). apply number_spec in Hn. rewrite Hn. cbn [bind]. rewrite is_ok_guard.
    destruct (Qcleb_spec 0 q); [| exfalso; eapply Qclt_not_le; eassumption].
    destruct (Qcleb_spec q 1); [| exfalso; eapply Qclt_not_le; eassumption]. reflexivity.
Qed.

Lemma assert_gt_spec (b : Qc) (v : pv) : is_ok (assert_gt b v) = true <-> above b v.
Proof.
  unfold assert_gt, above. split.
  - destruct (as_num v) as [q | x] eqn:E; [| discriminate]. cbn [bind]. rewrite is_ok_guard.
    destruct (Qcltb_spec b q); [| discriminate]. intros _. exists q.
    split; [apply number_spec; exact E | assumption].
  - intros (q & Hn & H). apply number_spec in Hn. rewrite Hn. cbn [bind]. rewrite is_ok_guard.
    destruct (Qcltb_spec b q); [reflexivity | exfalso; eapply Qclt_not_le; eassumption].
Qed.

Lemma truthy_spec (v : pv) : truthy v = false <-> falsy v.
Proof.
  split.
  - destruct v; cbn; try discriminate; intros H.
    + constructor.
    + subst b. constructor.
    + apply negb_false_iff, Z.eqb_eq in H. subst. constructor.
    + apply negb_false_iff in H. destruct (Qceqb_spec q 0); [subst; constructor | discriminate].
    + apply negb_false_iff, String.eqb_eq in H. subst. constructor.
  - intros []; try reflexivity.
Qed.

Lemma base_init_spec (e : envs) (s b : pv) :
  is_ok (base_init e s b) = true <-> bound_ok b /\ (falsy s \/ exists sh m, e = Continuous sh m).
Proof.
  unfold base_init. rewrite !is_ok_guard, !andb_true_iff. cbn [is_ok].
  rewrite negb_true_iff, andb_false_iff, negb_false_iff, truthy_spec, is_continuous_spec.
  assert (E : match b with PNone => true | PStr s => String.eqb s "clip" || String.eqb s "tanh" | _ => false end
              = true <-> bound_ok b).
  { unfold bound_ok. destruct b; split; try discriminate; try tauto;
      try (intros [H | [H | H]]; discriminate).
    - intros H. apply orb_true_iff in H. destruct H as [H | H]; apply String.eqb_eq in H; subst; auto.
    - intros [H | [H | H]]; inversion H; subst; reflexivity. }
  rewrite E. tauto.
Qed.

(** A plain parameter arrives unchanged. *)
Lemma reaches_plain (e : envs) (k : string) (v w : pv) :
  memb k ["alpha"; "exploration_noise"; "policy_noise"; "noise_clip"; "action_scaling"] = false ->
  reaches e k v w -> w = v.
Proof.
  intros N H. assert (M : forall x, k = x -> memb x ["alpha"; "exploration_noise"; "policy_noise"; "noise_clip"; "action_scaling"] = false).
  { intros x <-. exact N. }
  destruct H as [-> | ? ? ? -> | ? ? ? [<- | [<- | []]] | ? -> | ]; try discriminate N. reflexivity.
Qed.

Lemma reaches_scaling (e : envs) (v w : pv) :
  reaches e "action_scaling" v w ->
  ((falsy w \/ exists sh m, e = Continuous sh m) <-> scaling_ok e v).
Proof.
  intros H. unfold scaling_ok.
  assert (M : forall k v w, reaches e k v w -> k = "action_scaling" ->
     (w = v /\ v <> PStr "default") \/ (v = PStr "default" /\ exists b, w = PBool b /\ (b = true <-> exists sh m, e = Continuous sh m))).
  { intros k v0 w0 []; intros Hk; subst; try discriminate.
    - destruct H0 as [E | [E | []]]; discriminate.
    - right. split; [reflexivity |]. exists b. auto.
    - left. split; [reflexivity |]. intros E. subst. apply H3. auto. }
  destruct (M _ _ _ H eq_refl) as [[-> N] | (-> & b & -> & Hb)].
  - split; [tauto |]. intros [C | [C | C]]; auto. contradiction.
  - split; [auto |]. intros _. destruct b; [right; apply Hb; reflexivity | left; constructor].
Qed.

Lemma reaches_alpha (e : envs) (v w : pv) :
  reaches e "alpha" v w -> (is_ok (alpha_init w) = true <-> alpha_ok v).
Proof.
  intros H. unfold alpha_ok.
  assert (M : forall k v w, reaches e k v w -> k = "alpha" ->
     (w = v /\ v <> PAutoAlpha) \/ (v = PAutoAlpha /\ exists t, w = PAlpha t)).
  { intros k v0 w0 []; intros Hk; subst; try discriminate.
    - right. eauto.
    - destruct H0 as [E | [E | []]]; discriminate.
    - left. split; [reflexivity |]. intros E. subst. apply H0. auto. }
  destruct (M _ _ _ H eq_refl) as [[-> N] | (-> & t & ->)].
  - destruct v; cbn; split; try discriminate; eauto; try (intros [[? E] | [E | [? E]]]; discriminate).
  - cbn. tauto.
Qed.

Lemma bound_q_spec (v : pv) :
  (match v with PStr s => negb (String.eqb s "tanh") | _ => true end = true /\ bound_ok v) <-> bound_ok_q v.
Proof.
  unfold bound_ok, bound_ok_q. split.
  - intros [H [-> | [-> | ->]]]; auto. discriminate.
  - intros [-> | ->]; cbn; auto.
Qed.

(** The value of an argument: solved by looking it up in the conclusion of C122. *)
Ltac getarg H k :=
  let w := fresh "w" in
  let D := fresh "D" in
  let R := fresh "R" in
  destruct (H k ltac:(apply memb_In; reflexivity)
              ltac:(let X := fresh in intros X; apply memb_In in X; discriminate X)) as (w & D & R);
  unfold arg; rewrite ?D;
  try (apply reaches_plain in R; [| reflexivity]; subst w).

Lemma is_ok_create (a : algo) (e : envs) (p : string -> pv) (d : dict) :
  policy_args a e p = Ok d -> ((exists d', create_policy a e p = Ok d') <-> is_ok (init a e d) = true).
Proof.
  intros Hd. unfold create_policy. rewrite Hd. cbn [bind]. split.
  - intros [d' H]. destruct (init a e d); [reflexivity | discriminate].
  - intros H. destruct (init a e d); [exists d; reflexivity | discriminate].
Qed.

Lemma ddpg_spec (e : envs) (s b t g : pv) (d : dict) :
  arg "tau" d = t -> arg "gamma" d = g ->
  (is_ok (ddpg_init e s b d) = true
   <-> in_unit t /\ in_unit g /\ bound_ok_q b /\ (falsy s \/ exists sh m, e = Continuous sh m)).
Proof.
  intros <- <-. unfold ddpg_init.
  rewrite !is_ok_bind, is_ok_guard, !andb_true_iff, !assert_unit_spec, base_init_spec, <- bound_q_spec.
  tauto.
Qed.

(** C123.  Creating the policy succeeds for exactly the following parameters: factors between 0
    and 1, positive counts, actions scaled in boxes only, bounds by clipping (or by tanh for
    the policy gradient algorithms), a dual clip above 1, alpha a float or automatic, and for
    SAC and its discrete variant the right kind of action space. *)
Lemma C123_accepts_lemma :
  forall (a : algo) (e : envs) (p : string -> pv),
  (forall k, In k (fields a) -> admissible e k (p k)) -> env_fits a e ->
  ((exists d, create_policy a e p = Ok d) <-> acceptable a e p).
Proof.
  intros a e p Hadm Hfit.
  destruct (C121_binds_lemma a e p Hadm Hfit) as [_ (d & Hd & _)].
  destruct (C122_values_lemma a e p d Hadm Hfit Hd) as (Hv & _ & Ht).
  rewrite (is_ok_create a e p d Hd).
  destruct a; cbn [init acceptable].
  - unfold pg_init, pg_ok. rewrite is_ok_bind, andb_true_iff, base_init_spec, assert_unit_spec.
    getarg Hv "discount_factor". getarg Hv "action_bound_method". getarg Hv "action_scaling".
    apply reaches_scaling in R. tauto.
  - unfold a2c_init, pg_init, a2c_ok, pg_ok. rewrite !is_ok_bind, !andb_true_iff, base_init_spec, !assert_unit_spec.
    getarg Hv "discount_factor". getarg Hv "action_bound_method". getarg Hv "gae_lambda". getarg Hv "action_scaling".
    apply reaches_scaling in R. tauto.
  - unfold ppo_init, a2c_init, pg_init, a2c_ok, pg_ok.
    rewrite !is_ok_bind, !andb_true_iff, base_init_spec, !assert_unit_spec.
    assert (E : forall v, is_ok (match v with PNone => Ok tt | _ => assert_gt 1 v end) = true
                          <-> v = PNone \/ above 1 v).
    { intros v. destruct v; try (rewrite <- assert_gt_spec; split; [auto |];
        intros [H | H]; [discriminate | exact H]). split; auto. }
    rewrite E. getarg Hv "dual_clip".
    getarg Hv "discount_factor". getarg Hv "action_bound_method". getarg Hv "gae_lambda". getarg Hv "action_scaling".
    apply reaches_scaling in R. tauto.
  - unfold a2c_init, pg_init, a2c_ok, pg_ok. rewrite !is_ok_bind, !andb_true_iff, base_init_spec, !assert_unit_spec.
    getarg Hv "discount_factor". getarg Hv "action_bound_method". getarg Hv "gae_lambda". getarg Hv "action_scaling".
    apply reaches_scaling in R. tauto.
  - unfold a2c_init, pg_init, a2c_ok, pg_ok. rewrite !is_ok_bind, !andb_true_iff, base_init_spec, !assert_unit_spec.
    getarg Hv "discount_factor". getarg Hv "action_bound_method". getarg Hv "gae_lambda". getarg Hv "action_scaling".
    apply reaches_scaling in R. tauto.
  - unfold dqn_init, dqn_ok. rewrite !is_ok_bind, !andb_true_iff, base_init_spec, assert_unit_spec, assert_gt_spec.
    getarg Hv "discount_factor". getarg Hv "estimation_step". getarg Hv "target_update_freq".
    assert (E : is_ok (as_num (p "target_update_freq")) = true <-> exists q, number (p "target_update_freq") q).
    { split; [destruct (as_num _) eqn:E; [intros _; eexists; apply number_spec; exact E | discriminate] |].
      intros [q Hq]. apply number_spec in Hq. rewrite Hq. reflexivity. }
    rewrite E. cbn [is_ok]. assert (falsy (PBool false)) by constructor.
    assert (bound_ok PNone) by (left; reflexivity). tauto.
  - unfold iqn_init, qrdqn_init, dqn_init, dqn_ok.
    rewrite !is_ok_bind, !andb_true_iff, base_init_spec, assert_unit_spec, !assert_gt_spec.
    getarg Hv "discount_factor". getarg Hv "estimation_step". getarg Hv "target_update_freq".
    getarg Hv "sample_size". getarg Hv "online_sample_size". getarg Hv "target_sample_size". getarg Hv "num_quantiles".
    assert (E : is_ok (as_num (p "target_update_freq")) = true <-> exists q, number (p "target_update_freq") q).
    { split; [destruct (as_num _) eqn:E; [intros _; eexists; apply number_spec; exact E | discriminate] |].
      intros [q Hq]. apply number_spec in Hq. rewrite Hq. reflexivity. }
    rewrite E. cbn [is_ok]. assert (falsy (PBool false)) by constructor.
    assert (bound_ok PNone) by (left; reflexivity). tauto.
  - unfold ddpg_ok, q_ok. rewrite (ddpg_spec _ _ _ (p "tau") (p "gamma"));
      [| getarg Hv "tau"; reflexivity | getarg Hv "gamma"; reflexivity].
    getarg Hv "action_bound_method". getarg Hv "action_scaling".
    apply reaches_scaling in R. tauto.
  - unfold redq_init, ddpg_ok, q_ok. rewrite !is_ok_guard.
    getarg Hv "target_mode". getarg Hv "subset_size". getarg Hv "ensemble_size".
    assert (E : match p "target_mode" with PStr s => String.eqb s "min" || String.eqb s "mean" | _ => false end = true
                <-> p "target_mode" = PStr "min" \/ p "target_mode" = PStr "mean").
    { destruct (p "target_mode"); split; try discriminate; try (intros [H | H]; discriminate).
      - intros H. apply orb_true_iff in H. destruct H as [H | H]; apply String.eqb_eq in H; subst; auto.
      - intros [H | H]; inversion H; subst; reflexivity. }
    rewrite andb_true_iff, E.
    assert (F : forall k : res unit,
       is_ok (let* sub := as_num (p "subset_size") in let* ens := as_num (p "ensemble_size") in
              guard (Qcltb 0 sub && Qcleb sub ens) ValueError k) = true
       <-> (exists s n, number (p "subset_size") s /\ number (p "ensemble_size") n /\ (0 < s)%Qc /\ (s <= n)%Qc)
           /\ is_ok k = true).
    { intros k. split.
      - destruct (as_num (p "subset_size")) as [s | x] eqn:E1; [| discriminate]. cbn [bind].
        destruct (as_num (p "ensemble_size")) as [n | x] eqn:E2; [| discriminate]. cbn [bind].
        rewrite is_ok_guard. destruct (Qcltb_spec 0 s); [| discriminate].
        destruct (Qcleb_spec s n); [| discriminate]. intros Hk. split; [| exact Hk].
        exists s, n. repeat split; try apply number_spec; assumption.
      - intros ((s & n & H1 & H2 & H3 & H4) & Hk).
        apply number_spec in H1. apply number_spec in H2. rewrite H1. cbn [bind]. rewrite H2. cbn [bind].
        rewrite is_ok_guard, Hk.
        destruct (Qcltb_spec 0 s); [| exfalso; eapply Qclt_not_le; eassumption].
        destruct (Qcleb_spec s n); [reflexivity | exfalso; eapply Qclt_not_le; eassumption]. }
    rewrite F, !is_ok_bind, !andb_true_iff, (ddpg_spec _ _ _ (p "tau") (p "gamma"));
      [| getarg Hv "tau"; reflexivity | getarg Hv "gamma"; reflexivity].
    getarg Hv "alpha". getarg Hv "action_bound_method". getarg Hv "action_scaling".
    apply reaches_scaling in R0. apply reaches_alpha in R. rewrite R. cbn [is_ok]. tauto.
  - unfold sac_init, ddpg_ok, q_ok.
    rewrite !is_ok_bind, is_ok_guard, !andb_true_iff, (ddpg_spec _ _ _ (p "tau") (p "gamma"));
      [| getarg Hv "tau"; reflexivity | getarg Hv "gamma"; reflexivity].
    getarg Hv "alpha". getarg Hv "action_bound_method". getarg Hv "action_scaling".
    apply reaches_scaling in R0. apply reaches_alpha in R. rewrite R, eqb_true_iff, is_continuous_spec.
    cbn [is_ok]. tauto.
  - unfold sac_init, q_ok.
    rewrite !is_ok_bind, is_ok_guard, !andb_true_iff, (ddpg_spec _ _ _ (p "tau") (p "gamma"));
      [| getarg Hv "tau"; reflexivity | getarg Hv "gamma"; reflexivity].
    getarg Hv "alpha". apply reaches_alpha in R. rewrite R, eqb_true_iff. cbn [is_ok].
    assert (falsy (PBool false)) by constructor. assert (bound_ok_q PNone) by (left; reflexivity).
    assert (E : is_continuous e = false <-> exists n, e = Discrete n).
    { destruct e; cbn; split; try discriminate; eauto. intros [? Q]. discriminate. }
    rewrite E. tauto.
  - unfold td3_init, ddpg_ok, q_ok.
    rewrite !is_ok_bind, is_ok_guard, !andb_true_iff, (ddpg_spec _ _ _ (p "tau") (p "gamma"));
      [| getarg Hv "tau"; reflexivity | getarg Hv "gamma"; reflexivity].
    destruct (Ht "critic2" "critic2_optim" ltac:(cbn; auto)) as (x & D1 & D2).
    unfold arg at 3 4. rewrite D1, D2. cbn [truthy negb andb is_ok].
    getarg Hv "action_bound_method". getarg Hv "action_scaling".
    apply reaches_scaling in R. tauto.
Qed.

(** C123.  Values which the documentation of the parameters allows and with which no policy can
    be created: a dual clip below [1 - eps_clip]; bounding actions by tanh in the algorithms
    with a Q function; an integer [alpha]. *)
Lemma C123_documented_refuted_lemma :
  forall (e : envs) (p : string -> pv),
  (forall (c eps : Qc), (forall k, In k (fields PPO) -> admissible e k (p k)) ->
     p "dual_clip" = PFloat c -> p "eps_clip" = PFloat eps -> (0 <= eps)%Qc -> (c < 1 - eps)%Qc ->
     forall d, create_policy PPO e p <> Ok d)
  /\ (forall a, In a [DDPG; REDQ; SAC; TD3] -> env_fits a e ->
     (forall k, In k (fields a) -> admissible e k (p k)) ->
     p "action_bound_method" = PStr "tanh" -> forall d, create_policy a e p <> Ok d)
  /\ (forall a z, In a [REDQ; SAC; DSAC] -> env_fits a e ->
     (forall k, In k (fields a) -> admissible e k (p k)) ->
     p "alpha" = PInt z -> forall d, create_policy a e p <> Ok d).
Proof.
  intros e p. split; [| split].
  - intros c eps Hadm Hc He He0 Hlt d Hd.
    destruct (proj1 (C123_accepts_lemma PPO e p Hadm Logic.I) (ex_intro _ d Hd)) as [_ [H | (q & Hn & Hq)]].
    + rewrite H in Hc. discriminate.
    + rewrite Hc in Hn. inversion Hn; subst. clear -He0 Hlt Hq. qclra.
  - intros a Ha Hfit Hadm Hb d Hd.
    pose proof (proj1 (C123_accepts_lemma a e p Hadm Hfit) (ex_intro _ d Hd)) as Hacc.
    assert (B : bound_ok_q (p "action_bound_method")).
    { destruct Ha as [<- | [<- | [<- | [<- | []]]]]; cbn in Hacc; unfold ddpg_ok in Hacc; tauto. }
    rewrite Hb in B. destruct B as [B | B]; discriminate.
  - intros a z Ha Hfit Hadm Hb d Hd.
    pose proof (proj1 (C123_accepts_lemma a e p Hadm Hfit) (ex_intro _ d Hd)) as Hacc.
    assert (B : alpha_ok (p "alpha")).
    { destruct Ha as [<- | [<- | [<- | []]]]; cbn in Hacc; tauto. }
    rewrite Hb in B. destruct B as [[q B] | [B | [t B]]]; discriminate.
Qed.

(** ** The entropy coefficient *)

Lemma qsum_shift (t : Qc) (l : list Qc) :
  qsum (map (fun x => (x + t)%Qc) l) = (qsum l + Q2Qc (inject_Z (Z.of_nat (length l))) * t)%Qc.
Proof.
  induction l as [| x l IH].
  - apply Qc_is_canon. cbn. ring.
  - cbn [map qsum length]. rewrite IH.
    rewrite Nat2Z.inj_succ. unfold Z.succ.
    replace (Q2Qc (inject_Z (Z.of_nat (length l) + 1))) with (Q2Qc (inject_Z (Z.of_nat (length l))) + 1)%Qc.
    + ring.
    + apply Qc_is_canon. rewrite this_plus, !this_Q2Qc, inject_Z_plus. reflexivity.
Qed.

Lemma len_neq0 {A : Type} (l : list A) : l <> [] -> Q2Qc (inject_Z (Z.of_nat (length l))) <> 0%Qc.
Proof.
  intros H E. apply Qc_eq_Qeq in E. rewrite this_Q2Qc in E.
  change (inject_Z (Z.of_nat (length l)) == inject_Z 0)%Q in E.
  apply (proj1 (inject_Z_injective _ _)) in E. destruct l; [contradiction | cbn in E; lia].
Qed.

Lemma qmean_shift (t : Qc) (l : list Qc) :
  l <> [] -> qmean (map (fun x => (x + t)%Qc) l) = (qmean l + t)%Qc.
Proof.
  intros H. unfold qmean. rewrite qsum_shift, map_length.
  pose proof (len_neq0 l H) as N. field. exact N.
Qed.

Lemma qsum_opp (l : list Qc) : qsum (map Qcopp l) = (- qsum l)%Qc.
Proof.
  induction l as [| x l IH]; cbn [map qsum]; [ring | rewrite IH; ring].
Qed.

Lemma qmean_opp (l : list Qc) : qmean (map Qcopp l) = (- qmean l)%Qc.
Proof. unfold qmean. rewrite qsum_opp, map_length. unfold Qcdiv. ring. Qed.

Lemma dget_setattr (k k' : string) (v : Qc) (s : attrs) :
  dget k (setattr k' v s) = if String.eqb k k' then Some v else dget k s.
Proof.
  induction s as [| [k0 v0] s IH]; cbn [setattr dget].
  - destruct (String.eqb_spec k k'); reflexivity.
  - destruct (String.eqb_spec k' k0) as [-> | N]; cbn [dget].
    + destruct (String.eqb_spec k k0); reflexivity.
    + rewrite IH. destruct (String.eqb_spec k k0) as [-> | N']; [| reflexivity].
      destruct (String.eqb_spec k0 k') as [E | E]; [congruence | reflexivity].
Qed.

Lemma tune_value (lr : Qc) (lp : list Qc) (s : attrs) (t l : Qc) :
  lp <> [] -> dget "target_entropy" s = Some t -> dget "log_alpha" s = Some l ->
  exists s', tune "target_entropy" "log_alpha" lr lp s = Ok s'
    /\ dget "target_entropy" s' = Some t
    /\ dget "log_alpha" s' = Some (l + lr * (qmean lp + t))%Qc.
Proof.
  intros H Ht Hl. unfold tune, getattr. rewrite Ht. cbn [bind]. rewrite Hl. cbn [bind].
  eexists. split; [reflexivity |]. rewrite !dget_setattr. cbn [String.eqb Ascii.eqb Bool.eqb].
  rewrite qmean_shift by exact H. split; [exact Ht | reflexivity].
Qed.

(** C124.  With the automatic coefficient of the high-level interface the target entropy is minus
    the number of action dimensions, and a step of SAC moves [log_alpha] by the rate times the
    difference between the target and the mean of minus the log probabilities; so the
    coefficient grows exactly if this estimate of the entropy is below the target. *)
Lemma C124_continuous_lemma :
  forall (shape : list nat) (m lr : Qc) (batches : list (list Qc)) (lp : list Qc),
  Forall (fun b => b <> []) (lp :: batches) ->
  exists s0 s s' l l', alpha_init (alpha_value (Continuous shape m) PAutoAlpha) = Ok s0
    /\ runs (sac_tune lr) batches s0 = Ok s /\ sac_tune lr lp s = Ok s'
    /\ dget "log_alpha" s0 = Some 0%Qc
    /\ dget "log_alpha" s = Some l /\ dget "log_alpha" s' = Some l'
    /\ let target := (- Q2Qc (inject_Z (Z.of_nat (fold_right Nat.mul 1%nat shape))))%Qc in
       let entropy := qmean (map Qcopp lp) in
       l' = (l + lr * (target - entropy))%Qc
       /\ ((0 < lr)%Qc -> ((l < l')%Qc <-> (entropy < target)%Qc)).
Proof.
  intros shape m lr batches lp HF.
  assert (G : forall batches s t, Forall (fun b => b <> []) batches ->
    dget "target_entropy" s = Some t -> (exists l, dget "log_alpha" s = Some l) ->
    exists s', runs (sac_tune lr) batches s = Ok s' /\ dget "target_entropy" s' = Some t
      /\ exists l, dget "log_alpha" s' = Some l).
  { induction batches0 as [| b bs IH]; intros s t Hb Ht [l Hl].
    - exists s. split; [reflexivity | eauto].
    - inversion Hb as [| ? ? Hb1 Hb2]; subst. cbn [runs].
      destruct (tune_value lr b s t l Hb1 Ht Hl) as (s' & E & Ht' & Hl').
      unfold sac_tune at 1. rewrite E. cbn [bind]. apply IH; eauto. }
  inversion HF as [| ? ? Hlp Hbs]; subst.
  set (t := (- action_prod (Continuous shape m))%Qc).
  exists [("target_entropy", t); ("log_alpha", 0%Qc)].
  destruct (G batches [("target_entropy", t); ("log_alpha", 0%Qc)] t Hbs eq_refl (ex_intro _ _ eq_refl))
    as (s & E & Ht & l & Hl).
  destruct (tune_value lr lp s t l Hlp Ht Hl) as (s' & E' & Ht' & Hl').
  exists s, s', l, (l + lr * (qmean lp + t))%Qc.
  split; [reflexivity |]. split; [exact E |]. split; [exact E' |]. split; [reflexivity |].
  split; [exact Hl |]. split; [exact Hl' |].
  cbv zeta. rewrite qmean_opp. subst t. rewrite action_prod_spec. cbn [actions].
  set (n := Q2Qc (inject_Z (Z.of_nat (fold_right Nat.mul 1%nat shape)))). clearbody n. clear.
  generalize (qmean lp). intros q. split; [ring |]. intros Hlr. split; intros H.
  - destruct (Qclt_le_dec (- q) (- n)) as [C | C]; [exact C |]. exfalso.
    assert (0 <= lr * (n - - - q))%Qc.
    { replace (n - - - q)%Qc with (n - q)%Qc by ring.
      assert (0 <= n - q)%Qc by qclra. qcnra. }
    qcnra.
  - assert (0 < q - n)%Qc by qclra. assert (0 < lr * (q - n))%Qc by qcnra.
    replace (lr * (q + - n))%Qc with (lr * (q - n))%Qc by ring. qclra.
Qed.

(** C124.  For discrete actions the target is minus the number [n] of actions, which no
    distribution attains, entropies being at least 0.  Whatever the policy does, each step of
    the discrete SAC lowers [log_alpha] by at least the rate times [n]. *)
Lemma C124_discrete_refuted_lemma :
  forall (n : nat) (lr : Qc) (batches : list (list Qc)), (0 < lr)%Qc ->
  Forall (fun b => b <> [] /\ Forall (fun h => 0 <= h)%Qc b) batches ->
  exists s0 s l, alpha_init (alpha_value (Discrete n) PAutoAlpha) = Ok s0
    /\ runs (dsac_tune lr) batches s0 = Ok s /\ dget "log_alpha" s = Some l
    /\ (l <= - (lr * Q2Qc (inject_Z (Z.of_nat (n * length batches)))))%Qc.
Proof.
  intros n lr batches Hlr HF.
  set (N := Q2Qc (inject_Z (Z.of_nat n))).
  assert (Mean : forall b, b <> [] -> Forall (fun h => 0 <= h)%Qc b -> (0 <= qmean b)%Qc).
  { intros b Hb HFb. unfold qmean.
    assert (S : (0 <= qsum b)%Qc).
    { clear Hb. induction HFb as [| x b Hx HFb IH]; cbn [qsum]; [qclra | clear HFb; qclra]. }
    pose proof (len_neq0 b Hb) as Hn.
    assert (P : (0 < Q2Qc (inject_Z (Z.of_nat (length b))))%Qc).
    { assert (0 <= Q2Qc (inject_Z (Z.of_nat (length b))))%Qc.
      { unfold Qcle. rewrite this_0, this_Q2Qc. change 0%Q with (inject_Z 0). rewrite <- Zle_Qle. lia. }
      destruct (Qcle_lt_or_eq _ _ H) as [C | C]; [exact C |]. symmetry in C. contradiction. }
    generalize dependent (Q2Qc (inject_Z (Z.of_nat (length b)))). intros d Hd0 Hd.
    assert (E : qsum b = ((qsum b / d) * d)%Qc) by (field; exact Hd0).
    generalize dependent (qsum b / d)%Qc. intros r E.
    destruct (Qclt_le_dec r 0) as [C | C]; [| exact C]. exfalso. rewrite E in S.
    assert (r * d < 0)%Qc by (clear -C Hd; qcnra). clear -S H. qclra. }
  assert (G : forall batches s l, Forall (fun b => b <> [] /\ Forall (fun h => 0 <= h)%Qc b) batches ->
    dget "target_entropy" s = Some (- N)%Qc -> dget "log_alpha" s = Some l ->
    exists s' l', runs (dsac_tune lr) batches s = Ok s' /\ dget "log_alpha" s' = Some l'
      /\ (l' <= l - lr * Q2Qc (inject_Z (Z.of_nat (n * length batches))))%Qc).
  { clear HF batches. induction batches as [| b bs IH]; intros s l Hb Ht Hl.
    - exists s, l. split; [reflexivity |]. split; [exact Hl |].
      cbn [length]. rewrite Nat.mul_0_r. cbn [Z.of_nat].
      replace (Q2Qc (inject_Z 0)) with 0%Qc by (apply Qc_is_canon; reflexivity).
      clear. qclra.
    - inversion Hb as [| ? ? [Hb1 Hb1'] Hb2]; subst. cbn [runs].
      assert (Hm : map Qcopp b <> []) by (destruct b; [contradiction | discriminate]).
      destruct (tune_value lr (map Qcopp b) s _ l Hm Ht Hl) as (s' & E & Ht' & Hl').
      unfold dsac_tune at 1. rewrite E. cbn [bind].
      destruct (IH s' _ Hb2 Ht' Hl') as (s2 & l2 & E2 & Hl2 & Hle).
      exists s2, l2. split; [exact E2 |]. split; [exact Hl2 |].
      rewrite qmean_opp in Hle. pose proof (Mean b Hb1 Hb1') as Hq. clear Hl'. generalize dependent (qmean b).
      intros q Hle Hq.
      assert (EQ : Q2Qc (inject_Z (Z.of_nat (n * length (b :: bs))))
                   = (Q2Qc (inject_Z (Z.of_nat (n * length bs))) + N)%Qc).
      { apply Qc_is_canon. unfold N. rewrite this_plus, !this_Q2Qc, <- inject_Z_plus. cbn [length].
        replace (Z.of_nat (n * S (length bs))) with (Z.of_nat (n * length bs) + Z.of_nat n)%Z by lia.
        reflexivity. }
      rewrite EQ. clear EQ. set (z := Q2Qc (inject_Z (Z.of_nat (n * length bs)))) in *. clearbody z N.
      clear -Hlr Hle Hq.
      assert (0 <= lr * q)%Qc.
      { unfold Qcle. rewrite this_mult. apply Qmult_le_0_compat; [apply Qlt_le_weak; exact Hlr | exact Hq]. }
      replace (l - lr * (z + N))%Qc with (l + lr * (- q + - N) - lr * z + lr * q)%Qc by ring.
      generalize dependent (l + lr * (- q + - N) - lr * z)%Qc. intros w Hle.
      clear -H Hle. generalize dependent (lr * q)%Qc. intros; qclra. }
  exists [("target_entropy", (- action_prod (Discrete n))%Qc); ("log_alpha", 0%Qc)].
  destruct (G batches [("target_entropy", (- action_prod (Discrete n))%Qc); ("log_alpha", 0%Qc)] 0%Qc HF eq_refl eq_refl)
    as (s & l & E & Hl & Hle).
  exists s, l. split; [reflexivity |]. split; [exact E |]. split; [exact Hl |].
  replace (- (lr * Q2Qc (inject_Z (Z.of_nat (n * length batches)))))%Qc
    with (0 - lr * Q2Qc (inject_Z (Z.of_nat (n * length batches))))%Qc by ring.
  exact Hle.
Qed.

(** C125.  REDQ can be created with the automatic coefficient, but cannot tune it: the update
    reads attributes which the constructor does not set. *)
Lemma C125_redq_refuted_lemma :
  forall (e : envs) (p : string -> pv),
  (forall k, In k (fields REDQ) -> admissible e k (p k)) -> env_fits REDQ e ->
  acceptable REDQ e p -> p "alpha" = PAutoAlpha ->
  exists d s, create_policy REDQ e p = Ok d
    /\ alpha_init (arg "alpha" d) = Ok s
    /\ forall lr lp, redq_tune lr lp s = Err AttributeError.
Proof.
  intros e p Hadm Hfit Hacc Ha.
  destruct (proj2 (C123_accepts_lemma REDQ e p Hadm Hfit) Hacc) as [d Hd]. exists d.
  assert (Hp : policy_args REDQ e p = Ok d).
  { unfold create_policy in Hd. destruct (policy_args REDQ e p) as [d' | x]; [| discriminate].
    cbn [bind] in Hd. destruct (init REDQ e d'); [| discriminate]. exact Hd. }
  destruct (C122_values_lemma REDQ e p d Hadm Hfit Hp) as (Hv & _ & _).
  destruct (Hv "alpha" ltac:(apply memb_In; reflexivity)
    ltac:(let X := fresh in intros X; apply memb_In in X; discriminate X)) as (w & D & R).
  rewrite Ha in R. inversion R; subst; [| exfalso; apply H; auto].
  exists [("target_entropy", (- Q2Qc (inject_Z (Z.of_nat (actions e))))%Qc); ("log_alpha", 0%Qc)].
  split; [exact Hd |]. split; [unfold arg; rewrite D; reflexivity |]. reflexivity.
Qed.

(** C125.  SAC and its discrete variant tune it: a step succeeds in every state that is reached. *)
Lemma C125_sac_partial_lemma :
  forall (e : envs) (lr : Qc) (batches : list (list Qc)),
  Forall (fun b => b <> []) batches ->
  exists s0, alpha_init (alpha_value e PAutoAlpha) = Ok s0
    /\ (exists s, runs (sac_tune lr) batches s0 = Ok s)
    /\ (exists s, runs (dsac_tune lr) batches s0 = Ok s).
Proof.
  intros e lr batches HF. eexists. split; [reflexivity |].
  set (s0 := [("target_entropy", _); ("log_alpha", _)]).
  assert (H0 : (exists t, dget "target_entropy" s0 = Some t) /\ exists l, dget "log_alpha" s0 = Some l)
    by (split; eexists; reflexivity).
  clearbody s0. revert s0 H0. induction HF as [| b bs Hb HF IH]; intros s0 [[t Ht] [l Hl]].
  - split; exists s0; reflexivity.
  - assert (Hm : map Qcopp b <> []) by (destruct b; [contradiction | discriminate]).
    destruct (tune_value lr b s0 t l Hb Ht Hl) as (s1 & E1 & Ht1 & Hl1).
    destruct (tune_value lr (map Qcopp b) s0 t l Hm Ht Hl) as (s2 & E2 & Ht2 & Hl2).
    cbn [runs]. unfold sac_tune at 1, dsac_tune at 1. rewrite E1, E2. cbn [bind].
    split; [apply IH; eauto | apply IH; eauto].
Qed.
