(** * Proofs about the constructors of policies *)
From Verif Require Import CtorModel CtorSpec PyLemmas ReturnsModel.
Open Scope nat_scope.
Open Scope list_scope.

Lemma ok_guard : forall (A : Type) b e (k : res A), is_ok (guard b e k) = true <-> b = true /\ is_ok k = true.
Proof. intros A [|] e k; cbn; intuition discriminate. Qed.
Lemma ok_bind : forall (A B : Type) (m : res A) (f : A -> res B) P, (forall a, is_ok (f a) = true <-> P) -> is_ok (bind m f) = true <-> is_ok m = true /\ P.
Proof. intros A B [a|e] f P H; cbn; [rewrite H; intuition|intuition discriminate]. Qed.
Lemma ok_Ok : forall (A : Type) (a : A), is_ok (Ok a) = true <-> True.
Proof. intros A a. cbn. intuition. Qed.
Lemma unit_iff : forall q, unit_interval q = true <-> in_unit q.
Proof.
  intros q. unfold unit_interval, in_unit. rewrite andb_true_iff.
  destruct (Qcleb_spec 0 q) as [H|H], (Qcleb_spec q 1) as [H'|H']; intuition; try discriminate; exfalso; qclra.
Qed.
Lemma leb_iff : forall a b, Qcleb a b = true <-> (a <= b)%Qc.
Proof. intros a b. destruct (Qcleb_spec a b) as [H|H]; intuition; try discriminate; exfalso; qclra. Qed.
Lemma ltb_iff : forall a b, Qcltb a b = true <-> (a < b)%Qc.
Proof. intros a b. destruct (Qcltb_spec a b) as [H|H]; intuition; try discriminate; exfalso; qclra. Qed.
Definition bound_ok (b : option bound) : Prop := b = None \/ b = Some BClip \/ b = Some BTanh.
Lemma ok_base : forall s sc b, is_ok (base_init s sc b) = true <-> bound_ok b /\ (sc = true -> s = SBox) /\ s <> SDict.
Proof. intros s sc b. unfold bound_ok. destruct b as [[]|], sc, s; cbn; intuition (try discriminate; try congruence). Qed.
Lemma ok_base_plain : forall s, is_ok (base_init s false None) = true <-> s <> SDict.
Proof. intros s. rewrite ok_base. unfold bound_ok. intuition discriminate. Qed.
Lemma ok_read : forall sc p, is_ok (read_max sc p) = true <-> (sc = true -> p_actor_max p <> None).
Proof. intros [|] p; unfold read_max; [destruct (p_actor_max p)|]; cbn; intuition (try discriminate; try congruence). Qed.
Lemma ok_dqn : forall p, is_ok (dqn_init p) = true <-> p_space p <> SDict /\ in_unit (p_gamma p) /\ (0 < p_nstep p)%Z.
Proof.
  intros p. unfold dqn_init. rewrite (ok_bind _ _ _ _ (in_unit (p_gamma p) /\ (0 < p_nstep p)%Z)).
  - rewrite ok_base_plain. reflexivity.
  - intros a. rewrite !ok_guard, ok_Ok, unit_iff, Z.ltb_lt. intuition.
Qed.
Lemma ok_pg : forall sc b p, is_ok (pg_init_with sc b p) = true <->
  bound_ok b /\ (sc = true -> p_space p = SBox) /\ p_space p <> SDict /\ (sc = true -> p_actor_max p <> None) /\ in_unit (p_gamma p).
Proof.
  intros sc b p. unfold pg_init_with. rewrite (ok_bind _ _ _ _ ((sc = true -> p_actor_max p <> None) /\ in_unit (p_gamma p))).
  - rewrite ok_base. intuition.
  - intros a. rewrite (ok_bind _ _ _ _ (in_unit (p_gamma p))).
    + rewrite ok_read. reflexivity.
    + intros _. rewrite ok_guard, ok_Ok, unit_iff. intuition.
Qed.
Lemma ok_a2c : forall p, is_ok (a2c_init p) = true <-> is_ok (pg_init p) = true /\ in_unit (p_lambda p).
Proof.
  intros p. unfold a2c_init. rewrite (ok_bind _ _ _ _ (in_unit (p_lambda p))); [reflexivity|].
  intros a. rewrite ok_guard, ok_Ok, unit_iff. intuition.
Qed.
Lemma ok_ppo : forall p, is_ok (ppo_init p) = true <-> (forall d, p_dual p = Some d -> (1 < d)%Qc) /\ is_ok (a2c_init p) = true.
Proof.
  intros p. unfold ppo_init. rewrite ok_guard. destruct (p_dual p) as [d|].
  - rewrite ltb_iff. split; intros [H H']; (split; [|exact H']); [intros d' [= <-]; exact H|apply H; reflexivity].
  - split; intros [_ H]; (split; [|exact H]); [discriminate|reflexivity].
Qed.
Lemma ok_ddpg : forall sc b p, is_ok (ddpg_init_with sc b p) = true <->
  in_unit (p_tau p) /\ in_unit (p_gamma p) /\ b <> Some BTanh /\ bound_ok b /\ (sc = true -> p_space p = SBox) /\ p_space p <> SDict /\ (sc = true -> p_actor_max p <> None).
Proof.
  intros sc b p. unfold ddpg_init_with. rewrite !ok_guard, !unit_iff.
  rewrite (ok_bind _ _ _ _ (sc = true -> p_actor_max p <> None)).
  - rewrite ok_base. assert (H : (match b with Some BTanh => false | _ => true end) = true <-> b <> Some BTanh) by (destruct b as [[]|]; intuition congruence).
    rewrite H. intuition.
  - intros a. rewrite (ok_bind _ _ _ _ True).
    + rewrite ok_read. intuition.
    + intros _. apply ok_Ok.
Qed.
Lemma ok_alpha : forall a, is_ok (alpha_init a) = true <-> (exists q, a = AFloat q) \/ a = ATuple [1] true.
Proof.
  intros [q|z|[|[|[|n]] [|m l]] [|]]; cbn; (split; [try discriminate; intros _|intros [[q' H]|H]; try discriminate H; reflexivity]); try (left; eexists; reflexivity); right; reflexivity.
Qed.
Lemma ok_sac : forall sc b v p, is_ok (sac_init_with sc b v p) = true <->
  is_ok (ddpg_init_with sc b p) = true /\ is_ok (alpha_init (p_alpha p)) = true /\ v (p_space p) = true.
Proof.
  intros sc b v p. unfold sac_init_with. rewrite (ok_bind _ _ _ _ (is_ok (alpha_init (p_alpha p)) = true /\ v (p_space p) = true)); [reflexivity|].
  intros a. rewrite (ok_bind _ _ _ _ (v (p_space p) = true)); [reflexivity|]. intros _. rewrite ok_guard, ok_Ok. intuition.
Qed.
Lemma ok_td3 : forall p, is_ok (td3_init p) = true <-> is_ok (ddpg_init p) = true /\ (p_critic2 p <> None -> p_critic2_optim p <> None).
Proof.
  intros p. unfold td3_init. rewrite (ok_bind _ _ _ _ (p_critic2 p <> None -> p_critic2_optim p <> None)); [reflexivity|].
  intros a. destruct (p_critic2 p), (p_critic2_optim p); cbn; intuition (try discriminate; try congruence).
Qed.
Lemma ok_redq : forall p, is_ok (redq_init p) = true <->
  p_mode p <> TOther /\ (0 < p_subset p)%Z /\ (p_subset p <= p_ensemble p)%Z /\ is_ok (ddpg_init p) = true /\ is_ok (alpha_init (p_alpha p)) = true.
Proof.
  intros p. unfold redq_init. rewrite !ok_guard, andb_true_iff, Z.ltb_lt, Z.leb_le.
  rewrite (ok_bind _ _ _ _ (is_ok (alpha_init (p_alpha p)) = true)).
  - assert (H : (match p_mode p with TOther => false | _ => true end) = true <-> p_mode p <> TOther) by (destruct (p_mode p); intuition congruence).
    rewrite H. intuition.
  - intros a. rewrite (ok_bind _ _ _ _ True); [intuition|]. intros _. apply ok_Ok.
Qed.
Lemma ok_gail : forall p, is_ok (gail_init p) = true <-> is_ok (ppo_init p) = true /\ p_actor_out p <> None.
Proof.
  intros p. unfold gail_init. rewrite (ok_bind _ _ _ _ (p_actor_out p <> None)); [reflexivity|].
  intros a. destruct (p_actor_out p); cbn; intuition (try discriminate; try congruence).
Qed.
Lemma ok_dbcq : forall p, is_ok (dbcq_init p) = true <-> is_ok (dqn_init p) = true /\ (0 < p_freq p)%Z /\ (0 <= p_unlikely p)%Qc /\ (p_unlikely p < 1)%Qc /\ (0 <= p_eps p)%Qc /\ (p_eps p < 1)%Qc.
Proof.
  intros p. unfold dbcq_init. rewrite (ok_bind _ _ _ _ ((0 < p_freq p)%Z /\ (0 <= p_unlikely p)%Qc /\ (p_unlikely p < 1)%Qc /\ (0 <= p_eps p)%Qc /\ (p_eps p < 1)%Qc)); [reflexivity|].
  intros a. rewrite !ok_guard, !andb_true_iff, !leb_iff, !ltb_iff, Z.ltb_lt, ok_Ok. intuition.
Qed.
Lemma ok_bcq : forall p, is_ok (bcq_init p) = true <-> is_ok (plain_init p) = true.
Proof. intros p. unfold bcq_init. rewrite (ok_bind _ _ _ _ True); [unfold plain_init; intuition|]. intros a. apply ok_Ok. Qed.
Lemma ok_psrl : forall p, is_ok (psrl_init p) = true <-> p_space p <> SDict /\ in_unit (p_gamma p).
Proof.
  intros p. unfold psrl_init. rewrite (ok_bind _ _ _ _ (in_unit (p_gamma p))); [rewrite ok_base_plain; reflexivity|].
  intros a. rewrite ok_guard, ok_Ok, unit_iff. intuition.
Qed.
Lemma box_iff : forall s, is_box s = true <-> s = SBox.
Proof. intros []; cbn; intuition discriminate. Qed.
Lemma disc_iff : forall s, (match s with SDiscrete => true | _ => false end) = true <-> s = SDiscrete.
Proof. intros []; cbn; intuition discriminate. Qed.
Lemma bound_none : bound_ok None <-> True.
Proof. unfold bound_ok. intuition. Qed.

Ltac pick := solve [reflexivity | left; pick | right; pick].
Ltac reject := let X := fresh in intros X; repeat match type of X with _ \/ _ => destruct X as [X|X]; [discriminate X|] end; discriminate X.
Ltac useh := repeat match goal with
  | H : True -> _ |- _ => specialize (H Logic.I)
  | H : False -> _ |- _ => clear H
  | H : @eq cls _ _ -> _ |- _ => first [specialize (H eq_refl) | clear H]
  | H : (@eq cls _ _ \/ ?Q) -> ?R |- _ => let K := fresh in first [assert (K : R) by (apply H; pick); clear H | clear H]
  | H : @eq cls _ _ -> False |- _ => clear H
  | H : (@eq cls ?a ?b -> False) -> ?R |- _ => let K := fresh in first [assert (K : R) by (apply H; discriminate); clear H | clear H]
  | H : (@eq cls ?a ?b /\ _) |- _ => destruct H
  | H : _ /\ _ |- _ => destruct H
  end.
Ltac antecedent := match goal with
  | |- True -> _ => intros _
  | |- False -> _ => intros []
  | |- (@eq cls _ _) -> _ => first [solve [reject] | intros _]
  | |- (@eq cls _ _ \/ _) -> _ => first [solve [reject] | intros _]
  | |- (@eq cls _ _ -> False) -> _ => let X := fresh in first [intros X; exfalso; apply X; reflexivity | intros _]
  | |- _ /\ _ => split
  end.
(** C289. Every policy class accepts exactly the parameters in their documented domains, with options that suit the action space. *)
Lemma C289_accepts_lemma : forall (c : cls) (p : params), is_ok (construct c p) = true <-> domain c p /\ actions_ok c p.
Proof.
  intros c p. unfold domain, actions_ok.
  destruct c; cbn [construct discounted averaged q_learning deterministic_gradient twin tempered configurable];
    unfold iqn_init; unfold bdq_init, c51_init, qrdqn_init, pg_init, crr_init, sac_init, dsac_init, plain_init;
    rewrite ?ok_bcq; unfold plain_init;
    repeat first [rewrite ok_gail | rewrite ok_ppo | rewrite ok_a2c | rewrite ok_redq | rewrite ok_td3 | rewrite ok_sac | rewrite ok_dbcq | rewrite ok_guard | rewrite ok_psrl];
    unfold pg_init, ddpg_init; rewrite ?ok_pg, ?ok_ddpg, ?ok_alpha, ?ok_dqn, ?ok_base, ?Z.ltb_lt, ?Z.eqb_eq, ?ltb_iff, ?box_iff, ?disc_iff, ?bound_none; unfold bound_ok;
    (split; [intros H; useh; repeat antecedent; try tauto
            |intros [H1 H2]; unfold not in H1, H2; useh; repeat match goal with |- _ /\ _ => split end; try tauto; try discriminate; try (intros; discriminate)]).
Qed.

Ltac same := split; intros [H1 H2]; unfold not in *; useh; repeat antecedent; try tauto; try congruence; try (intros; congruence).
Ltac inv := repeat match goal with
  | H : guard ?b _ _ = Ok _ |- _ => let E := fresh in destruct b eqn:E; cbn [guard] in H; [|discriminate H]
  | H : bind ?m _ = Ok _ |- _ => let E := fresh in destruct m eqn:E; cbn [bind] in H; [|discriminate H]
  end.
Lemma kept_dqn : forall p pl, dqn_init p = Ok pl -> True -> pl_gamma pl = Some (p_gamma p).
Proof. intros p pl H _. unfold dqn_init in H. inv. injection H as <-. reflexivity. Qed.
Lemma kept_psrl : forall p pl, psrl_init p = Ok pl -> True -> pl_gamma pl = Some (p_gamma p).
Proof. intros p pl H _. unfold psrl_init in H. inv. injection H as <-. reflexivity. Qed.
Lemma kept_pg : forall sc b p pl, pg_init_with sc b p = Ok pl -> True -> pl_gamma pl = Some (p_gamma p).
Proof. intros sc b p pl H _. unfold pg_init_with in H. inv. injection H as <-. reflexivity. Qed.
Lemma kept_ddpg : forall sc b p pl, ddpg_init_with sc b p = Ok pl -> pl_gamma pl = Some (p_gamma p) /\ pl_tau pl = Some (p_tau p).
Proof. intros sc b p pl H. unfold ddpg_init_with in H. inv. injection H as <-. split; reflexivity. Qed.

(** C290. The discount factor of every policy but BCQ is in [0, 1], and so is the rate of its target networks. *)
Lemma C290_range_lemma : forall (c : cls) (p : params) (pl : policy), construct c p = Ok pl -> c <> BCQ ->
  (discounted c -> pl_gamma pl = Some (p_gamma p) /\ in_unit (p_gamma p)) /\ (averaged c -> pl_tau pl = Some (p_tau p) /\ in_unit (p_tau p)).
Proof.
  intros c p pl H Hc.
  assert (A : domain c p /\ actions_ok c p) by (apply C289_accepts_lemma; rewrite H; reflexivity).
  destruct A as [(D1 & D2 & _) _]. specialize (D1 Hc). specialize (D2 Hc).
  assert (K : (discounted c -> pl_gamma pl = Some (p_gamma p)) /\ (averaged c -> pl_tau pl = Some (p_tau p))).
  { clear D1 D2. destruct c; cbn [construct discounted averaged] in *; try congruence;
      unfold iqn_init in H; unfold bdq_init, c51_init, qrdqn_init, gail_init in H; unfold ppo_init in H; unfold a2c_init, crr_init, sac_init, dsac_init, sac_init_with, td3_init, redq_init, dbcq_init in H;
      inv; try (split; [|intros []]); try (intros []);
      eauto using kept_dqn, kept_pg; try (eapply kept_psrl; eassumption);
      repeat match goal with
      | E : ddpg_init p = Ok _ |- _ => unfold ddpg_init in E
      | E : ddpg_init_with _ _ p = Ok _ |- _ => apply kept_ddpg in E as [? ?]
      | H : (match ?x with _ => _ end) = Ok _ |- _ => destruct x; try discriminate H
      | H : Ok _ = Ok _ |- _ => injection H as <-
      end; cbn; eauto using kept_dqn, kept_pg; try (apply kept_psrl; [exact H|exact Logic.I]). }
  destruct K as [K1 K2]. split; intros X; auto.
Qed.

Lemma type_base : forall sp sc b pl, base_init sp sc b = Ok pl -> pl_type pl = Conti <-> sp = SBox.
Proof. intros sp sc b pl H. unfold base_init in H. inv. destruct sp; try discriminate; injection H2 as <-; injection H as <-; cbn; split; intros X; try discriminate; reflexivity. Qed.
(** C289. The actions of the constructed policy are continuous exactly if the action space is a Box. *)
Lemma C289_type_lemma : forall (c : cls) (p : params) (pl : policy), construct c p = Ok pl -> pl_type pl = Conti <-> p_space p = SBox.
Proof.
  intros c p pl H. destruct c; cbn [construct] in H;
    unfold iqn_init in H; unfold bdq_init, c51_init, qrdqn_init, gail_init in H; unfold ppo_init in H;
    unfold a2c_init, crr_init, sac_init, dsac_init, sac_init_with, td3_init, redq_init, dbcq_init, plain_init, bcq_init, psrl_init in H;
    inv;
    repeat match goal with
    | E : pg_init p = Ok _ |- _ => unfold pg_init in E
    | E : pg_init_with _ _ p = Ok _ |- _ => unfold pg_init_with in E; inv
    | E : dqn_init p = Ok _ |- _ => unfold dqn_init in E; inv
    | E : ddpg_init p = Ok _ |- _ => unfold ddpg_init in E
    | E : ddpg_init_with _ _ p = Ok _ |- _ => unfold ddpg_init_with in E; inv
    | H : (match ?x with _ => _ end) = Ok _ |- _ => destruct x; try discriminate H
    | E : base_init _ _ _ = Ok _ |- _ => apply type_base in E
    | H : Ok _ = Ok _ |- _ => injection H as <-
    end; cbn; assumption.
Qed.

(** C290. BCQ takes any numbers as discount factor and rate. *)
Lemma C290_bcq_refuted_lemma : forall (p : params), actions_ok BCQ p -> exists pl, construct BCQ p = Ok pl /\ pl_gamma pl = Some (p_gamma p) /\ pl_tau pl = Some (p_tau p).
Proof.
  intros p A. assert (D : is_ok (construct BCQ p) = true).
  { apply C289_accepts_lemma. split; [|exact A]. unfold domain. cbn.
    repeat match goal with |- _ /\ _ => split end; try congruence; try (intros []; fail); intros X;
      repeat match type of X with _ \/ _ => destruct X as [X|X] end; discriminate X. }
  cbn [construct] in *. unfold bcq_init in *. destruct (base_init _ _ _) as [pl|e]; [|discriminate D]. cbn [bind]. eexists. split; [reflexivity|]. split; reflexivity.
Qed.

(** C291. The estimation step of the Q-learning policies is positive. *)
Lemma C291_positive_lemma : forall (c : cls) (p : params), q_learning c -> is_ok (construct c p) = true -> (0 < p_nstep p)%Z.
Proof. intros c p Q H. apply C289_accepts_lemma in H as [(_ & _ & D & _) _]. exact (D Q). Qed.
(** C291. The others take any estimation step. *)
Lemma C291_any_refuted_lemma : forall (c : cls) (p : params) (n : Z), deterministic_gradient c ->
  is_ok (construct c (with_nstep p n)) = is_ok (construct c p).
Proof.
  intros c p n D. apply Bool.eq_iff_eq_true. rewrite !C289_accepts_lemma. unfold domain, actions_ok.
  destruct c; try contradiction; cbn in *; same.
Qed.
(** C291. With 0 the rewards have no influence: the target is the value of the next observation. *)
Lemma C291_zero_refuted_lemma : forall (Ob A Inf : Type) (b : ibuf Ob A Inf) (len : nat) (indices : list Z) (f : list Z -> list (list Qc)) (gamma : Qc) (ret : list (list Qc)),
  compute_nstep_return b len indices f gamma 0 false = Ok ret ->
  exists mask, value_mask b indices = Ok mask /\ ret = map (fun x => map (fun v => (v * b2q (snd x))%Qc) (fst x)) (combine (f indices) mask).
Proof.
  intros Ob A Inf b len indices f gamma ret H. unfold compute_nstep_return in H. cbn [negb guard] in H.
  destruct (length indices =? len); cbn [guard] in H; [|discriminate]. cbn [Nat.sub stack_indices bind last] in H.
  destruct (value_mask b indices) as [mask|e]; [|discriminate]. cbn [bind] in H. exists mask. split; [reflexivity|].
  destruct (column _ _ b) as [done|e]; [|discriminate]. cbn [bind] in H.
  destruct (ib_unfinished b) as [unf|e]; [|discriminate]. cbn [bind] in H.
  destruct (column _ 0%Qc b) as [rew|e]; [|discriminate]. cbn [bind] in H.
  unfold nstep_return in H. cbn [seq combine rev foldM bind gamma_buffer] in H. injection H as <-.
  set (q := map (fun x : list Qc * bool => map (fun v : Qc => (v * b2q (snd x))%Qc) (fst x)) (combine (f indices) mask)). clearbody q. induction q as [|x q IH]; [reflexivity|]. cbn [map combine]. rewrite IH. f_equal.
  cbn [nth]. clear. induction x as [|v x IH]; [reflexivity|]. cbn [map combine fst snd]. rewrite IH. f_equal. ring.
Qed.

(** C292. SAC, CQL and DiscreteSAC refuse the action spaces they cannot handle. *)
Lemma C292_sac_lemma : forall (c : cls) (p : params) (pl : policy), construct c p = Ok pl ->
  (c = SAC \/ c = CQL -> p_space p = SBox) /\ (c = DiscreteSAC -> p_space p = SDiscrete).
Proof.
  intros c p pl H. assert (A : domain c p /\ actions_ok c p) by (apply C289_accepts_lemma; rewrite H; reflexivity).
  destruct A as [_ (_ & A1 & A2 & _)]. split; assumption.
Qed.
(** C292. All other classes for discrete actions take a Box of actions just as well. *)
Lemma C292_box_refuted_lemma : forall (c : cls) (p : params), for_discrete c -> c <> DiscreteSAC ->
  is_ok (construct c (with_space p SBox)) = is_ok (construct c (with_space p SDiscrete)).
Proof.
  intros c p D N. apply Bool.eq_iff_eq_true. rewrite !C289_accepts_lemma. unfold domain, actions_ok, for_discrete in *.
  destruct c; cbn in *; try congruence; try (exfalso; intuition discriminate); clear D N; same.
Qed.
(** C292. And DDPG, TD3, TD3BC, REDQ and BCQ take discrete actions without action_scaling. *)
Lemma C292_discrete_refuted_lemma : forall (c : cls) (p : params), c = DDPG \/ c = TD3 \/ c = TD3BC \/ c = REDQ \/ c = BCQ -> p_scaling p = false ->
  is_ok (construct c (with_space p SDiscrete)) = is_ok (construct c (with_space p SBox)).
Proof.
  intros c p D S. apply Bool.eq_iff_eq_true. rewrite !C289_accepts_lemma. unfold domain, actions_ok.
  destruct D as [->|[->|[->|[->| ->]]]]; cbn; rewrite S; same.
Qed.

(** C293. A class that has the option keeps it as given and takes no unknown value; the others have None. *)
Lemma C293_none_lemma : forall (c : cls) (p : params) (pl : policy), construct c p = Ok pl ->
  (configurable c -> pl_bound pl = p_bound p /\ p_bound p <> Some BEmpty /\ p_bound p <> Some BOther) /\ (~ configurable c -> pl_bound pl = None).
Proof.
  intros c p pl H. assert (A : domain c p /\ actions_ok c p) by (apply C289_accepts_lemma; rewrite H; reflexivity).
  destruct A as [_ (_ & _ & _ & A & _)].
  assert (B0 : forall s sc b q, base_init s sc b = Ok q -> pl_bound q = b).
  { intros s sc b q. unfold base_init. intros Hq. inv. injection Hq as <-. reflexivity. }
  assert (K : pl_bound pl = if (match c with PG | A2C | PPO | NPG | TRPO | GAIL | DDPG | TD3 | TD3BC | SAC | CQL | REDQ | Imitation | ICM | BCQ => true | _ => false end) then p_bound p else None).
  { clear A. destruct c; cbn [construct] in H;
      unfold iqn_init in H; unfold bdq_init, c51_init, qrdqn_init, gail_init in H; unfold ppo_init in H; unfold a2c_init, crr_init, sac_init, dsac_init, sac_init_with, td3_init, redq_init, dbcq_init, bcq_init, plain_init, psrl_init in H;
      inv; unfold pg_init, pg_init_with, ddpg_init, ddpg_init_with, dqn_init in *; inv;
      repeat match goal with
      | H : base_init _ _ _ = Ok _ |- _ => apply B0 in H
      | H : (match ?x with _ => _ end) = Ok _ |- _ => destruct x; try discriminate H
      | H : Ok _ = Ok _ |- _ => injection H as <-
      end; cbn; assumption. }
  split.
  - intros C. specialize (A C) as (_ & B & _). rewrite K. split; [destruct c; try contradiction; reflexivity|]. intuition congruence.
  - intros C. rewrite K. destruct c; try reflexivity; exfalso; apply C; exact Logic.I.
Qed.
(** C293. The documented empty string is refused by every class that has the option. *)
Lemma C293_empty_refuted_lemma : forall (c : cls) (p : params), configurable c -> p_bound p = Some BEmpty -> is_ok (construct c p) = false.
Proof.
  intros c p C B. destruct (is_ok (construct c p)) eqn:E; [|reflexivity]. exfalso.
  apply C289_accepts_lemma in E as [_ (_ & _ & _ & A & _)]. specialize (A C) as (_ & [X|[X|X]] & _); congruence.
Qed.

(** C294. Of temperatures that are floats every one is accepted or none, and so is a tuple with a learnable log_alpha of shape [1]. *)
Lemma C294_float_lemma : forall (c : cls) (p : params) (q : Qc),
  is_ok (construct c (with_alpha p (AFloat q))) = is_ok (construct c (with_alpha p (ATuple [1] true))).
Proof.
  intros c p q. apply Bool.eq_iff_eq_true. rewrite !C289_accepts_lemma. unfold domain, actions_ok.
  assert (X : ((exists q0 : Qc, AFloat q = AFloat q0) \/ AFloat q = ATuple [1] true) <-> ((exists q0 : Qc, ATuple [1] true = AFloat q0) \/ ATuple [1] true = ATuple [1] true)).
  { split; intros _; [right; reflexivity|left; exists q; reflexivity]. }
  cbn [with_alpha p_alpha p_space p_scaling p_bound p_gamma p_tau p_nstep p_lambda p_dual p_atoms p_vmin p_vmax p_quantiles p_sample p_online p_target p_freq p_unlikely p_eps p_ensemble p_subset p_mode p_actor_max p_actor_out p_critic p_critic2 p_critic2_optim].
  rewrite X. reflexivity.
Qed.
(** C294. One that is an int is refused. *)
Lemma C294_int_refuted_lemma : forall (c : cls) (p : params) (z : Z), tempered c -> p_alpha p = AInt z -> is_ok (construct c p) = false.
Proof.
  intros c p z T A. destruct (is_ok (construct c p)) eqn:E; [|reflexivity]. exfalso.
  apply C289_accepts_lemma in E as [D _]. destruct D as (_ & _ & _ & _ & _ & _ & _ & _ & _ & _ & _ & _ & _ & X). specialize (X T). destruct X as [[q X]|X]; congruence.
Qed.

(** C295. The optimizer of the second critic changes that critic, if both, neither or only the critic is given. *)
Lemma C295_trained_lemma : forall (c : cls) (p : params) (pl : policy), twin c -> construct c p = Ok pl ->
  (forall o, p_critic2_optim p = Some o -> p_critic2 p = Some o) ->
  exists c2, pl_critic2 pl = Some (c2, c2) /\ (forall x, p_critic2 p = Some x -> c2 = x) /\ (p_critic2 p = None -> c2 = map (p_fresh p) (p_critic p)).
Proof.
  intros c p pl T H Ho.
  assert (K : pl_critic2 pl = Some (second_critic p)).
  { destruct c; try contradiction; cbn [construct] in H; unfold td3_init, sac_init, dsac_init, sac_init_with, bcq_init in H; inv;
      repeat match goal with
      | H : (match ?x with _ => _ end) = Ok _ |- _ => destruct x; try discriminate H
      | H : Ok _ = Ok _ |- _ => injection H as <-
      end; reflexivity. }
  rewrite K. unfold second_critic. destruct (p_critic2 p) as [x|] eqn:E2, (p_critic2_optim p) as [o|] eqn:Eo.
  - specialize (Ho o eq_refl). injection Ho as ->. eexists. split; [reflexivity|]. split; [intros y [= <-]; reflexivity|discriminate].
  - eexists. split; [reflexivity|]. split; [intros y [= <-]; reflexivity|discriminate].
  - specialize (Ho o eq_refl). discriminate.
  - eexists. split; [reflexivity|]. split; [discriminate|reflexivity].
Qed.
(** C295. If only the optimizer is given, the second critic is a copy that no optimizer changes. *)
Lemma C295_untrained_refuted_lemma : forall (c : cls) (p : params) (pl : policy) (o : list nat), twin c -> construct c p = Ok pl ->
  p_critic2 p = None -> p_critic2_optim p = Some o -> (forall x y, In y o -> p_fresh p x <> y) ->
  exists c2, pl_critic2 pl = Some (c2, o) /\ (forall x, In x c2 -> ~ In x o) /\ length c2 = length (p_critic p).
Proof.
  intros c p pl o T H E2 Eo F.
  assert (K : pl_critic2 pl = Some (second_critic p)).
  { destruct c; try contradiction; cbn [construct] in H; unfold td3_init, sac_init, dsac_init, sac_init_with, bcq_init in H; inv; rewrite ?E2, ?Eo in H;
      repeat match goal with
      | H : Ok _ = Ok _ |- _ => injection H as <-
      end; reflexivity. }
  rewrite K. unfold second_critic. rewrite E2, Eo. eexists. split; [reflexivity|]. split; [|apply map_length].
  intros x Hx Hi. apply in_map_iff in Hx as (y & Ey & _). exact (F y x Hi Ey).
Qed.
