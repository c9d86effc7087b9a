(** * Properties C121-C125: parameters of the high-level interface *)
From Coq Require Import String.
From Verif Require Import Py Num ParamsModel ParamsSpec ParamsProofs.
Import List.
Open Scope string_scope.
Open Scope list_scope.
Open Scope nat_scope.

(** C121.  For each of the twelve algorithms and all parameter values which the documentation
    allows, the dictionary of arguments is created, it fits the constructor (no argument is
    given twice, none is unknown, none is missing), and the call receives a value for each
    parameter of the constructor. *)
Theorem C121_binds :   forall (a : algo) (e : envs) (p : string -> pv),
  (forall k, In k (fields a) -> admissible e k (p k)) -> env_fits a e ->
  (exists kw, create_kwargs a e p = Ok kw
     /\ NoDup (map fst (explicit a ++ added a ++ kw))
     /\ incl (map fst (explicit a ++ added a ++ kw)) (map fst (signature a))
     /\ forall k, In (k, None) (signature a) -> In k (map fst (explicit a ++ added a ++ kw)))
  /\ exists d, policy_args a e p = Ok d /\ map fst d = map fst (signature a).
Proof. exact C121_binds_lemma. Qed.
Print Assumptions C121_binds.

(** C121.  An algorithm is refused for the wrong kind of action space. *)
Theorem C121_wrong_env :   forall (a : algo) (e : envs) (p : string -> pv),
  (forall k, In k (fields a) -> admissible e k (p k)) -> ~ env_fits a e ->
  policy_args a e p = Err AssertionError.
Proof. exact C121_wrong_env_lemma. Qed.
Print Assumptions C121_wrong_env.

(** C122.  Every parameter which is not consumed on the way arrives at the policy under its own
    name: unchanged, or replaced by the value that it stands for in these environments.  The
    learning rate schedulers for which factories are given are joined into one, in the order
    actor, critic, second critic; and each network is accompanied by its own optimizer. *)
Theorem C122_values :   forall (a : algo) (e : envs) (p : string -> pv) (d : dict),
  (forall k, In k (fields a) -> admissible e k (p k)) -> env_fits a e ->
  policy_args a e p = Ok d ->
  (forall k, In k (fields a) -> ~ In k consumed ->
     exists w, dget k d = Some w /\ reaches e k (p k) w)
  /\ (exists w, dget "lr_scheduler" d = Some w /\ joint (wanted p (schedulers a)) w)
  /\ (forall n o, In (n, o) (trained a) ->
       exists x, dget n d = Some (PTok x) /\ dget o d = Some (PTok (x ++ ".optim")%string)).
Proof. exact C122_values_lemma. Qed.
Print Assumptions C122_values.

(** C123.  Creating the policy succeeds for exactly the following parameters: factors between 0
    and 1, positive counts, actions scaled in boxes only, bounds by clipping (or by tanh for
    the policy gradient algorithms), a dual clip above 1, alpha a float or automatic, and for
    SAC and its discrete variant the right kind of action space. *)
Theorem C123_accepts :   forall (a : algo) (e : envs) (p : string -> pv),
  (forall k, In k (fields a) -> admissible e k (p k)) -> env_fits a e ->
  ((exists d, create_policy a e p = Ok d) <-> acceptable a e p).
Proof. exact C123_accepts_lemma. Qed.
Print Assumptions C123_accepts.

(** C123.  Values which the documentation of the parameters allows and with which no policy can
    be created: a dual clip below [1 - eps_clip]; bounding actions by tanh in the algorithms
    with a Q function; an integer [alpha]. *)
Theorem C123_documented_refuted :   forall (e : envs) (p : string -> pv),
  (forall (c eps : Qc), (forall k, In k (fields PPO) -> admissible e k (p k)) ->
     p "dual_clip" = PFloat c -> p "eps_clip" = PFloat eps -> (0 <= eps)%Qc -> (c < 1 - eps)%Qc ->
     forall d, create_policy PPO e p <> Ok d)
  /\ (forall a, In a [DDPG; REDQ; SAC; TD3] -> env_fits a e ->
     (forall k, In k (fields a) -> admissible e k (p k)) ->
     p "action_bound_method" = PStr "tanh" -> forall d, create_policy a e p <> Ok d)
  /\ (forall a z, In a [REDQ; SAC; DSAC] -> env_fits a e ->
     (forall k, In k (fields a) -> admissible e k (p k)) ->
     p "alpha" = PInt z -> forall d, create_policy a e p <> Ok d).
Proof. exact C123_documented_refuted_lemma. Qed.
Print Assumptions C123_documented_refuted.

(** C124.  With the automatic coefficient of the high-level interface the target entropy is minus
    the number of action dimensions, and a step of SAC moves [log_alpha] by the rate times the
    difference between the target and the mean of minus the log probabilities; so the
    coefficient grows exactly if this estimate of the entropy is below the target. *)
Theorem C124_continuous :   forall (shape : list nat) (m lr : Qc) (batches : list (list Qc)) (lp : list Qc),
  Forall (fun b => b <> []) (lp :: batches) ->
  exists s0 s s' l l', alpha_init (alpha_value (Continuous shape m) PAutoAlpha) = Ok s0
    /\ runs (sac_tune lr) batches s0 = Ok s /\ sac_tune lr lp s = Ok s'
    /\ dget "log_alpha" s0 = Some 0%Qc
    /\ dget "log_alpha" s = Some l /\ dget "log_alpha" s' = Some l'
    /\ let target := (- Q2Qc (inject_Z (Z.of_nat (fold_right Nat.mul 1%nat shape))))%Qc in
       let entropy := qmean (map Qcopp lp) in
       l' = (l + lr * (target - entropy))%Qc
       /\ ((0 < lr)%Qc -> ((l < l')%Qc <-> (entropy < target)%Qc)).
Proof. exact C124_continuous_lemma. Qed.
Print Assumptions C124_continuous.

(** C124.  For discrete actions the target is minus the number [n] of actions, which no
    distribution attains, entropies being at least 0.  Whatever the policy does, each step of
    the discrete SAC lowers [log_alpha] by at least the rate times [n]. *)
Theorem C124_discrete_refuted :   forall (n : nat) (lr : Qc) (batches : list (list Qc)), (0 < lr)%Qc ->
  Forall (fun b => b <> [] /\ Forall (fun h => 0 <= h)%Qc b) batches ->
  exists s0 s l, alpha_init (alpha_value (Discrete n) PAutoAlpha) = Ok s0
    /\ runs (dsac_tune lr) batches s0 = Ok s /\ dget "log_alpha" s = Some l
    /\ (l <= - (lr * Q2Qc (inject_Z (Z.of_nat (n * length batches)))))%Qc.
Proof. exact C124_discrete_refuted_lemma. Qed.
Print Assumptions C124_discrete_refuted.

(** C125.  REDQ can be created with the automatic coefficient, but cannot tune it: the update
    reads attributes which the constructor does not set. *)
Theorem C125_redq_refuted :   forall (e : envs) (p : string -> pv),
  (forall k, In k (fields REDQ) -> admissible e k (p k)) -> env_fits REDQ e ->
  acceptable REDQ e p -> p "alpha" = PAutoAlpha ->
  exists d s, create_policy REDQ e p = Ok d
    /\ alpha_init (arg "alpha" d) = Ok s
    /\ forall lr lp, redq_tune lr lp s = Err AttributeError.
Proof. exact C125_redq_refuted_lemma. Qed.
Print Assumptions C125_redq_refuted.

(** C125.  SAC and its discrete variant tune it: a step succeeds in every state that is reached. *)
Theorem C125_sac_partial :   forall (e : envs) (lr : Qc) (batches : list (list Qc)),
  Forall (fun b => b <> []) batches ->
  exists s0, alpha_init (alpha_value e PAutoAlpha) = Ok s0
    /\ (exists s, runs (sac_tune lr) batches s0 = Ok s)
    /\ (exists s, runs (dsac_tune lr) batches s0 = Ok s).
Proof. exact C125_sac_partial_lemma. Qed.
Print Assumptions C125_sac_partial.

(** The default values of the parameter classes. *)
Definition defaults (k : string) : pv :=
  match dget k
    [("action_scaling", PStr "default"); ("action_bound_method", PStr "clip");
     ("discount_factor", flt (99 # 100)); ("reward_normalization", PBool false);
     ("deterministic_eval", PBool false); ("gae_lambda", flt (95 # 100)); ("max_batchsize", PInt 256);
     ("vf_coef", flt (1 # 2)); ("ent_coef", flt (1 # 100)); ("eps_clip", flt (2 # 10));
     ("tau", flt (5 # 1000)); ("gamma", flt (99 # 100)); ("alpha", flt (2 # 10));
     ("estimation_step", PInt 1); ("target_update_freq", PInt 0); ("sample_size", PInt 32);
     ("online_sample_size", PInt 8); ("target_sample_size", PInt 8); ("num_quantiles", PInt 200);
     ("ensemble_size", PInt 10); ("subset_size", PInt 2); ("actor_delay", PInt 20);
     ("target_mode", PStr "min"); ("policy_noise", flt (2 # 10)); ("noise_clip", flt (1 # 2))] with
  | Some v => v
  | None => PNone
  end.

(** Two scheduler factories, an automatic coefficient and noise scaled by the action. *)
Definition chosen (k : string) : pv :=
  match dget k [("actor_lr_scheduler_factory", PLrFac 7); ("critic2_lr_scheduler_factory", PLrFac 8);
                ("critic_lr_scheduler_factory", PLrFac 9);
                ("alpha", PAutoAlpha); ("exploration_noise", PNoiseFac (Q2Qc (1 # 10)));
                ("policy_noise", PValFac (Q2Qc (2 # 10)))] with
  | Some v => v
  | None => defaults k
  end.

Definition box : envs := Continuous [2; 3] (Q2Qc (2 # 1)).

Example C121_ex_defaults :
  (forall a e k, In k (fields a) -> admissible e k (defaults k))
  /\ map (fun a => is_ok (create_policy a box defaults)) [PG; A2C; PPO; NPG; TRPO; DDPG; REDQ; SAC; TD3] = repeat true 9
  /\ map (fun a => is_ok (create_policy a (Discrete 4) defaults)) [PG; A2C; PPO; NPG; TRPO; DQN; IQN; DSAC] = repeat true 8.
Proof.
  split; [| split; vm_compute; reflexivity].
  intros a e k Hk. split; [| split].
  - intros H. left. cbn in H. destruct H as [<- | [<- | [<- | [<- | [<- | []]]]]]; reflexivity.
  - intros -> q H. discriminate H.
  - intros [<- | [<- | []]] q H; discriminate H.
Qed.

Example C122_ex :
  (forall a k, In k (fields a) -> admissible box k (chosen k))
  /\ (exists d, policy_args SAC box chosen = Ok d
      /\ dget "lr_scheduler" d = Some (PMulti [(OActor, 7); (OCritic2, 8)])
      /\ dget "alpha" d = Some (PAlpha (Q2Qc (- 6 # 1)))
      /\ dget "exploration_noise" d = Some (PNoise (Q2Qc (2 # 1) * Q2Qc (1 # 10))%Qc)
      /\ dget "action_scaling" d = Some (PBool true))
  /\ is_ok (create_policy SAC box chosen) = true
  /\ is_ok (create_policy TD3 box chosen) = true.
Proof.
  split; [| split; [| split; vm_compute; reflexivity]].
  - intros a k Hk. split; [| split].
    + intros H. cbn in H. destruct H as [<- | [<- | [<- | [<- | [<- | []]]]]]; cbn; eauto.
    + intros -> q H. exists [2; 3], (Q2Qc (2 # 1)). split; [reflexivity |].
      inversion H; subst. vm_compute. discriminate.
    + intros _ q H. exists [2; 3], (Q2Qc (2 # 1)). reflexivity.
  - eexists. split; [vm_compute; reflexivity |]. split; [vm_compute; reflexivity |].
    split; [vm_compute; reflexivity |]. split; vm_compute; reflexivity.
Qed.

(** The documented values of C123, with everything else at its default. *)
Definition set (k0 : string) (v : pv) (p : string -> pv) (k : string) : pv :=
  if String.eqb k k0 then v else p k.

Example C123_ex :
  create_policy PPO box (set "dual_clip" (flt (1 # 4)) defaults) = Err AssertionError
  /\ is_ok (create_policy PPO box (set "dual_clip" (flt (3 # 1)) defaults)) = true
  /\ create_policy SAC box (set "action_bound_method" (PStr "tanh") defaults) = Err AssertionError
  /\ is_ok (create_policy PPO box (set "action_bound_method" (PStr "tanh") defaults)) = true
  /\ create_policy SAC box (set "alpha" (PInt 1) defaults) = Err TypeError
  /\ create_policy SAC (Discrete 4) defaults = Err ValueError
  /\ create_policy DQN box defaults = Err AssertionError.
Proof. repeat split; vm_compute; reflexivity. Qed.

(** Three steps of the discrete SAC with four actions: from 0 down to about -13. *)
Example C124_ex :
  exists s, runs (dsac_tune 1%Qc) [[1%Qc; 0%Qc]; [0%Qc]; [Q2Qc (1 # 2)]]
              [("target_entropy", Q2Qc (- 4 # 1)); ("log_alpha", 0%Qc)] = Ok s
  /\ dget "log_alpha" s = Some (Q2Qc (- 13 # 1))
  /\ exists s', sac_tune 1%Qc [Q2Qc (1 # 2); Q2Qc (3 # 2)] [("target_entropy", Q2Qc (- 6 # 1)); ("log_alpha", 0%Qc)] = Ok s'
     /\ dget "log_alpha" s' = Some (Q2Qc (- 5 # 1)).
Proof.
  eexists. split; [vm_compute; reflexivity |].
  split; [vm_compute; apply f_equal, Qc_is_canon; vm_compute; reflexivity |].
  eexists. split; [vm_compute; reflexivity |]. vm_compute. apply f_equal, Qc_is_canon. vm_compute. reflexivity.
Qed.

Example C125_ex :
  exists d, create_policy REDQ box chosen = Ok d /\ alpha_init (arg "alpha" d) = Ok [("target_entropy", Q2Qc (- 6 # 1)); ("log_alpha", 0%Qc)].
Proof. eexists. split; vm_compute; reflexivity. Qed.
