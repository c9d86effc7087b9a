(** * Properties C193-C202: the factories of the high-level interface *)
From Verif Require Import Py PyLemmas Num NetModel FactModel FactSpec FactProofs.
Open Scope nat_scope.

(** C193. In a continuous environment the default actor has the hidden sizes and the activation that were asked for; so have the actors of the
    specific factories. *)
Theorem C193_actor : forall (Md : Type) (relu : Md) (t : catype) (hidden : list nat) (a : Md) (u c sm : bool) (e : envs) (s s' : @st Md) (m : @amod Md),
  (e_type e = ECont -> create_actor relu (FDefault t hidden a u c sm) e s = Ok (m, s') ->
     t_layers (pre_of m) = dense KLinear (prod (sdims (e_obs e))) hidden a) /\
  (forall f, f = FDet hidden a \/ f = FGauss hidden u c a \/ f = FDisc hidden sm a -> create_actor relu f e s = Ok (m, s') ->
     t_layers (pre_of m) = dense KLinear (prod (sdims (e_obs e))) hidden a).
Proof. exact C193_actor_lemma. Qed.
Print Assumptions C193_actor.

(** C193. The critics of all built-in factories have them in both kinds of environments. *)
Theorem C193_critic : forall (Md : Type) (relu : Md) (hidden : list nat) (a : Md) (e : envs) (ua uas : bool) (s : @st Md) (f : @cfact Md),
  f = CDefault hidden a \/ f = CContNet hidden a \/ f = CDiscNet hidden a ->
  exists p l s', (create_critic relu f e ua uas s = Ok (CCont p l false, s') \/ create_critic relu f e ua uas s = Ok (CDisc p l, s')) /\
    t_layers p = dense KLinear (prod (sdims (e_obs e)) + if ua then prod (sdims (e_act e)) else 0) hidden a.
Proof. exact C193_critic_lemma. Qed.
Print Assumptions C193_critic.

(** C193. Refuted for the default actor in a discrete environment: whatever is asked for, it has two hidden layers of 64 units with ReLU. *)
Theorem C193_discrete_refuted : forall (Md : Type) (relu : Md) (t t' : catype) (hidden hidden' : list nat) (a a' : Md) (u u' c c' sm : bool) (e : envs) (s : @st Md),
  e_type e = EDisc ->
  create_actor relu (FDefault t hidden a u c sm) e s = create_actor relu (FDefault t' hidden' a' u' c' sm) e s /\
  exists m s', create_actor relu (FDefault t hidden a u c sm) e s = Ok (m, s') /\
    t_layers (pre_of m) = dense KLinear (prod (sdims (e_obs e))) [64; 64] relu.
Proof. exact C193_discrete_refuted_lemma. Qed.
Print Assumptions C193_discrete_refuted.

(** C194. Every actor of a built-in factory maps observations to outputs of the size of the action shape. *)
Theorem C194_actor : forall (Md : Type) (relu : Md) (f : @afact Md) (e : envs) (s s' : @st Md) (m : @amod Md),
  makes_base f -> 0 < prod (sdims (e_act e)) -> create_actor relu f e s = Ok (m, s') ->
  actor_size m (prod (sdims (e_obs e))) = Ok (prod (sdims (e_act e))).
Proof. exact C194_actor_lemma. Qed.
Print Assumptions C194_actor.

(** C194. With default critics every learner can evaluate its critics as it does: one value, or for discrete SAC one value for every action.
    (DDPG and REDQ are for continuous environments only.) *)
Theorem C194_critic : forall (Md : Type) (relu tanh : Md) (k : akind) (af : @afact Md) (h1 h2 ens : list nat) (a1 a2 : Md) (e : envs) (s s' : @st Md) (p : @pol Md),
  0 < prod (sdims (e_act e)) -> (k = DDPG -> e_type e = ECont) -> (forall n, k <> REDQ n) ->
  create_policy relu tanh k af (CDefault h1 a1) (CDefault h2 a2) ens e s = Ok (p, s') ->
  forall c, In c (l_critics p) -> critic_size c (prod (sdims (e_obs e))) (call_with k e) =
    Ok (match k, e_type e with Dual, EDisc => prod (sdims (e_act e)) | _, _ => 1 end).
Proof. exact C194_critic_lemma. Qed.
Print Assumptions C194_critic.

(** C194. Critics that reuse the actor's network work where they are evaluated with the observation only: A2C, PPO, NPG and TRPO, and discrete
    SAC. *)
Theorem C194_reuse : forall (Md : Type) (relu tanh : Md) (k : akind) (f : @afact Md) (fut : nat) (ens : list nat) (e : envs) (s s' : @st Md) (p : @pol Md),
  0 < prod (sdims (e_act e)) -> makes_base f -> fut < length (s_futs s) -> k = ActorCriticK \/ (k = Dual /\ e_type e = EDisc) ->
  create_policy relu tanh k (FStore f fut) (CReuse fut) (CReuse fut) ens e s = Ok (p, s') ->
  forall c, In c (l_critics p) -> critic_size c (prod (sdims (e_obs e))) (call_with k e) =
    Ok (match k with Dual => prod (sdims (e_act e)) | _ => 1 end).
Proof. exact C194_reuse_lemma. Qed.
Print Assumptions C194_reuse.

(** C194. Refuted where they are evaluated with an action as well: for DDPG, SAC and TD3 in a continuous environment every evaluation of such a
    critic raises. *)
Theorem C194_reuse_refuted : forall (Md : Type) (relu tanh : Md) (k : akind) (f : @afact Md) (fut : nat) (ens : list nat) (e : envs) (s s' : @st Md) (p : @pol Md),
  0 < prod (sdims (e_act e)) -> makes_base f -> fut < length (s_futs s) -> k = DDPG \/ k = Dual -> e_type e = ECont ->
  create_policy relu tanh k (FStore f fut) (CReuse fut) (CReuse fut) ens e s = Ok (p, s') ->
  l_critics p <> [] /\ forall c, In c (l_critics p) -> critic_size c (prod (sdims (e_obs e))) (call_with k e) = Err RuntimeError.
Proof. exact C194_reuse_refuted_lemma. Qed.
Print Assumptions C194_reuse_refuted.

(** C195. In a policy made by a built experiment, a critic that was set to use the actor has the actor's own preprocessing network (the same
    object), and every other critic shares nothing with the actor. *)
Theorem C195_shared : forall (Md : Type) (relu tanh : Md) (k : akind) (ens : list nat) (e : envs) (b : @bld Md) (s s' : @st Md) (p : @pol Md) (i : nat) (c : @cmod Md),
  (forall n, k <> REDQ n) -> own_future relu b -> proper_actor b -> b_fut b < length (s_futs s) -> i < 2 ->
  run relu tanh k ens e (build relu b) s = Ok (p, s') -> nth_error (l_critics p) i = Some c ->
  (get_critic_factory relu b i = CReuse (b_fut b) -> pre_c c = pre_of (l_actor p)) /\
  ((forall fut, get_critic_factory relu b i <> CReuse fut) -> forall q r, In q (parts_c c) -> In r (parts_a (l_actor p)) -> t_id q <> t_id r).
Proof. exact C195_shared_lemma. Qed.
Print Assumptions C195_shared.

(** C195. A copy of a builder is a builder of the same kind with a future of its own: what is said above holds for its experiments (as in
    [build_seeded_collection]), and their runs leave the futures of the original alone; runs of the original leave that of the copy alone. *)
Theorem C195_copy : forall (Md : Type) (relu tanh : Md) (k : akind) (ens : list nat) (e : envs) (b : @bld Md) (s : @st Md),
  own_future relu b -> proper_actor b -> b_fut b < length (s_futs s) ->
  let b' := fst (copy_builder b s) in let s0 := snd (copy_builder b s) in
  own_future relu b' /\ proper_actor b' /\ b_fut b' < length (s_futs s0) /\ b_fut b < length (s_futs s0) /\
  (forall i, get_critic_factory relu b i = CReuse (b_fut b) <-> get_critic_factory relu b' i = CReuse (b_fut b')) /\
  (forall p s', run relu tanh k ens e (build relu b') s0 = Ok (p, s') -> forall j, j < length (s_futs s) -> get_fut s' j = get_fut s j) /\
  (forall p s', run relu tanh k ens e (build relu b) s0 = Ok (p, s') -> get_fut s' (b_fut b') = get_fut s0 (b_fut b')).
Proof. exact C195_copy_lemma. Qed.
Print Assumptions C195_copy.

(** C195. Refuted for an experiment that has been saved and loaded, or sent to another process: the future of the actor factory is replaced by a
    new one. If the experiment had not been run, creating the policy raises a ValueError; otherwise the critic gets an old actor's network. *)
Theorem C195_pickle_refuted : forall (Md : Type) (relu tanh : Md) (k : akind) (ens : list nat) (e : envs) (b : @bld Md) (s : @st Md),
  k = ActorCriticK \/ k = DDPG \/ k = Dual -> proper_actor b -> b_fut b < length (s_futs s) -> known s -> get_critic_factory relu b 0 = CReuse (b_fut b) ->
  let x := fst (reload (build relu b) s) in let s0 := snd (reload (build relu b) s) in
  (get_fut s (b_fut b) = None -> is_ok (create_actor relu (x_actor x) e s0) = true -> run relu tanh k ens e x s0 = Err ValueError) /\
  (forall p s' c, run relu tanh k ens e x s0 = Ok (p, s') -> nth_error (l_critics p) 0 = Some c -> t_id (pre_c c) <> t_id (pre_of (l_actor p))).
Proof. exact C195_pickle_refuted_lemma. Qed.
Print Assumptions C195_pickle_refuted.

(** C196. The distribution function of an actor factory fits the actor that it creates: probabilities after a softmax, logits without, location and
    scale for a Gaussian actor, none otherwise. In particular neither step fails if the other succeeds in an environment of the right type. *)
Theorem C196_dist : forall (Md : Type) (relu : Md) (f : @afact Md) (e : envs) (s s' : @st Md) (m : @amod Md) (d : option dist),
  create_actor relu f e s = Ok (m, s') -> create_dist relu f (e_type e) = Ok d ->
  d = match m with ADisc _ _ sm => Some (if sm then DProbs else DLogits) | AProb _ _ _ _ => Some DGauss | _ => None end.
Proof. exact C196_dist_lemma. Qed.
Print Assumptions C196_dist.

(** C196. With it, the distribution that is sampled from is the softmax of the output of the last linear layer, whether or not the actor applies the
    softmax itself. *)
Theorem C196_softmax : forall (e : Qc -> Qc) (sm : bool) (l : row), (forall x, (0 < e x)%Qc) -> l <> [] ->
  categorical e (if sm then DProbs else DLogits) (disc_out e sm l) = softmax e l.
Proof. exact C196_softmax_lemma. Qed.
Print Assumptions C196_softmax.

(** C196. Refuted for discrete SAC: it takes the output of the actor for logits, while the actor of its builder applies a softmax, whatever is set
    with [with_actor_factory_default]. So the policy is nearly uniform: no action is more probable than e times any other. *)
Theorem C196_dsac_refuted : forall (Md : Type) (relu tanh : Md) (t : catype) (fut : nat) (cs : list (option (@cfact Md))) (ops : list (@bop Md)) (ens : list nat)
  (e : envs) (s s' : @st Md) (p : @pol Md) (ex : Qc -> Qc) (l : row) (i j : nat),
  (forall o f, In o ops -> o <> WActor f) -> e_type e = EDisc ->
  run relu tanh Dual ens e (build relu (fold_left bstep ops (mkBld t fut None cs))) s = Ok (p, s') ->
  (forall x, 0 < ex x)%Qc -> (forall x y, x <= y -> ex x <= ex y)%Qc -> i < length l -> j < length l ->
  (exists q r, l_actor p = ADisc q r true) /\
  (nth i (dsac_probs ex true l) 0 * ex 0 <= nth j (dsac_probs ex true l) 0 * ex 1)%Qc.
Proof. exact C196_dsac_refuted_lemma. Qed.
Print Assumptions C196_dsac_refuted.

(** C196. Discrete SAC with an actor without softmax samples from the softmax of the last layer's output. *)
Theorem C196_dsac : forall (Md : Type) (relu tanh : Md) (b : @bld Md) (h : list nat) (a : Md) (ens : list nat) (e : envs) (s s' : @st Md) (p : @pol Md) (ex : Qc -> Qc) (l : row),
  b_actor b = Some (FDisc h false a) -> run relu tanh Dual ens e (build relu b) s = Ok (p, s') ->
  (exists q r, l_actor p = ADisc q r false) /\ dsac_probs ex false l = softmax ex l.
Proof. exact C196_dsac_lemma. Qed.
Print Assumptions C196_dsac.

(** C197. With the default factories: the agents with a Gaussian actor (PG, A2C, PPO, NPG, TRPO, SAC) are created for both types of environments,
    with a distribution function where one is used; the agents with a deterministic actor (DDPG, TD3) in continuous environments; those for which
    no continuous actor is defined (DQN, IQN, discrete SAC) exactly for discrete environments, with a ValueError otherwise; REDQ exactly for continuous
    environments, with an AssertionError otherwise. *)
Theorem C197_default : forall (Md : Type) (relu tanh : Md) (h1 h2 h3 ens : list nat) (a1 a2 a3 : Md) (u c sm : bool) (n : nat) (e : envs) (s : @st Md),
  let mk k t := create_policy relu tanh k (FDefault t h1 a1 u c sm) (CDefault h2 a2) (CDefault h3 a3) ens e s in
  (forall k, k = PG \/ k = ActorCriticK -> exists p s', mk k Gaussian = Ok (p, s') /\ l_dist p = Some (match e_type e with ECont => DGauss | EDisc => if sm then DProbs else DLogits end)) /\
  is_ok (mk Dual Gaussian) = true /\
  (e_type e = ECont -> is_ok (mk DDPG Deterministic) = true /\ is_ok (mk Dual Deterministic) = true) /\
  (forall t, mk Dual t = Err ValueError <-> t = Unsupported /\ e_type e = ECont) /\
  (intermediate relu (FDefault Unsupported h1 a1 u c sm) e s = Err ValueError <-> e_type e = ECont) /\
  (e_type e = EDisc -> is_ok (intermediate relu (FDefault Unsupported h1 a1 u c sm) e s) = true) /\
  (mk (REDQ n) Gaussian = Err AssertionError <-> e_type e = EDisc) /\ (e_type e = ECont -> is_ok (mk (REDQ n) Gaussian) = true).
Proof. exact C197_default_lemma. Qed.
Print Assumptions C197_default.

(** C197. Refuted for A2C, PPO, NPG and TRPO with an actor factory that defines no distribution: the policy is created with None for a distribution
    function (calling it raises a TypeError later), where PG raises an AssertionError. *)
Theorem C197_no_dist_refuted : forall (Md : Type) (relu tanh : Md) (h1 h2 ens : list nat) (a1 a2 : Md) (e : envs) (s : @st Md) (c2 : @cfact Md) (f : @afact Md),
  f = FDet h1 a1 \/ f = FOther h1 ->
  create_policy relu tanh PG f (CDefault h2 a2) c2 ens e s = Err AssertionError /\
  exists p s', create_policy relu tanh ActorCriticK f (CDefault h2 a2) c2 ens e s = Ok (p, s') /\ l_dist p = None.
Proof. exact C197_no_dist_refuted_lemma. Qed.
Print Assumptions C197_no_dist_refuted.

(** C198. With critics of their own, every part of the actor and of the critics is given to exactly one optimizer. *)
Theorem C198_once : forall (Md : Type) (relu tanh : Md) (k : akind) (f : @afact Md) (c1 c2 : @cfact Md) (ens : list nat) (e : envs) (s s' : @st Md) (p : @pol Md),
  (forall fut, c1 <> CReuse fut) -> (forall fut, c2 <> CReuse fut) -> create_policy relu tanh k f c1 c2 ens e s = Ok (p, s') ->
  NoDup (concat (l_optims p)) /\ forall i, In i (concat (l_optims p)) <-> In i (all_ids p).
Proof. exact C198_once_lemma. Qed.
Print Assumptions C198_once.

(** C198. Refuted with the critic of a continuous single-critic learner (DDPG) or the critics of SAC and TD3 using the actor: the shared network is
    given to two optimizers. A2C, PPO, NPG and TRPO have one optimizer, which has it once. *)
Theorem C198_twice_refuted : forall (Md : Type) (relu tanh : Md) (k : akind) (f : @afact Md) (fut : nat) (c2 : @cfact Md) (ens : list nat) (e : envs) (s s' : @st Md) (p : @pol Md),
  makes_base f -> fut < length (s_futs s) -> k = ActorCriticK \/ k = DDPG \/ k = Dual -> create_policy relu tanh k (FStore f fut) (CReuse fut) c2 ens e s = Ok (p, s') ->
  let i := t_id (pre_of (l_actor p)) in
  (k <> ActorCriticK -> In i (nth 0 (l_optims p) []) /\ In i (nth 1 (l_optims p) []) /\ ~ NoDup (concat (l_optims p))) /\
  (k = ActorCriticK -> NoDup (concat (l_optims p)) /\ forall j, In j (concat (l_optims p)) <-> In j (all_ids p)).
Proof. exact C198_twice_refuted_lemma. Qed.
Print Assumptions C198_twice_refuted.

(** C198. NPG and TRPO: with a critic of its own, the steps of the critic's regression leave the actor unchanged although the optimizer was given
    its parameters too. *)
Theorem C198_trust : forall (Md V : Type) (relu tanh : Md) (f : @afact Md) (c1 c2 : @cfact Md) (ens : list nat) (e : envs) (s s' : @st Md) (p : @pol Md)
  (us : list (nat -> V -> V)) (w : nat -> V) (c : @cmod Md) (i : nat),
  (forall fut, c1 <> CReuse fut) -> create_policy relu tanh ActorCriticK f c1 c2 ens e s = Ok (p, s') -> l_critics p = [c] -> In i (ids (parts_a (l_actor p))) ->
  In i (concat (l_optims p)) /\ critic_steps (concat (l_optims p)) (ids (parts_c c)) us w i = w i.
Proof. exact C198_trust_lemma. Qed.
Print Assumptions C198_trust.

(** C198. Refuted if the critic uses the actor: every step of the critic's regression also changes the actor's network, after the natural gradient
    step and the check of the divergence. *)
Theorem C198_trust_refuted : forall (Md V : Type) (relu tanh : Md) (f : @afact Md) (fut : nat) (c2 : @cfact Md) (ens : list nat) (e : envs) (s s' : @st Md) (p : @pol Md)
  (us : list (nat -> V -> V)) (w : nat -> V) (c : @cmod Md),
  makes_base f -> fut < length (s_futs s) -> create_policy relu tanh ActorCriticK (FStore f fut) (CReuse fut) c2 ens e s = Ok (p, s') -> l_critics p = [c] ->
  let i := t_id (pre_of (l_actor p)) in
  In i (ids (parts_a (l_actor p))) /\ critic_steps (concat (l_optims p)) (ids (parts_c c)) us w i = fold_left (fun v u => u i v) us (w i).
Proof. exact C198_trust_refuted_lemma. Qed.
Print Assumptions C198_trust_refuted.

(** C199. The critics of the built-in factories are initialised orthogonally, so are the networks and the deviation of Gaussian actors, and the layer
    of their mean is in addition scaled by 0.01; deterministic and discrete actors, and the heads of critics that use the actor, keep torch's
    initialisation. *)
Theorem C199_init : forall (Md : Type) (relu : Md) (f : @afact Md) (cf : @cfact Md) (e : envs) (ua uas : bool) (s s' s'' : @st Md) (m : @amod Md) (c : @cmod Md),
  create_actor relu f e s = Ok (m, s') -> create_critic relu cf e ua uas s' = Ok (c, s'') ->
  match m with
  | AProb p mu sg _ => all_inits Orth [p] /\ all_inits Scaled [mu] /\ match sg with Some g => all_inits Orth [g] | None => True end
  | _ => all_inits Default (parts_a m) end /\
  match cf with CReuse _ => all_inits Default [match c with CCont _ l _ | CDisc _ l => l end] | _ => all_inits Orth (parts_c c) end.
Proof. exact C199_init_lemma. Qed.
Print Assumptions C199_init.

(** C199. Refuted for ensembles of critics (REDQ): the orthogonal initialisation that is asked for reaches none of their layers, which are no
    [nn.Linear]. *)
Theorem C199_ensemble_refuted : forall (Md : Type) (relu tanh : Md) (hidden : list nat) (e : envs) (n : nat) (ua : bool) (s s' : @st Md) (c : @cmod Md),
  create_ensemble relu tanh hidden e n ua s = Ok (c, s') ->
  all_inits Default (parts_c c) /\ length (concat (map inits (parts_c c))) = S (length hidden).
Proof. exact C199_ensemble_refuted_lemma. Qed.
Print Assumptions C199_ensemble_refuted.

(** C200. After any sequence of calls, the factory of each critic, and that of the actor, is the one set last for it, or the default if there is none;
    the actor's is always wrapped so that it stores the actor in the builder's future, and critics use that future. *)
Theorem C200_latest : forall (Md : Type) (relu : Md) (t : catype) (fut n : nat) (ops : list (@bop Md)) (i : nat),
  let b := fold_left bstep ops (mkBld t fut None (repeat None n)) in
  get_critic_factory relu b i = match latest (sets_critic fut n i) ops with Some f => f | None => CDefault [64; 64] relu end /\
  get_actor_factory relu b = FStore (match latest (sets_actor t) ops with Some f => f | None => FDefault t [64; 64] relu false false true end) fut.
Proof. exact C200_latest_lemma. Qed.
Print Assumptions C200_latest.

(** C201. The module of DQN and the preprocessing network of IQN have outputs of exactly the size that is announced for them, and the layers of IQN
    map outputs of that size to one value per action. *)
Theorem C201_intermediate : forall (Md : Type) (relu : Md) (f : @afact Md) (hidden : list nat) (e : envs) (s s' : @st Md) (m : @amod Md) (l : mlp Md unit lkind),
  makes_base f -> 0 < prod (sdims (e_act e)) -> iqn_sizes relu f hidden e s = Ok (m, l, s') ->
  exists d, intermediate relu f e s = Ok (m, d, s') /\ actor_size m (prod (sdims (e_obs e))) = Ok d /\ layers_size d (m_layers l) = Ok (prod (sdims (e_act e))).
Proof. exact C201_intermediate_lemma. Qed.
Print Assumptions C201_intermediate.

(** C201. A module that is no [BaseActor] has no known output size: an AssertionError. *)
Theorem C201_unknown_size : forall (Md : Type) (relu : Md) (f : @afact Md) (hidden : list nat) (e : envs) (s s' : @st Md) (p : part),
  create_actor relu f e s = Ok (AOther p, s') -> intermediate relu f e s = Err AssertionError /\ iqn_sizes relu f hidden e s = Err AssertionError.
Proof. exact C201_unknown_size_lemma. Qed.
Print Assumptions C201_unknown_size.

(** C201. The ICM wrapper factory needs the number of actions of a discrete space, as an instance of [int]; otherwise it raises a ValueError. *)
Theorem C201_icm : forall (py_int : bool) (obs act : space) (e : envs), envs_of obs act = Ok e ->
  (forall n, icm_action_dim py_int e = Ok n <-> act = Discrete n /\ py_int = true) /\
  ((exists l, act = Box l) \/ py_int = false -> icm_action_dim py_int e = Err ValueError).
Proof. exact C201_icm_lemma. Qed.
Print Assumptions C201_icm.

(** C202. What is set on a builder later does not change the name and the optimizer of an experiment that was built; an experiment built from a copy
    is not changed by anything that is set on the original, and the other way round. *)
Theorem C202_copy : forall (F N : Type) (ops : list (rop F N)) (b : rbld N) (h : list (cbs F)),
  r_cb b < length h ->
  (snd (fst (seen b (snd (fold_left rstep ops (b, h))))) = r_name b /\ snd (seen b (snd (fold_left rstep ops (b, h)))) = r_optim b) /\
  (let '(b', h') := rcopy (b, h) in
   seen b' h' = seen b h /\ seen b' (snd (fold_left rstep ops (b, h'))) = seen b h /\ seen b (snd (fold_left rstep ops (b', h'))) = seen b h).
Proof. exact C202_copy_lemma. Qed.
Print Assumptions C202_copy.

(** C202. Refuted for the callbacks: one that is set on the builder later is used by every experiment that was built before. *)
Theorem C202_callbacks_refuted : forall (F N : Type) (ops : list (rop F N)) (b : rbld N) (h : list (cbs F)),
  r_cb b < length h ->
  let later := latest (fun o : rop F N => match o with RTrain f => Some f | _ => None end) ops in
  k_train (fst (fst (seen b (snd (fold_left rstep ops (b, h)))))) = match later with Some f => Some f | None => k_train (fst (fst (seen b h))) end.
Proof. exact C202_callbacks_refuted_lemma. Qed.
Print Assumptions C202_callbacks_refuted.

(** C193. The environments have the type of the action space and the shapes of both spaces, the number of actions or observations for discrete
    ones; building continuous environments on any other action space fails. *)
Theorem C193_envs : forall (o : nat) (os : list nat) (a : nat) (l : list nat) (m n : nat) (obs : space),
  envs_of (Box (o :: os)) (Box (a :: l)) = Ok (mkEnvs ECont (STuple (o :: os)) (STuple (a :: l)))
  /\ envs_of (Box (o :: os)) (Discrete n) = Ok (mkEnvs EDisc (STuple (o :: os)) (SInt n))
  /\ envs_of (Discrete m) (Discrete n) = Ok (mkEnvs EDisc (SInt m) (SInt n))
  /\ envs_of (Discrete (S m)) (Box (a :: l)) = Ok (mkEnvs ECont (SInt (S m)) (STuple (a :: l)))
  /\ is_ok (envs_of obs (OtherSpace l)) = false
  /\ cont_envs obs (Discrete n) = Err ValueError /\ cont_envs obs (OtherSpace l) = Err ValueError.
Proof. exact C193_envs_lemma. Qed.
Print Assumptions C193_envs.

(** C196. The default factory makes the actor that the agent asked for: a Gaussian one, with the given bound and with a network for the scale if
    that is to depend on the observation, a deterministic one, or in discrete environments one with or without softmax as asked. *)
Theorem C196_kind : forall (Md : Type) (relu : Md) (t : catype) (hidden : list nat) (a : Md) (u c sm : bool) (e : envs) (s s' : @st Md) (m : @amod Md),
  create_actor relu (FDefault t hidden a u c sm) e s = Ok (m, s') ->
  match e_type e, t with
  | ECont, Gaussian => exists p mu sg, m = AProb p mu sg u /\ (sg = None <-> c = false)
  | ECont, Deterministic => exists p l, m = ADet p l
  | ECont, Unsupported => False
  | EDisc, _ => exists p l, m = ADisc p l sm end.
Proof. exact C196_kind_lemma. Qed.
Print Assumptions C196_kind.

(** Activations 0 (ReLU), 1 (tanh), 2; an environment with three observed numbers and two continuous actions, and one with four and three actions. *)
Definition ec : envs := mkEnvs ECont (STuple [3]) (STuple [2]).
Definition ed : envs := mkEnvs EDisc (STuple [4]) (SInt 3).
Definition s00 : @st nat := mkSt 0 [None].
Example C193_ex : exists m s', create_actor 0 (FDefault Gaussian [8; 6] 2 false true true) ec s00 = Ok (m, s')
  /\ t_layers (pre_of m) = [Linear KLinear 3 8; Act 2 None; Linear KLinear 8 6; Act 2 None]
  /\ exists m2 s2, create_actor 0 (FDefault Gaussian [8; 6] 2 false true true) ed s00 = Ok (m2, s2)
  /\ t_layers (pre_of m2) = [Linear KLinear 4 64; Act 0 None; Linear KLinear 64 64; Act 0 None].
Proof. eexists _, _. split; [vm_compute; reflexivity|]. split; [vm_compute; reflexivity|]. eexists _, _. split; vm_compute; reflexivity. Qed.
Example C194_ex : exists p s', create_policy 0 1 DDPG (FDet [8] 2) (CDefault [5] 2) (CDefault [5] 2) [] ec s00 = Ok (p, s')
  /\ actor_size (l_actor p) 3 = Ok 2 /\ exists c, l_critics p = [c] /\ critic_size c 3 (Some 2) = Ok 1 /\ critic_size c 3 None = Err RuntimeError.
Proof. eexists _, _. split; [vm_compute; reflexivity|]. split; [reflexivity|]. eexists. split; [reflexivity|]. split; reflexivity. Qed.
(** A builder whose first critic uses the actor and whose second does not. *)
Definition b0 : @bld nat := fold_left bstep [WCommonDefault [5] 2; WActorDefault [8] 2 false false; WCriticUseActor 0] (mkBld Gaussian 0 None (repeat None 2)).
Example C195_ex : own_future 0 b0 /\ proper_actor b0 /\ exists p s' c c', run 0 1 Dual [] ec (build 0 b0) s00 = Ok (p, s') /\ l_critics p = [c; c']
  /\ pre_c c = pre_of (l_actor p) /\ ids (parts_a (l_actor p)) = [0; 1] /\ ids (parts_c c) = [0; 2] /\ ids (parts_c c') = [3; 4].
Proof.
  split; [|split].
  - intros [|[|[|i]]] fut H; vm_compute in H; try discriminate H. injection H as <-. reflexivity.
  - split; exact Logic.I.
  - eexists _, _, _, _. split; [vm_compute; reflexivity|]. split; [reflexivity|]. split; [reflexivity|]. split; [reflexivity|]. split; reflexivity.
Qed.
Example C195_copy_ex : let b' := fst (copy_builder b0 s00) in b_fut b' = 1 /\ get_critic_factory 0 b' 0 = CReuse 1
  /\ match run 0 1 Dual [] ec (build 0 b') (snd (copy_builder b0 s00)) with Ok (p, s') => get_fut s' 0 = None /\ get_fut s' 1 = Some (l_actor p) | Err _ => False end.
Proof. split; [reflexivity|]. split; [reflexivity|]. vm_compute. split; reflexivity. Qed.
Example C195_pickle_ex : run 0 1 DDPG [] ec (fst (reload (build 0 b0) s00)) (snd (reload (build 0 b0) s00)) = Err ValueError
  /\ match run 0 1 DDPG [] ec (build 0 b0) s00 with
     | Ok (_, s1) => match run 0 1 DDPG [] ec (fst (reload (build 0 b0) s1)) (snd (reload (build 0 b0) s1)) with
                     | Ok (p, _) => map (fun c => t_id (pre_c c)) (l_critics p) = [3] /\ t_id (pre_of (l_actor p)) = 6 | Err _ => False end
     | Err _ => False end.
Proof. split; [vm_compute; reflexivity|]. vm_compute. split; reflexivity. Qed.
(** In place of the exponential function: x + 1, positive and increasing on the numbers at hand. *)
Definition ex0 (x : Qc) : Qc := (x + 1)%Qc.
Definition q0 (z : Z) : Qc := Q2Qc (inject_Z z).
Example C196_ex : map this (softmax ex0 [q0 0; q0 9]) = [1 # 11; 10 # 11]%Q
  /\ categorical ex0 DProbs (disc_out ex0 true [q0 0; q0 9]) = softmax ex0 [q0 0; q0 9]
  /\ map this (dsac_probs ex0 true [q0 0; q0 9]) = [4 # 11; 7 # 11]%Q
  /\ dsac_probs ex0 false [q0 0; q0 9] = softmax ex0 [q0 0; q0 9].
Proof.
  split; [vm_compute; reflexivity|]. split; [|split; [vm_compute; reflexivity | reflexivity]].
  vm_compute. repeat f_equal; apply Eqdep_dec.UIP_dec; decide equality; try apply Pos.eq_dec; apply Z.eq_dec.
Qed.
Example C196_dsac_ex : match run 0 1 Dual [] ed (build 0 (fold_left bstep [WActorDefault [8] 2 false false] (mkBld Unsupported 0 None (repeat None 2)))) s00 with
  | Ok (p, _) => match l_actor p with ADisc _ _ sm => sm = true | _ => False end | Err _ => False end.
Proof. vm_compute. reflexivity. Qed.
Example C197_ex : create_policy 0 1 (REDQ 10) (FDefault Gaussian [8] 2 true true true) (CDefault [5] 2) (CDefault [5] 2) [4] ed s00 = Err AssertionError
  /\ is_ok (create_policy 0 1 (REDQ 10) (FDefault Gaussian [8] 2 true true true) (CDefault [5] 2) (CDefault [5] 2) [4] ec s00) = true
  /\ create_policy 0 1 PG (FDet [8] 2) (CDefault [5] 2) (CDefault [5] 2) [] ec s00 = Err AssertionError
  /\ intermediate 0 (FDefault Unsupported [8] 2 true true false) ec s00 = Err ValueError.
Proof. repeat split; vm_compute; reflexivity. Qed.
Example C198_ex : match create_policy 0 1 DDPG (FStore (FDet [8] 2) 0) (CDefault [5] 2) (CDefault [5] 2) [] ec s00 with Ok (p, _) => l_optims p = [[0; 1]; [2; 3]] | Err _ => False end
  /\ match create_policy 0 1 DDPG (FStore (FDet [8] 2) 0) (CReuse 0) (CDefault [5] 2) [] ec s00 with Ok (p, _) => l_optims p = [[0; 1]; [0; 2]] | Err _ => False end
  /\ match create_policy 0 1 ActorCriticK (FStore (FGauss [8] false false 2) 0) (CReuse 0) (CDefault [5] 2) [] ec s00 with
     | Ok (p, _) => l_optims p = [[0; 1; 2]]
         /\ map (critic_steps (concat (l_optims p)) (concat (map (fun c => ids (parts_c c)) (l_critics p))) [fun _ v => v + 1; fun _ v => v * 2] (fun _ => 10)) [0; 1; 2] = [22; 10; 22]
     | Err _ => False end.
Proof. vm_compute. repeat split; reflexivity. Qed.
Example C199_ex : match create_actor 0 (FGauss [8; 6] false true 2) ec s00 with Ok (m, _) => map inits (parts_a m) = [[Orth; Orth]; [Scaled]; [Orth]] | Err _ => False end
  /\ match create_ensemble 0 1 [8] ec 10 true s00 with Ok (c, _) => map inits (parts_c c) = [[Default]; [Default]] | Err _ => False end
  /\ match create_critic 0 (CDefault [8] 2) ec true false s00 with Ok (c, _) => map inits (parts_c c) = [[Orth]; [Orth]] | Err _ => False end.
Proof. vm_compute. repeat split; reflexivity. Qed.
Example C200_ex : latest (sets_critic 0 2 1) [WCriticUseActor 1; WCommonDefault [5] 2; WCritic 0 (CContNet [7] 2); WCritic 5 (CContNet [9] 2)] = Some (CDefault [5] 2)
  /\ get_critic_factory 0 b0 0 = CReuse 0 /\ get_critic_factory 0 b0 1 = CDefault [5] 2 /\ get_actor_factory 0 b0 = FStore (FDefault Gaussian [8] 2 false false true) 0.
Proof. repeat split; reflexivity. Qed.
Example C201_unknown_ex : exists p s', create_actor 0 (FOther [8]) ed s00 = Ok (AOther p, s') /\ iqn_sizes 0 (FOther [8]) [16] ed s00 = Err AssertionError.
Proof. eexists _, _. split; reflexivity. Qed.
Example C201_ex : match iqn_sizes 0 (FDefault Unsupported [8] 2 false false false) [16] ed s00 with
  | Ok (m, l, _) => actor_size m 4 = Ok 3 /\ layers_size 3 (m_layers l) = Ok 3 | Err _ => False end
  /\ exists e, envs_of (Box [4]) (Discrete 3) = Ok e /\ icm_action_dim true e = Ok 3 /\ icm_action_dim false e = Err ValueError.
Proof. split; [vm_compute; split; reflexivity|]. eexists. split; [vm_compute; reflexivity|]. split; reflexivity. Qed.
Example C202_ex : let b := mkR 0 10 None in let h := [mkCbs (Some 1) None None] in
  seen b (snd (fold_left rstep [RTrain 2; RName 11; ROptim 12] (b, h))) = (mkCbs (Some 2) None None, 10, None)
  /\ (let '(b', h') := rcopy (b, h) in seen b' (snd (fold_left rstep [RTrain 2; RStop 3] (b, h'))) = (mkCbs (Some 1) None None, 10, None)).
Proof. split; reflexivity. Qed.
Example C193_envs_ex : envs_of (Box [4; 2]) (Box [3]) = Ok (mkEnvs ECont (STuple [4; 2]) (STuple [3])) /\ envs_of (Box []) (Discrete 2) = Err AttributeError.
Proof. split; reflexivity. Qed.
Example C196_kind_ex : match create_actor 0 (FDefault Gaussian [8] 2 true true true) ec s00 with Ok (AProb _ _ (Some _) true, _) => True | _ => False end
  /\ match create_actor 0 (FDefault Deterministic [8] 2 true true true) ec s00 with Ok (ADet _ _, _) => True | _ => False end.
Proof. vm_compute. split; exact Logic.I. Qed.
