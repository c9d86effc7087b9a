(** * Model of the factories of the high-level interface: highlevel/module/{core, actor, critic, intermediate, special, module_opt}.py,
      highlevel/params/dist_fn.py, the agent factories of highlevel/agent.py and the builders of highlevel/experiment.py

    A module is described by its layers and their sizes (NetModel.v), by how its linear layers were initialised and by the identity of its
    parts; the parts are what optimizers and modules share. Devices are left out. *)
From Verif Require Export Py Num NetModel.
Open Scope nat_scope.

(** ** Environments *)
(** A space with its shape; every space has a [shape], only [Discrete] has [n]. *)
Inductive space := Discrete (n : nat) | Box (shape : list nat) | OtherSpace (shape : list nat).
(** [space.shape or space.n], as in env.py:254, 282-283. *)
Definition shape_or_n (s : space) : res sshape :=
  match s with
  | Discrete n => Ok (SInt n)
  | Box [] | OtherSpace [] => Err AttributeError
  | Box l | OtherSpace l => Ok (STuple l) end.
Inductive etype := ECont | EDisc.
Definition is_cont (t : etype) : bool := match t with ECont => true | EDisc => false end.
(** env.py:48-55 [EnvType.from_env]; [Exception] is written as a RuntimeError. *)
Definition type_of (act : space) : res etype :=
  match act with Discrete _ => Ok EDisc | Box _ => Ok ECont | OtherSpace _ => Err RuntimeError end.
Record envs := mkEnvs { e_type : etype; e_obs : sshape; e_act : sshape }.
(** env.py:201-209, 245-259 [ContinuousEnvironments]; the value of [max_action] is not used by the factories. *)
Definition cont_envs (obs act : space) : res envs :=
  match act with
  | Box l =>
      let* o := shape_or_n obs in
      guard (match o with SInt 0 => false | _ => true end) ValueError
        (match l with [] => Err IndexError | _ => Ok (mkEnvs ECont o (STuple l)) end)
  | _ => Err ValueError end.
(** env.py:274-283 [DiscreteEnvironments]. *)
Definition disc_envs (obs act : space) : res envs :=
  let* o := shape_or_n obs in let* a := shape_or_n act in Ok (mkEnvs EDisc o a).
(** env.py:404-414 [EnvFactory.create_envs]: the type is that of the action space. *)
Definition envs_of (obs act : space) : res envs :=
  let* t := type_of act in match t with ECont => cont_envs obs act | EDisc => disc_envs obs act end.
(** env.py:40-46. *)
Definition assert_type (want have : etype) : res unit := guard (Bool.eqb (is_cont want) (is_cont have)) AssertionError (Ok tt).

(** ** Modules *)
Inductive lkind := KLinear | KEnsemble (n : nat).
(** How a linear layer was initialised: by torch's default, orthogonally with zero bias, or so and then scaled by 0.01. *)
Inductive ini := Default | Orth | Scaled.
Definition is_linear {Md A} (l : layer Md A lkind) : option lkind := match l with Linear k _ _ => Some k | _ => None end.
Fixpoint lin_kinds {Md A} (l : list (layer Md A lkind)) : list lkind :=
  match l with [] => [] | x :: l => match is_linear x with Some k => k :: lin_kinds l | None => lin_kinds l end end.

Section Fact.
(** [Md]: activation classes. *)
Context {Md : Type}.
Variable relu tanh : Md.
Notation lyr := (layer Md unit lkind).

(** One part of a module (a [Net] or an [MLP]): identity, layers, sizes of input and output, initialisation of the linear layers. *)
Record part := mkPart { t_id : nat; t_layers : list lyr; t_in : nat; t_out : nat; t_ini : list (lkind * ini) }.
Inductive amod :=
| ADet (p l : part)                                  (* continuous.Actor *)
| AProb (p mu : part) (sg : option part) (unb : bool) (* continuous.ActorProb; without [sg]: a parameter, set to -0.5 *)
| ADisc (p l : part) (sm : bool)                     (* discrete.Actor *)
| AOther (p : part).                                 (* a module that is no [BaseActor] *)
Definition pre_of (a : amod) : part := match a with ADet p _ | AProb p _ _ _ | ADisc p _ _ | AOther p => p end.
Definition parts_a (a : amod) : list part :=
  match a with ADet p l | ADisc p l _ => [p; l] | AProb p m None _ => [p; m] | AProb p m (Some s) _ => [p; m; s] | AOther p => [p] end.
Inductive cmod := CCont (p l : part) (obs_only : bool) | CDisc (p l : part).
Definition parts_c (c : cmod) : list part := match c with CCont p l _ | CDisc p l => [p; l] end.

(** The objects in memory: a counter for identities and the [ActorFuture]s, by address. *)
Record st := mkSt { s_next : nat; s_futs : list (option amod) }.
Definition fresh (s : st) : nat * st := (s_next s, mkSt (S (s_next s)) (s_futs s)).
Definition get_fut (s : st) (a : nat) : option amod := nth a (s_futs s) None.
Definition set_fut (s : st) (a : nat) (m : amod) : st := mkSt (s_next s) (upd (s_futs s) a (Some m)).

Definition raw (ls : list lyr) : list (lkind * ini) := map (fun k => (k, Default)) (lin_kinds ls).
(** [Net(state_shape, action_shape, hidden_sizes, activation, concat, linear_layer)]; the other arguments have their defaults. *)
Definition mk_net (k : lkind) (obs act : list nat) (hidden : list nat) (a : Md) (concat : bool) (s : st) : res (part * st) :=
  let* n := net_init KLinear k obs act hidden LNone GNone (LOne a) (GNone : args unit) concat 1 None in
  let '(i, s) := fresh s in
  Ok (mkPart i (m_layers (n_model n)) (n_in n) (n_out n) (raw (m_layers (n_model n))), s).
(** [MLP(input_dim, output_dim, ())]: one linear layer (none if the output has size 0). *)
Definition mk_mlp (k : lkind) (i o : nat) (s : st) : res (part * st) :=
  let* m := mlp_init k i o [] LNone GNone (LOne relu) (GNone : args unit) true in
  let '(d, s) := fresh s in
  Ok (mkPart d (m_layers m) i (m_out m) (raw (m_layers m)), s).

(** core.py:12-20 [init_linear_orthogonal]: only instances of [nn.Linear]. *)
Definition orth1 (x : lkind * ini) : lkind * ini := match fst x with KLinear => (KLinear, Orth) | k => (k, snd x) end.
Definition orth (p : part) : part := mkPart (t_id p) (t_layers p) (t_in p) (t_out p) (map orth1 (t_ini p)).
(** actor.py:94-96. *)
Definition scale1 (x : lkind * ini) : lkind * ini := match x with (KLinear, Orth) => (KLinear, Scaled) | _ => x end.
Definition scale (p : part) : part := mkPart (t_id p) (t_layers p) (t_in p) (t_out p) (map scale1 (t_ini p)).
(** actor.py:82-96 [_init_linear], for the actors with [mu]. *)
Definition init_actor (a : amod) : amod :=
  match a with
  | AProb p m sg u => AProb (orth p) (scale (orth m)) (option_map orth sg) u
  | ADet p l => ADet (orth p) (orth l) | ADisc p l sm => ADisc (orth p) (orth l) sm | AOther p => AOther (orth p) end.

(** ** Factories of actors *)
Inductive catype := Gaussian | Deterministic | Unsupported.
Inductive afact :=
| FDefault (t : catype) (hidden : list nat) (act : Md) (unb cond sm : bool)
| FDet (hidden : list nat) (act : Md)
| FGauss (hidden : list nat) (unb cond : bool) (act : Md)
| FDisc (hidden : list nat) (sm : bool) (act : Md)
| FStore (f : afact) (fut : nat)
| FOther (hidden : list nat).                        (* a user's factory whose module is no [BaseActor] *)
(** [ActorFactoryDefault.DEFAULT_HIDDEN_SIZES]. *)
Definition default_hidden : list nat := [64; 64].
(** actor.py:120-148 [_create_factory]. *)
Definition pick_factory (t : catype) (hidden : list nat) (act : Md) (unb cond sm : bool) (e : etype) : res afact :=
  match e with
  | ECont =>
      match t with
      | Gaussian => Ok (FGauss hidden unb cond act)
      | Deterministic => Ok (FDet hidden act)
      | Unsupported => Err ValueError end
  | EDisc => Ok (FDisc default_hidden sm relu) end.
(** actor.py:168-180, 206-226, 243-256, for the factories that build a network. *)
Definition build_actor (f : afact) (e : envs) (s : st) : res (amod * st) :=
  match f with
  | FDet hidden act =>
      let* x := mk_net KLinear (sdims (e_obs e)) [0] hidden act false s in let '(p, s) := x in
      let* y := mk_mlp KLinear (t_out p) (prod (sdims (e_act e))) s in let '(l, s) := y in
      Ok (ADet p l, s)
  | FGauss hidden unb cond act =>
      let* x := mk_net KLinear (sdims (e_obs e)) [0] hidden act false s in let '(p, s) := x in
      let* y := mk_mlp KLinear (t_out p) (prod (sdims (e_act e))) s in let '(m, s) := y in
      let* z := (if cond then let* w := mk_mlp KLinear (t_out p) (prod (sdims (e_act e))) s in Ok (Some (fst w), snd w) else Ok (None, s)) in
      Ok (init_actor (AProb p m (fst z) unb), snd z)
  | FDisc hidden sm act =>
      let* x := mk_net KLinear (sdims (e_obs e)) [0] hidden act false s in let '(p, s) := x in
      let* y := mk_mlp KLinear (t_out p) (prod (sdims (e_act e))) s in let '(l, s) := y in
      Ok (ADisc p l sm, s)
  | _ =>
      let hidden := match f with FOther h => h | _ => [] end in
      let* x := mk_net KLinear (sdims (e_obs e)) [0] hidden relu false s in let '(p, s) := x in Ok (AOther p, s)
  end.
(** actor.py:150-152, 283-286 [create_module]. *)
Fixpoint create_actor (f : afact) (e : envs) (s : st) : res (amod * st) :=
  match f with
  | FDefault t h a u c sm => let* g := pick_factory t h a u c sm (e_type e) in build_actor g e s
  | FStore f a => let* x := create_actor f e s in let '(m, s) := x in Ok (m, set_fut s a m)
  | _ => build_actor f e s end.

(** What an actor's output is taken for: probabilities, logits, or location and scale. *)
Inductive dist := DProbs | DLogits | DGauss.
(** actor.py:154-156, 182-183, 228-229, 258-261, 288-289 with dist_fn.py:22-57 [create_dist_fn]; a user's factory returns None. *)
Definition base_dist (f : afact) (e : etype) : res (option dist) :=
  match f with
  | FGauss _ _ _ _ => let* _ := assert_type ECont e in Ok (Some DGauss)
  | FDisc _ sm _ => let* _ := assert_type EDisc e in Ok (Some (if sm then DProbs else DLogits))
  | _ => Ok None end.
Fixpoint create_dist (f : afact) (e : etype) : res (option dist) :=
  match f with
  | FDefault t h a u c sm => let* g := pick_factory t h a u c sm e in base_dist g e
  | FStore f _ => create_dist f e
  | _ => base_dist f e end.

(** ** Factories of critics *)
Inductive cfact := CDefault (hidden : list nat) (act : Md) | CContNet (hidden : list nat) (act : Md) | CDiscNet (hidden : list nat) (act : Md) | CReuse (fut : nat).
(** critic.py:114-132, 140-161. *)
Definition cont_critic (hidden : list nat) (act : Md) (e : envs) (use_action : bool) (s : st) : res (cmod * st) :=
  let* x := mk_net KLinear (sdims (e_obs e)) (if use_action then sdims (e_act e) else [0]) hidden act use_action s in let '(p, s) := x in
  let* y := mk_mlp KLinear (t_out p) 1 s in let '(l, s) := y in
  Ok (CCont (orth p) (orth l) false, s).
Definition last_size (use_action_shape : bool) (e : envs) : nat := if use_action_shape then prod (sdims (e_act e)) else 1.
Definition disc_critic (hidden : list nat) (act : Md) (e : envs) (use_action uas : bool) (s : st) : res (cmod * st) :=
  let* x := mk_net KLinear (sdims (e_obs e)) (if use_action then sdims (e_act e) else [0]) hidden act use_action s in let '(p, s) := x in
  let* y := mk_mlp KLinear (t_out p) (last_size uas e) s in let '(l, s) := y in
  Ok (CDisc (orth p) (orth l), s).
(** critic.py:183-212 [CriticFactoryReuseActor.create_module]; [isinstance(actor, BaseActor)] fails for None and for other modules. *)
Definition reuse_critic (fut : nat) (e : envs) (uas : bool) (s : st) : res (cmod * st) :=
  match get_fut s fut with
  | None | Some (AOther _) => Err ValueError
  | Some a =>
      let p := pre_of a in
      match e_type e with
      | EDisc => let* y := mk_mlp KLinear (t_out p) (last_size uas e) s in let '(l, s) := y in Ok (CDisc p l, s)
      | ECont => let* y := mk_mlp KLinear (t_out p) 1 s in let '(l, s) := y in Ok (CCont p l true, s) end
  end.
(** critic.py:79-106 and the factories above. *)
Definition create_critic (f : cfact) (e : envs) (use_action uas : bool) (s : st) : res (cmod * st) :=
  match f with
  | CContNet h a => cont_critic h a e use_action s
  | CDiscNet h a => disc_critic h a e use_action uas s
  | CDefault h a => match e_type e with ECont => cont_critic h a e use_action s | EDisc => disc_critic h a e use_action uas s end
  | CReuse fut => reuse_critic fut e uas s end.
(** critic.py:248-269, 276-303 [CriticEnsembleFactoryDefault]. *)
Definition create_ensemble (hidden : list nat) (e : envs) (n : nat) (use_action : bool) (s : st) : res (cmod * st) :=
  match e_type e with
  | EDisc => Err NotImplementedError
  | ECont =>
      let* x := mk_net (KEnsemble n) (sdims (e_obs e)) (if use_action then sdims (e_act e) else [0]) hidden tanh use_action s in let '(p, s) := x in
      let* y := mk_mlp (KEnsemble n) (t_out p) 1 s in let '(l, s) := y in
      Ok (CCont (orth p) (orth l) false, s) end.

(** The sizes through a critic (continuous.py:154-178, discrete.py:117-121): the size of the observation, of the action if one is passed.
    The discrete critic takes no second positional argument. *)
Definition critic_size (c : cmod) (obs : nat) (act : option nat) : res nat :=
  match c with
  | CCont p l obs_only =>
      let* x := if obs_only then layers_size obs (t_layers p) else Ok obs in
      let x := x + match act with Some a => a | None => 0 end in
      let* x := if obs_only then Ok x else layers_size x (t_layers p) in
      layers_size x (t_layers l)
  | CDisc p l =>
      match act with
      | Some _ => Err TypeError
      | None => let* x := layers_size obs (t_layers p) in layers_size x (t_layers l) end
  end.
Definition actor_size (a : amod) (obs : nat) : res nat :=
  match a with
  | ADet p l | ADisc p l _ => let* x := layers_size obs (t_layers p) in layers_size x (t_layers l)
  | AProb p m sg _ =>
      let* x := layers_size obs (t_layers p) in
      let* y := layers_size x (t_layers m) in
      match sg with None => Ok y | Some g => let* z := layers_size x (t_layers g) in guard (z =? y) RuntimeError (Ok y) end
  | AOther p => layers_size obs (t_layers p) end.

(** ** Agent factories: what is handed to the policy *)
(** [l_optims]: the parts whose parameters each optimizer was given. *)
Record pol := mkPol { l_actor : amod; l_dist : option dist; l_critics : list cmod; l_optims : list (list nat) }.
Definition ids (l : list part) : list nat := map t_id l.
(** [ActorCritic(actor, critic).parameters()] yields a shared part once. *)
Definition union_ids (a b : list nat) : list nat := a ++ filter (fun x => negb (existsb (Nat.eqb x) a)) b.

Inductive akind := PG | ActorCriticK | DDPG | REDQ (ensemble : nat) | Dual.
(** agent.py:272-296 (PG), 323-351 (A2C, PPO, NPG, TRPO), 447-478 (DDPG), 496-530 (REDQ), 561-612 (SAC, DiscreteSAC, TD3). The policies
    other than PG, A2C, PPO, NPG, TRPO get no distribution function. For REDQ the first critic factory is the list of hidden sizes of the
    ensemble. *)
Definition create_policy (k : akind) (af : afact) (c1 c2 : cfact) (ens : list nat) (e : envs) (s : st) : res (pol * st) :=
  match k with
  | PG =>
      let* x := create_actor af e s in let '(a, s) := x in
      let* d := create_dist af (e_type e) in
      match d with None => Err AssertionError | Some d => Ok (mkPol a (Some d) [] [ids (parts_a a)], s) end
  | ActorCriticK =>
      let* x := create_actor af e s in let '(a, s) := x in
      let* y := create_critic c1 e false false s in let '(c, s) := y in
      let* d := create_dist af (e_type e) in
      Ok (mkPol a d [c] [union_ids (ids (parts_a a)) (ids (parts_c c))], s)
  | DDPG =>
      let* x := create_actor af e s in let '(a, s) := x in
      let* y := create_critic c1 e true false s in let '(c, s) := y in
      Ok (mkPol a None [c] [ids (parts_a a); ids (parts_c c)], s)
  | REDQ n =>
      let* _ := assert_type ECont (e_type e) in
      let* x := create_actor af e s in let '(a, s) := x in
      let* y := create_ensemble ens e n true s in let '(c, s) := y in
      Ok (mkPol a None [c] [ids (parts_a a); ids (parts_c c)], s)
  | Dual =>
      let* x := create_actor af e s in let '(a, s) := x in
      let ua := is_cont (e_type e) in
      let* y := create_critic c1 e ua true s in let '(c, s) := y in
      let* z := create_critic c2 e ua true s in let '(c', s) := z in
      Ok (mkPol a None [c; c'] [ids (parts_a a); ids (parts_c c); ids (parts_c c')], s)
  end.

(** agent.py:399-419 with intermediate.py and actor.py:296-299: the model of DQN and the preprocessing network of IQN. *)
Definition intermediate (f : afact) (e : envs) (s : st) : res (amod * nat * st) :=
  let* x := create_actor f e s in let '(a, s) := x in
  match a with AOther _ => Err AssertionError | _ => Ok (a, prod (sdims (e_act e)), s) end.
(** special.py:22-31: the sizes of [ImplicitQuantileNetwork]; its embedding has the width of the preprocessing network's output. *)
Definition iqn_sizes (f : afact) (hidden : list nat) (e : envs) (s : st) : res (amod * mlp Md unit lkind * st) :=
  let* x := intermediate f e s in let '(a, d, s) := x in
  let* l := mlp_init KLinear d (prod (sdims (e_act e))) hidden LNone GNone (LOne relu) (GNone : args unit) true in
  Ok (a, l, s).
(** policy_wrapper.py:49-77: [isinstance(action_dim, int)]; [py_int]: whether the [n] of a discrete space is an instance of [int]. *)
Definition icm_action_dim (py_int : bool) (e : envs) : res nat :=
  match e_act e with SInt n => guard py_int ValueError (Ok n) | _ => Err ValueError end.

(** ** Builders *)
Inductive bop :=
| WActor (f : afact)                                       (* with_actor_factory *)
| WActorDefault (hidden : list nat) (act : Md) (unb cond : bool)
| WCritic (i : nat) (f : cfact)                            (* with_critic[i]_factory *)
| WCriticDefault (i : nat) (hidden : list nat) (act : Md)
| WCriticUseActor (i : nat)
| WCommon (f : cfact) | WCommonDefault (hidden : list nat) (act : Md) | WCommonUseActor.
(** experiment.py:696-700, 826-829: [b_fut] is the address of the builder's [ActorFuture]. *)
Record bld := mkBld { b_type : catype; b_fut : nat; b_actor : option afact; b_critics : list (option cfact) }.
(** experiment.py:702-735, 831-851, 902-931 (the [with_…] methods of the mixins). *)
Definition bstep (b : bld) (o : bop) : bld :=
  let seta f := mkBld (b_type b) (b_fut b) (Some f) (b_critics b) in
  let setc i f := mkBld (b_type b) (b_fut b) (b_actor b) (upd (b_critics b) i (Some f)) in
  let setall f := mkBld (b_type b) (b_fut b) (b_actor b) (map (fun _ => Some f) (b_critics b)) in
  match o with
  | WActor f => seta f
  | WActorDefault h a u c => seta (FDefault (b_type b) h a u c true)
  | WCritic i f => setc i f
  | WCriticDefault i h a => setc i (CDefault h a)
  | WCriticUseActor i => setc i (CReuse (b_fut b))
  | WCommon f => setall f
  | WCommonDefault h a => setall (CDefault h a)
  | WCommonUseActor => setall (CReuse (b_fut b)) end.
(** experiment.py:741-747, 853-858. *)
Definition get_actor_factory (b : bld) : afact :=
  FStore (match b_actor b with None => FDefault (b_type b) default_hidden relu false false true | Some f => f end) (b_fut b).
Definition get_critic_factory (b : bld) (i : nat) : cfact :=
  match nth i (b_critics b) None with None => CDefault default_hidden relu | Some f => f end.
Record exper := mkX { x_actor : afact; x_c1 : cfact; x_c2 : cfact }.
(** [_create_agent_factory] of the builders, without the parameters. *)
Definition build (b : bld) : exper := mkX (get_actor_factory b) (get_critic_factory b 0) (get_critic_factory b 1).

(** ** Copies *)
(** A copied object gets a new identity; here every part of an actor, counted from [n]. *)
Definition ren (n : nat) (p : part) : part := mkPart (n + t_id p) (t_layers p) (t_in p) (t_out p) (t_ini p).
Definition copy_actor (n : nat) (a : amod) : amod :=
  match a with
  | ADet p l => ADet (ren n p) (ren n l) | AProb p m sg u => AProb (ren n p) (ren n m) (option_map (ren n) sg) u
  | ADisc p l sm => ADisc (ren n p) (ren n l) sm | AOther p => AOther (ren n p) end.
(** All futures are copied at once (the memo of [deepcopy] and of [pickle] keeps sharing within one call): address [i] becomes [i + length]. *)
Definition copy_futs (s : st) : st := mkSt (s_next s + s_next s) (s_futs s ++ map (option_map (copy_actor (s_next s))) (s_futs s)).
Definition move_c (n : nat) (f : cfact) : cfact := match f with CReuse a => CReuse (n + a) | _ => f end.
(** experiment.py:525-526 [ExperimentBuilder.copy]; factories given by the user contain no futures. *)
Definition copy_builder (b : bld) (s : st) : bld * st :=
  let n := length (s_futs s) in
  (mkBld (b_type b) (n + b_fut b) (b_actor b) (map (option_map (move_c n)) (b_critics b)), copy_futs s).
(** actor.py:271-278: pickling (or [deepcopy]) drops the future of the decorator and makes a new one. *)
Definition reload_a (f : afact) (s : st) : afact * st :=
  match f with FStore g _ => (FStore g (length (s_futs s)), mkSt (s_next s) (s_futs s ++ [None])) | _ => (f, s) end.
(** experiment.py:239-245 [save] with [from_directory]; also what a launcher with processes does to an experiment. *)
Definition reload (x : exper) (s : st) : exper * st :=
  let n := length (s_futs s) in
  let '(f, s') := reload_a (x_actor x) (copy_futs s) in
  (mkX f (move_c n (x_c1 x)) (move_c n (x_c2 x)), s').
(** One run: agent.py as above, with the factories of the experiment. *)
Definition run (k : akind) (ens : list nat) (e : envs) (x : exper) (s : st) : res (pol * st) :=
  create_policy k (x_actor x) (x_c1 x) (x_c2 x) ens e s.
End Fact.

(** ** The distribution of a discrete actor *)
(** [Categorical(probs=p)] normalises, [Categorical(logits=l)] is a softmax. *)
Definition normalize (l : row) : row := map (fun x => (x / qsum l)%Qc) l.
Definition categorical (e : Qc -> Qc) (d : dist) (out : row) : row := match d with DProbs => normalize out | _ => softmax e out end.
(** [last]: the output of the actor's last linear layer (discrete.py:76-82). *)
Definition disc_out (e : Qc -> Qc) (sm : bool) (last : row) : row := if sm then softmax e last else last.
(** discrete_sac.py:108-109. *)
Definition dsac_probs (e : Qc -> Qc) (sm : bool) (last : row) : row := categorical e DLogits (disc_out e sm last).

(** ** Parameters under the critic's steps (npg.py:164-170, trpo.py:175-182) *)
(** [V]: values of a part's parameters. A part that does not enter the loss has no gradient and is left alone by the optimizer, even if it was
    given to it. *)
Definition critic_step {V} (given uses : list nat) (upd1 : nat -> V -> V) (w : nat -> V) : nat -> V :=
  fun i => if existsb (Nat.eqb i) given && existsb (Nat.eqb i) uses then upd1 i (w i) else w i.
Fixpoint critic_steps {V} (given uses : list nat) (us : list (nat -> V -> V)) (w : nat -> V) : nat -> V :=
  match us with [] => w | u :: us => critic_steps given uses us (critic_step given uses u w) end.

(** ** Experiments and their builder share objects *)
(** experiment.py:516-523, 592-632, 645-662: the callbacks are fields of one [TrainerCallbacks] object, at address [r_cb]; the name and the
    optimizer factory are replaced. *)
Record cbs (F : Type) := mkCbs { k_train : option F; k_test : option F; k_stop : option F }.
Arguments mkCbs {F}. Arguments k_train {F}. Arguments k_test {F}. Arguments k_stop {F}.
Record rbld (N : Type) := mkR { r_cb : nat; r_name : N; r_optim : option N }.
Arguments mkR {N}. Arguments r_cb {N}. Arguments r_name {N}. Arguments r_optim {N}.
Inductive rop (F N : Type) := RTrain (f : F) | RTest (f : F) | RStop (f : F) | RName (n : N) | ROptim (n : N).
Arguments RTrain {F N}. Arguments RTest {F N}. Arguments RStop {F N}. Arguments RName {F N}. Arguments ROptim {F N}.
Definition rstep {F N} (x : rbld N * list (cbs F)) (o : rop F N) : rbld N * list (cbs F) :=
  let '(b, h) := x in
  let c := nth (r_cb b) h (mkCbs None None None) in
  let put c := (b, upd h (r_cb b) c) in
  match o with
  | RTrain f => put (mkCbs (Some f) (k_test c) (k_stop c))
  | RTest f => put (mkCbs (k_train c) (Some f) (k_stop c))
  | RStop f => put (mkCbs (k_train c) (k_test c) (Some f))
  | RName n => (mkR (r_cb b) n (r_optim b), h)
  | ROptim n => (mkR (r_cb b) (r_name b) (Some n), h) end.
(** [copy]: a new object for the callbacks. *)
Definition rcopy {F N} (x : rbld N * list (cbs F)) : rbld N * list (cbs F) :=
  let '(b, h) := x in (mkR (length h) (r_name b) (r_optim b), h ++ [nth (r_cb b) h (mkCbs None None None)]).
(** [build]: the experiment refers to the same objects; what it looks like in memory [h]. *)
Definition seen {F N} (b : rbld N) (h : list (cbs F)) : cbs F * N * option N := (nth (r_cb b) h (mkCbs None None None), r_name b, r_optim b).
