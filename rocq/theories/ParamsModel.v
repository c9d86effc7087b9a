(** * High-level parameters and the construction of policies

    Modelled code (tianshou/):
    - highlevel/params/policy_params.py 24-636 (parameter classes, parameter transformers)
    - highlevel/params/{alpha,noise,env_param}.py (environment-dependent values)
    - highlevel/agent.py 259-628 (the calls which create policies)
    - the constructors of policy/base.py 191-246 and of the twelve algorithms in
      policy/modelfree/*.py which have an agent factory
    - the tuning of the entropy coefficient in sac.py 245-252, discrete_sac.py 166-172 and
      redq.py 212-218.

    Simplifications: networks, optimizers, spaces and distributions are opaque tokens; floats
    are exact rationals; a bounded box has the same upper bound [max_action] in its first
    entry ([action_space.high[0]]); the copy made by [dataclasses.asdict] is not modelled
    (no parameter class nests another dataclass); warnings are dropped. *)
From Coq Require Import String.
From Verif Require Import Py Num.
Import List.
Open Scope string_scope.
Open Scope list_scope.
Open Scope nat_scope.

(** ** Values of parameters and arguments *)

(** The optimizers which the factories create. *)
Inductive optid : Type := OOptim | OActor | OCritic1 | OCritic2.

(** A Python value as far as the modelled code looks at it.  [PLrFac f] is a factory of
    learning rate schedulers (labelled by [f]); [PSched o f] the scheduler it creates for the
    optimizer [o]; [PMulti] a MultipleLRSchedulers; [PAutoAlpha] an AutoAlphaFactoryDefault;
    [PAlpha t] the tuple (target_entropy = t, log_alpha, alpha_optim); [PNoiseFac]/[PValFac]
    the factories scaled by the maximum action; [PNoise] a GaussianNoise; [PTok] anything
    opaque. *)
Inductive pv : Type :=
| PNone
| PBool (b : bool)
| PInt (z : Z)
| PFloat (q : Qc)
| PStr (s : string)
| PTok (s : string)
| PLrFac (f : nat)
| PSched (o : optid) (f : nat)
| PMulti (l : list (optid * nat))
| PAutoAlpha
| PAlpha (target : Qc)
| PNoiseFac (fraction : Qc)
| PNoise (sigma : Qc)
| PValFac (scale : Qc).

(** Keyword arguments: Python dictionaries with string keys. *)
Definition dict := list (string * pv).

Fixpoint dget {A : Type} (k : string) (d : list (string * A)) : option A :=
  match d with
  | [] => None
  | (k', v) :: t => if String.eqb k k' then Some v else dget k t
  end.

(** [d[k]] *)
Definition ditem (k : string) (d : dict) : res pv :=
  match dget k d with Some v => Ok v | None => Err KeyError end.

(** [del d[k]] *)
Definition ddel (k : string) (d : dict) : res dict :=
  match dget k d with
  | Some _ => Ok (filter (fun kv => negb (String.eqb k (fst kv))) d)
  | None => Err KeyError
  end.

(** [d[k] = v] *)
Fixpoint dput (k : string) (v : pv) (d : dict) : dict :=
  match d with
  | [] => [(k, v)]
  | (k', v') :: t => if String.eqb k k' then (k', v) :: t else (k', v') :: dput k v t
  end.

(** ** Environments (env.py 106-321): what the transformers use of them. *)
Inductive envs : Type :=
| Continuous (shape : list nat) (max_action : Qc)
| Discrete (n : nat).

(** env.py 34-38, 267-268, 320-321 *)
Definition is_continuous (e : envs) : bool :=
  match e with Continuous _ _ => true | Discrete _ => false end.

(** [np.prod(envs.get_action_shape())] (env.py 257-262, 283, 314-315): the action shape of a
    discrete environment is [shape or n], that is the number [n] of actions. *)
Definition action_prod (e : envs) : Qc :=
  match e with
  | Continuous shape _ => Q2Qc (inject_Z (fold_right (fun a b => Z.of_nat a * b)%Z 1%Z shape))
  | Discrete n => Q2Qc (inject_Z (Z.of_nat n))
  end.

(** env.py 40-42 and the attribute [max_action] of the continuous class. *)
Definition max_action (e : envs) : res Qc :=
  match e with Continuous _ m => Ok m | Discrete _ => Err AssertionError end.

(** alpha.py 26-40 *)
Definition create_auto_alpha (e : envs) : pv := PAlpha (- action_prod e)%Qc.

(** noise.py 26-29 and exploration/random.py 23-26 *)
Definition create_noise (fraction : Qc) (e : envs) : res pv :=
  let* m := max_action e in
  let sigma := (m * fraction)%Qc in
  guard (Qcleb 0 sigma) AssertionError (Ok (PNoise sigma)).

(** env_param.py 28-30 *)
Definition create_value (scale : Qc) (e : envs) : res pv :=
  let* m := max_action e in Ok (PFloat (m * scale)%Qc).

(** ** Parameter transformers (policy_params.py 41-214) *)

Inductive transformer : Type :=
| TDrop (keys : list string)
| TLr (key_factory key : string)
| TMulti (l : list (optid * string)) (key : string)
| TAlpha (key : string)
| TNoise (key : string)
| TValue (key : string)
| TScaling (key : string).

Definition optid_eqb (a b : optid) : bool :=
  match a, b with
  | OOptim, OOptim | OActor, OActor | OCritic1, OCritic1 | OCritic2, OCritic2 => true
  | _, _ => false
  end.

(** [factory.create_scheduler(optim) if factory is not None else None]; a value which is not
    a factory has no such method. *)
Definition scheduler_of (o : optid) (v : pv) : res (option (optid * nat)) :=
  match v with
  | PNone => Ok None
  | PLrFac f => Ok (Some (o, f))
  | _ => Err AttributeError
  end.

(** policy_params.py 115-126: the loop of ParamTransformerMultiLRScheduler. *)
Fixpoint multi_loop (l : list (optid * string)) (d : dict) (acc : list (optid * nat))
  : res (dict * list (optid * nat)) :=
  match l with
  | [] => Ok (d, acc)
  | (o, k) :: t =>
    let* v := ditem k d in
    let* d' := ddel k d in
    let* s := scheduler_of o v in
    multi_loop t d' (match s with None => acc | Some x => acc ++ [x] end)
  end.

(** policy_params.py 128-134 *)
Definition join_schedulers (l : list (optid * nat)) : pv :=
  match l with
  | [] => PNone
  | [(o, f)] => PSched o f
  | _ => PMulti l
  end.

(** policy_params.py 188-191: the value of the key after ParamTransformerAutoAlpha (which
    leaves the dictionary alone if the value is not a factory). *)
Definition alpha_value (e : envs) (v : pv) : pv :=
  match v with PAutoAlpha => create_auto_alpha e | _ => v end.

(** policy_params.py 195-198 *)
Definition noise_value (e : envs) (v : pv) : res pv :=
  match v with PNoiseFac q => create_noise q e | _ => Ok v end.

(** policy_params.py 202-205 *)
Definition env_value (e : envs) (v : pv) : res pv :=
  match v with PValFac q => create_value q e | _ => Ok v end.

(** policy_params.py 209-213 *)
Definition scaling_value (e : envs) (v : pv) : pv :=
  match v with
  | PStr s => if String.eqb s "default" then PBool (is_continuous e) else v
  | _ => v
  end.

(** [transform data.envs t d] where [avail] lists the optimizers which are set in the
    ParamTransformerData (lines 24-38). *)
Definition transform (e : envs) (avail : list optid) (t : transformer) (d : dict) : res dict :=
  match t with
  | TDrop keys => foldM (fun d k => ddel k d) keys d
  | TLr kf k =>
    guard (existsb (optid_eqb OOptim) avail) AssertionError
      (let* v := ditem kf d in
       let* d' := ddel kf d in
       let* s := scheduler_of OOptim v in
       Ok (dput k (match s with None => PNone | Some (o, f) => PSched o f end) d'))
  | TMulti l k =>
    guard (forallb (fun ok => existsb (optid_eqb (fst ok)) avail) l) AssertionError
      (let* (d', s) := multi_loop l d [] in
       Ok (dput k (join_schedulers s) d'))
  | TAlpha k =>
    let* v := ditem k d in Ok (dput k (alpha_value e v) d)
  | TNoise k =>
    let* v := ditem k d in
    let* v' := noise_value e v in
    Ok (dput k v' d)
  | TValue k =>
    let* v := ditem k d in
    let* v' := env_value e v in
    Ok (dput k v' d)
  | TScaling k =>
    let* v := ditem k d in Ok (dput k (scaling_value e v) d)
  end.

(** ** The parameter classes *)

Inductive algo : Type :=
| PG | A2C | PPO | NPG | TRPO | DQN | IQN | DDPG | REDQ | SAC | DSAC | TD3.

Definition fields_lr := ["lr"; "lr_scheduler_factory"].                    (* 234-239 *)
Definition fields_actor_critic :=                                          (* 248-258 *)
  ["actor_lr"; "critic_lr"; "actor_lr_scheduler_factory"; "critic_lr_scheduler_factory"].
Definition fields_dual :=                                                  (* 430-444 *)
  ["actor_lr"; "critic1_lr"; "critic2_lr"; "actor_lr_scheduler_factory";
   "critic1_lr_scheduler_factory"; "critic2_lr_scheduler_factory"].
Definition fields_scaling := ["action_scaling"; "action_bound_method"].    (* 270-278 *)
Definition fields_noise := ["exploration_noise"].                          (* 283-290 *)
Definition fields_gae := ["gae_lambda"; "max_batchsize"].                  (* 324-333 *)
Definition fields_pg :=                                                    (* 297-322 *)
  fields_lr ++ fields_scaling ++ ["discount_factor"; "reward_normalization"; "deterministic_eval"].
Definition fields_a2c :=                                                   (* 339-352 *)
  fields_gae ++ fields_pg ++ ["vf_coef"; "ent_coef"; "max_grad_norm"].
Definition fields_npg :=                                                   (* 401-414 *)
  fields_gae ++ fields_pg ++ ["optim_critic_iters"; "actor_step_size"; "advantage_normalization"].
Definition fields_dqn :=                                                   (* 504-526 *)
  fields_lr ++ ["discount_factor"; "estimation_step"; "target_update_freq";
                "reward_normalization"; "is_double"; "clip_loss_grad"].
Definition fields_sac_base :=                                              (* 457-483 *)
  fields_dual ++ ["tau"; "gamma"; "alpha"; "estimation_step"].
Definition fields_ddpg :=                                                  (* 549-573 *)
  fields_scaling ++ fields_noise ++ fields_actor_critic ++ ["tau"; "gamma"; "estimation_step"].

(** The keys of [asdict(params)], in the order of [dataclasses.fields]. *)
Definition fields (a : algo) : list string :=
  match a with
  | PG => fields_pg
  | A2C => fields_a2c
  | PPO => fields_a2c ++ ["eps_clip"; "dual_clip"; "value_clip"; "advantage_normalization";
                          "recompute_advantage"]                           (* 354-399 *)
  | NPG => fields_npg
  | TRPO => fields_npg ++ ["max_kl"; "backtrack_coeff"; "max_backtracks"]  (* 416-428 *)
  | DQN => fields_dqn
  | IQN => fields_dqn ++ ["sample_size"; "online_sample_size"; "target_sample_size";
                          "num_quantiles"; "hidden_sizes"; "num_cosines"]  (* 528-547 *)
  | DDPG => fields_ddpg
  | REDQ => fields_ddpg ++ ["ensemble_size"; "subset_size"; "alpha"; "actor_delay";
                            "deterministic_eval"; "target_mode"]           (* 575-604 *)
  | SAC => fields_scaling ++ fields_noise ++ fields_sac_base ++ ["deterministic_eval"] (* 485-497 *)
  | DSAC => fields_sac_base                                                (* 499-501 *)
  | TD3 => fields_scaling ++ fields_noise ++ fields_dual                   (* 606-636 *)
           ++ ["tau"; "gamma"; "policy_noise"; "noise_clip"; "update_actor_freq"; "estimation_step"]
  end.

Definition t_lr := [TDrop ["lr"]; TLr "lr_scheduler_factory" "lr_scheduler"].      (* 241-245 *)
Definition t_actor_critic :=                                                       (* 260-268, 146-155 *)
  [TDrop ["actor_lr"; "critic_lr"];
   TMulti [(OActor, "actor_lr_scheduler_factory"); (OCritic1, "critic_lr_scheduler_factory")]
          "lr_scheduler"].
Definition t_dual :=                                                               (* 446-455, 171-181 *)
  [TDrop ["actor_lr"; "critic1_lr"; "critic2_lr"];
   TMulti [(OActor, "actor_lr_scheduler_factory"); (OCritic1, "critic1_lr_scheduler_factory");
           (OCritic2, "critic2_lr_scheduler_factory")] "lr_scheduler"].
Definition t_scaling := [TScaling "action_scaling"].                               (* 280-281 *)
Definition t_noise := [TNoise "exploration_noise"].                                (* 292-293 *)

(** The methods [_get_param_transformers]. *)
Definition transformers (a : algo) : list transformer :=
  match a with
  | PG | A2C | PPO | NPG | TRPO => t_scaling ++ t_lr
  | DQN => t_lr
  | IQN => t_lr ++ [TDrop ["hidden_sizes"; "num_cosines"]]
  | DDPG => t_actor_critic ++ t_noise ++ t_scaling
  | REDQ => t_actor_critic ++ t_noise ++ t_scaling ++ [TAlpha "alpha"]
  | SAC => t_dual ++ [TAlpha "alpha"] ++ t_noise ++ t_scaling
  | DSAC => t_dual ++ [TAlpha "alpha"]
  | TD3 => t_dual ++ t_noise ++ t_scaling ++ [TValue "policy_noise"; TValue "noise_clip"]
  end.

(** [asdict(params)] for the object whose attribute [k] is [p k]. *)
Definition asdict (a : algo) (p : string -> pv) : dict := map (fun k => (k, p k)) (fields a).

(** The optimizers which the agent factory puts into the ParamTransformerData
    (agent.py 273-296, 335-342, 391-400, 449-466, 500-517, 555-592). *)
Definition avail (a : algo) : list optid :=
  match a with
  | PG | A2C | PPO | NPG | TRPO | DQN | IQN => [OOptim]
  | DDPG | REDQ => [OActor; OCritic1]
  | SAC | DSAC | TD3 => [OActor; OCritic1; OCritic2]
  end.

(** policy_params.py 224-228 *)
Definition create_kwargs (a : algo) (e : envs) (p : string -> pv) : res dict :=
  foldM (fun d t => transform e (avail a) t d) (transformers a) (asdict a p).

(** ** Calls of the constructors *)

(** The arguments which the factory passes by name, beside the keyword dictionary. *)
Definition explicit (a : algo) : dict :=
  match a with
  | PG => [("actor", PTok "actor"); ("optim", PTok "actor.optim");
           ("action_space", PTok "action_space"); ("observation_space", PTok "observation_space");
           ("dist_fn", PTok "dist_fn")]                                     (* agent.py 288-296 *)
  | A2C | PPO | NPG | TRPO => []
  | DQN | IQN => [("model", PTok "model"); ("optim", PTok "model.optim");
                  ("action_space", PTok "action_space");
                  ("observation_space", PTok "observation_space")]          (* 410-416 *)
  | DDPG | REDQ => [("actor", PTok "actor"); ("actor_optim", PTok "actor.optim");
                    ("critic", PTok "critic1"); ("critic_optim", PTok "critic1.optim");
                    ("action_space", PTok "action_space");
                    ("observation_space", PTok "observation_space")]        (* 470-478, 521-529 *)
  | SAC | DSAC | TD3 => [("actor", PTok "actor"); ("actor_optim", PTok "actor.optim");
                         ("critic", PTok "critic1"); ("critic_optim", PTok "critic1.optim");
                         ("critic2", PTok "critic2"); ("critic2_optim", PTok "critic2.optim");
                         ("action_space", PTok "action_space");
                         ("observation_space", PTok "observation_space")]   (* 595-605 *)
  end.

(** agent.py 343-348: the entries added to the dictionary for the actor-critic algorithms. *)
Definition added (a : algo) : dict :=
  match a with
  | A2C | PPO | NPG | TRPO =>
    [("actor", PTok "actor"); ("critic", PTok "critic1"); ("optim", PTok "actor_critic.optim");
     ("action_space", PTok "action_space"); ("dist_fn", PTok "dist_fn")]
  | _ => []
  end.

Definition req (k : string) : string * option pv := (k, None).
Definition opt (k : string) (v : pv) : string * option pv := (k, Some v).
Definition flt (q : Q) : pv := PFloat (Q2Qc q).

Definition sig_policy :=
  [opt "observation_space" PNone; opt "action_scaling" (PBool true);
   opt "action_bound_method" (PStr "clip"); opt "lr_scheduler" PNone].
Definition sig_pg_tail :=
  [opt "discount_factor" (flt (99 # 100)); opt "reward_normalization" (PBool false);
   opt "deterministic_eval" (PBool false)] ++ sig_policy.
Definition sig_ac := [req "actor"; req "critic"; req "optim"; req "dist_fn"; req "action_space"].
Definition sig_gae := [opt "gae_lambda" (flt (95 # 100)); opt "max_batchsize" (PInt 256)] ++ sig_pg_tail.
Definition sig_vf :=
  [opt "vf_coef" (flt (1 # 2)); opt "ent_coef" (flt (1 # 100)); opt "max_grad_norm" PNone] ++ sig_gae.
Definition sig_npg :=
  [opt "optim_critic_iters" (PInt 5); opt "actor_step_size" (flt (1 # 2));
   opt "advantage_normalization" (PBool true)] ++ sig_gae.
Definition sig_dqn_tail :=
  [opt "estimation_step" (PInt 1); opt "target_update_freq" (PInt 0);
   opt "reward_normalization" (PBool false); opt "is_double" (PBool true);
   opt "clip_loss_grad" (PBool false); opt "observation_space" PNone; opt "lr_scheduler" PNone].
Definition sig_model := [req "model"; req "optim"; req "action_space"; opt "discount_factor" (flt (99 # 100))].
Definition sig_q := [req "actor"; req "actor_optim"; req "critic"; req "critic_optim"; req "action_space"].
Definition sig_q2 := sig_q ++ [opt "critic2" PNone; opt "critic2_optim" PNone].
Definition sig_tau := [opt "tau" (flt (5 # 1000)); opt "gamma" (flt (99 # 100))].

(** The keyword-only parameters of the constructors, with their defaults. *)
Definition signature (a : algo) : list (string * option pv) :=
  match a with
  | PG => [req "actor"; req "optim"; req "dist_fn"; req "action_space"] ++ sig_pg_tail (* pg.py 86-99 *)
  | A2C => sig_ac ++ sig_vf                                                (* a2c.py 65-84 *)
  | PPO => sig_ac ++ [opt "eps_clip" (flt (2 # 10)); opt "dual_clip" PNone; (* ppo.py 93-117 *)
                      opt "value_clip" (PBool false); opt "advantage_normalization" (PBool true);
                      opt "recompute_advantage" (PBool false)] ++ sig_vf
  | NPG => sig_ac ++ sig_npg                                               (* npg.py 61-80 *)
  | TRPO => sig_ac ++ [opt "max_kl" (flt (1 # 100)); opt "backtrack_coeff" (flt (8 # 10));
                       opt "max_backtracks" (PInt 10)] ++ sig_npg          (* trpo.py 59-81 *)
  | DQN => sig_model ++ sig_dqn_tail                                       (* dqn.py 61-75 *)
  | IQN => sig_model ++ [opt "sample_size" (PInt 32); opt "online_sample_size" (PInt 8);
                         opt "target_sample_size" (PInt 8); opt "num_quantiles" (PInt 200)]
           ++ sig_dqn_tail                                                 (* iqn.py 59-77 *)
  | DDPG => sig_q ++ sig_tau ++ [opt "exploration_noise" (PStr "default");
                                 opt "estimation_step" (PInt 1)] ++ sig_policy (* ddpg.py 61-77 *)
  | REDQ => sig_q ++ [opt "ensemble_size" (PInt 10); opt "subset_size" (PInt 2)] ++ sig_tau
            ++ [opt "alpha" (flt (2 # 10)); opt "estimation_step" (PInt 1); opt "actor_delay" (PInt 20);
                opt "exploration_noise" PNone; opt "deterministic_eval" (PBool true);
                opt "target_mode" (PStr "min")] ++ sig_policy              (* redq.py 63-85 *)
  | SAC => sig_q2 ++ sig_tau
           ++ [opt "alpha" (flt (2 # 10)); opt "estimation_step" (PInt 1); opt "exploration_noise" PNone;
               opt "deterministic_eval" (PBool true)] ++ sig_policy        (* sac.py 96-117 *)
  | DSAC => sig_q2 ++ sig_tau ++ [opt "alpha" (flt (2 # 10)); opt "estimation_step" (PInt 1);
                                  opt "observation_space" PNone; opt "lr_scheduler" PNone]
                                                                           (* discrete_sac.py 55-70 *)
  | TD3 => sig_q2 ++ sig_tau
           ++ [opt "exploration_noise" (PStr "default"); opt "policy_noise" (flt (2 # 10));
               opt "update_actor_freq" (PInt 2); opt "noise_clip" (flt (1 # 2));
               opt "estimation_step" (PInt 1)] ++ sig_policy               (* td3.py 64-85 *)
  end.

(** A Python call, with the named arguments [expl] and the dictionary [kwargs], of a function with keyword-only parameters [s]:
    TypeError for a repeated argument, an unknown argument or a missing one; otherwise the
    value of every parameter. *)
Definition call (s : list (string * option pv)) (expl kwargs : dict) : res dict :=
  let given := expl ++ kwargs in
  guard (forallb (fun kv => negb (existsb (String.eqb (fst kv)) (map fst kwargs))) expl) TypeError
  (guard (forallb (fun kv => existsb (String.eqb (fst kv)) (map fst s)) given) TypeError
    (mapM (fun kd => match dget (fst kd) given, snd kd with
                     | Some v, _ => Ok (fst kd, v)
                     | None, Some v => Ok (fst kd, v)
                     | None, None => Err TypeError
                     end) s)).

(** The assertion on the type of environment made by the agent factories of DQN and IQN
    (agent.py 403) and REDQ (agent.py 498; before anything else is created). *)
Definition env_check (a : algo) (e : envs) : bool :=
  match a with
  | DQN | IQN => negb (is_continuous e)
  | REDQ => is_continuous e
  | _ => true
  end.

(** The arguments with which [_create_policy] of agent.py calls the constructor.  (The
    transformations have no side effects, so for REDQ and DQN the order of the check and of
    [create_kwargs] only matters for which exception is raised; here the check of DQN and IQN
    comes second and that of REDQ first, as in the code.) *)
Definition policy_args (a : algo) (e : envs) (p : string -> pv) : res dict :=
  guard (match a with REDQ => env_check a e | _ => true end) AssertionError
  (let* kw := create_kwargs a e p in
   guard (env_check a e) AssertionError
   (call (signature a) (explicit a) (fold_left (fun d kv => dput (fst kv) (snd kv) d) (added a) kw))).

(** ** Constructors *)

(** The number a Python value stands for in a comparison. *)
Definition as_num (v : pv) : res Qc :=
  match v with
  | PInt z => Ok (Q2Qc (inject_Z z))
  | PFloat q => Ok q
  | PBool b => Ok (if b then 1%Qc else 0%Qc)
  | _ => Err TypeError
  end.

Definition arg (k : string) (d : dict) : pv := match dget k d with Some v => v | None => PNone end.

Definition truthy (v : pv) : bool :=
  match v with
  | PNone => false
  | PBool b => b
  | PInt z => negb (Z.eqb z 0)
  | PFloat q => negb (Qceqb q 0)
  | PStr s => negb (String.eqb s "")
  | _ => true
  end.

(** [assert 0.0 <= v <= 1.0] *)
Definition assert_unit (v : pv) : res unit :=
  let* q := as_num v in guard (Qcleb 0 q && Qcleb q 1) AssertionError (Ok tt).

(** [assert v > bound] *)
Definition assert_gt (bound : Qc) (v : pv) : res unit :=
  let* q := as_num v in guard (Qcltb bound q) AssertionError (Ok tt).

(** base.py 203-226 *)
Definition base_init (e : envs) (scaling bound : pv) : res unit :=
  guard (match bound with
         | PNone => true
         | PStr s => String.eqb s "clip" || String.eqb s "tanh"
         | _ => false
         end) ValueError
  (guard (negb (truthy scaling && negb (is_continuous e))) ValueError (Ok tt)).

(** pg.py 99-125 *)
Definition pg_init (e : envs) (d : dict) : res unit :=
  let* _ := base_init e (arg "action_scaling" d) (arg "action_bound_method" d) in
  assert_unit (arg "discount_factor" d).

(** a2c.py 84-106 *)
Definition a2c_init (e : envs) (d : dict) : res unit :=
  let* _ := pg_init e d in assert_unit (arg "gae_lambda" d).

(** ppo.py 118-147 *)
Definition ppo_init (e : envs) (d : dict) : res unit :=
  let* _ := match arg "dual_clip" d with PNone => Ok tt | _ => assert_gt 1 (arg "dual_clip" d) end in
  a2c_init e d.

(** dqn.py 75-105: [action_scaling=False, action_bound_method=None]. *)
Definition dqn_init (e : envs) (d : dict) : res unit :=
  let* _ := base_init e (PBool false) PNone in
  let* _ := assert_unit (arg "discount_factor" d) in
  let* _ := assert_gt 0 (arg "estimation_step" d) in
  let* _ := as_num (arg "target_update_freq" d) in
  Ok tt.

(** qrdqn.py 67-88 *)
Definition qrdqn_init (e : envs) (d : dict) : res unit :=
  let* _ := assert_gt 1 (arg "num_quantiles" d) in dqn_init e d.

(** iqn.py 77-100 *)
Definition iqn_init (e : envs) (d : dict) : res unit :=
  let* _ := assert_gt 1 (arg "sample_size" d) in
  let* _ := assert_gt 1 (arg "online_sample_size" d) in
  let* _ := assert_gt 1 (arg "target_sample_size" d) in
  qrdqn_init e d.

(** ddpg.py 78-118; [scaling] and [bound] are the values handed over by the subclass. *)
Definition ddpg_init (e : envs) (scaling bound : pv) (d : dict) : res unit :=
  let* _ := assert_unit (arg "tau" d) in
  let* _ := assert_unit (arg "gamma" d) in
  guard (match bound with PStr s => negb (String.eqb s "tanh") | _ => true end) AssertionError
  (base_init e scaling bound).

(** sac.py 141-158, redq.py 118-137: [alpha] is a float, or else must be the tuple of a
    target, a tensor of shape (1,) which requires a gradient, and an optimizer; indexing
    anything else fails.  Returns the attributes which tune the coefficient. *)
Definition alpha_init (v : pv) : res (list (string * Qc)) :=
  match v with
  | PFloat _ => Ok []
  | PAlpha t => Ok [("target_entropy", t); ("log_alpha", 0%Qc)]
  | _ => Err TypeError
  end.

(** redq.py 86-137 *)
Definition redq_init (e : envs) (d : dict) : res unit :=
  guard (match arg "target_mode" d with
         | PStr s => String.eqb s "min" || String.eqb s "mean" | _ => false end) ValueError
  (let* sub := as_num (arg "subset_size" d) in
   let* ens := as_num (arg "ensemble_size" d) in
   guard (Qcltb 0 sub && Qcleb sub ens) ValueError
   (let* _ := ddpg_init e (arg "action_scaling" d) (arg "action_bound_method" d) d in
    let* _ := alpha_init (arg "alpha" d) in
    Ok tt)).

(** sac.py 118-168; [box] tells which kind of action space the class accepts
    (DiscreteSACPolicy overrides the check, discrete_sac.py 95-100). *)
Definition sac_init (box : bool) (e : envs) (scaling bound : pv) (d : dict) : res unit :=
  let* _ := ddpg_init e scaling bound d in
  let* _ := alpha_init (arg "alpha" d) in
  guard (Bool.eqb (is_continuous e) box) ValueError (Ok tt).

(** td3.py 86-114; the factory always passes both [critic2] and its optimizer. *)
Definition td3_init (e : envs) (d : dict) : res unit :=
  let* _ := ddpg_init e (arg "action_scaling" d) (arg "action_bound_method" d) d in
  guard (negb (truthy (arg "critic2" d) && negb (truthy (arg "critic2_optim" d)))) ValueError (Ok tt).

(** npg.py 82-108 and trpo.py 83-104 add no checks to a2c.py. *)
Definition init (a : algo) (e : envs) (d : dict) : res unit :=
  match a with
  | PG => pg_init e d
  | A2C | NPG | TRPO => a2c_init e d
  | PPO => ppo_init e d
  | DQN => dqn_init e d
  | IQN => iqn_init e d
  | DDPG => ddpg_init e (arg "action_scaling" d) (arg "action_bound_method" d) d
  | REDQ => redq_init e d
  | SAC => sac_init true e (arg "action_scaling" d) (arg "action_bound_method" d) d
  | DSAC => sac_init false e (PBool false) PNone d
  | TD3 => td3_init e d
  end.

(** [agent_factory._create_policy(envs, device)]: the arguments of the policy, or the
    exception. *)
Definition create_policy (a : algo) (e : envs) (p : string -> pv) : res dict :=
  let* d := policy_args a e p in
  let* _ := init a e d in
  Ok d.

(** ** Tuning the entropy coefficient *)

(** The attributes of the policy, restricted to numbers. *)
Definition attrs := list (string * Qc).

Definition getattr (k : string) (s : attrs) : res Qc :=
  match dget k s with Some v => Ok v | None => Err AttributeError end.

Fixpoint setattr (k : string) (v : Qc) (s : attrs) : attrs :=
  match s with
  | [] => [(k, v)]
  | (k', v') :: t => if String.eqb k k' then (k', v) :: t else (k', v') :: setattr k v t
  end.

Definition qmean (l : list Qc) : Qc := (qsum l / Q2Qc (inject_Z (Z.of_nat (length l))))%Qc.

(** One step of plain gradient descent on [-(log_alpha * (lp + target)).mean()] with rate
    [lr]: the derivative with respect to [log_alpha] is [-mean (lp + target)].  [ta] and [la]
    are the names of the attributes which the code reads.  (The code's default optimizer is
    Adam, which moves in the direction of the gradient's sign as well when that sign never
    changes.) *)
Definition tune (ta la : string) (lr : Qc) (lp : list Qc) (s : attrs) : res attrs :=
  let* t := getattr ta s in
  let* l := getattr la s in
  Ok (setattr la (l + lr * qmean (map (fun x => (x + t)%Qc) lp))%Qc s).

(** sac.py 245-252; [lp] are the log probabilities of the actions. *)
Definition sac_tune (lr : Qc) (lp : list Qc) (s : attrs) : res attrs :=
  tune "target_entropy" "log_alpha" lr lp s.

(** discrete_sac.py 166-172; [h] are the entropies of the action distributions. *)
Definition dsac_tune (lr : Qc) (h : list Qc) (s : attrs) : res attrs :=
  tune "target_entropy" "log_alpha" lr (map Qcopp h) s.

(** redq.py 212-218: reads [self._target_entropy] and [self._log_alpha]. *)
Definition redq_tune (lr : Qc) (lp : list Qc) (s : attrs) : res attrs :=
  tune "_target_entropy" "_log_alpha" lr lp s.
