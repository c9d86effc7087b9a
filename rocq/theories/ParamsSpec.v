(** * What the parameters of the high-level interface are meant to do *)
From Coq Require Import String.
From Verif Require Import Py Num ParamsModel.
Import List.
Open Scope string_scope.
Open Scope list_scope.
Open Scope nat_scope.

(** The parameters which name a factory of learning rate schedulers. *)
Definition factory_keys : list string :=
  ["lr_scheduler_factory"; "actor_lr_scheduler_factory"; "critic_lr_scheduler_factory";
   "critic1_lr_scheduler_factory"; "critic2_lr_scheduler_factory"].

(** The values which the documentation of the parameter [k] allows: a scheduler factory is
    None or a factory; noise scaled by the maximum action needs continuous actions and a
    standard deviation which is not negative. *)
Definition admissible (e : envs) (k : string) (v : pv) : Prop :=
  (In k factory_keys -> v = PNone \/ exists f, v = PLrFac f)
  /\ (k = "exploration_noise" ->
      forall q, v = PNoiseFac q -> exists shape m, e = Continuous shape m /\ (0 <= m * q)%Qc)
  /\ (In k ["policy_noise"; "noise_clip"] ->
      forall q, v = PValFac q -> exists shape m, e = Continuous shape m).

(** DQN and IQN are for discrete actions, REDQ for continuous ones. *)
Definition env_fits (a : algo) (e : envs) : Prop :=
  match a with
  | DQN | IQN => exists n, e = Discrete n
  | REDQ => exists shape m, e = Continuous shape m
  | _ => True
  end.

(** Parameters which are not handed to the policy: learning rates (they go to the
    optimizers), scheduler factories, and the two which shape the network of IQN. *)
Definition consumed : list string :=
  ["lr"; "actor_lr"; "critic_lr"; "critic1_lr"; "critic2_lr"; "hidden_sizes"; "num_cosines"]
  ++ factory_keys.

(** The number of action dimensions, or of discrete actions. *)
Definition actions (e : envs) : nat :=
  match e with
  | Continuous shape _ => fold_right Nat.mul 1 shape
  | Discrete n => n
  end.

(** The argument which the policy gets for the value [v] of the parameter [k]. *)
Inductive reaches (e : envs) (k : string) : pv -> pv -> Prop :=
| reach_alpha : k = "alpha" ->
    reaches e k PAutoAlpha (PAlpha (- Q2Qc (inject_Z (Z.of_nat (actions e))))%Qc)
| reach_noise (q m : Qc) (shape : list nat) : k = "exploration_noise" ->
    e = Continuous shape m -> reaches e k (PNoiseFac q) (PNoise (m * q)%Qc)
| reach_value (q m : Qc) (shape : list nat) : In k ["policy_noise"; "noise_clip"] ->
    e = Continuous shape m -> reaches e k (PValFac q) (PFloat (m * q)%Qc)
| reach_scaling (b : bool) : k = "action_scaling" ->
    (b = true <-> exists shape m, e = Continuous shape m) ->
    reaches e k (PStr "default") (PBool b)
| reach_same (v : pv) :
    ~ (k = "alpha" /\ v = PAutoAlpha) ->
    ~ (k = "exploration_noise" /\ exists q, v = PNoiseFac q) ->
    ~ (In k ["policy_noise"; "noise_clip"] /\ exists q, v = PValFac q) ->
    ~ (k = "action_scaling" /\ v = PStr "default") ->
    reaches e k v v.

(** The optimizers of an algorithm, each with its scheduler factory. *)
Definition schedulers (a : algo) : list (optid * string) :=
  match a with
  | PG | A2C | PPO | NPG | TRPO | DQN | IQN => [(OOptim, "lr_scheduler_factory")]
  | DDPG | REDQ => [(OActor, "actor_lr_scheduler_factory"); (OCritic1, "critic_lr_scheduler_factory")]
  | SAC | DSAC | TD3 => [(OActor, "actor_lr_scheduler_factory");
                         (OCritic1, "critic1_lr_scheduler_factory");
                         (OCritic2, "critic2_lr_scheduler_factory")]
  end.

(** Those of them for which a factory is given. *)
Definition wanted (p : string -> pv) (l : list (optid * string)) : list (optid * nat) :=
  flat_map (fun ok => match p (snd ok) with PLrFac f => [(fst ok, f)] | _ => [] end) l.

(** One scheduler that steps all those in the list. *)
Inductive joint : list (optid * nat) -> pv -> Prop :=
| joint_none : joint [] PNone
| joint_one (o : optid) (f : nat) : joint [(o, f)] (PSched o f)
| joint_many (l : list (optid * nat)) : 2 <= length l -> joint l (PMulti l).

(** A network and the optimizer of its weights. *)
Definition trained (a : algo) : list (string * string) :=
  match a with
  | PG => [("actor", "optim")]
  | A2C | PPO | NPG | TRPO => []
  | DQN | IQN => [("model", "optim")]
  | DDPG | REDQ => [("actor", "actor_optim"); ("critic", "critic_optim")]
  | SAC | DSAC | TD3 =>
    [("actor", "actor_optim"); ("critic", "critic_optim"); ("critic2", "critic2_optim")]
  end.

(** ** Values which the constructors accept *)

Inductive number : pv -> Qc -> Prop :=
| number_int (z : Z) : number (PInt z) (Q2Qc (inject_Z z))
| number_float (q : Qc) : number (PFloat q) q
| number_true : number (PBool true) 1%Qc
| number_false : number (PBool false) 0%Qc.

Definition in_unit (v : pv) : Prop := exists q, number v q /\ (0 <= q)%Qc /\ (q <= 1)%Qc.
Definition above (b : Qc) (v : pv) : Prop := exists q, number v q /\ (b < q)%Qc.

(** Python's false values. *)
Inductive falsy : pv -> Prop :=
| falsy_none : falsy PNone
| falsy_false : falsy (PBool false)
| falsy_int : falsy (PInt 0)
| falsy_float : falsy (PFloat 0%Qc)
| falsy_str : falsy (PStr "").

(** Actions are scaled in boxes only. *)
Definition scaling_ok (e : envs) (v : pv) : Prop :=
  (exists shape m, e = Continuous shape m) \/ v = PStr "default" \/ falsy v.

Definition bound_ok (v : pv) : Prop := v = PNone \/ v = PStr "clip" \/ v = PStr "tanh".
Definition bound_ok_q (v : pv) : Prop := v = PNone \/ v = PStr "clip".

(** A float, an automatic coefficient, or the tuple it stands for; in particular no integer. *)
Definition alpha_ok (v : pv) : Prop :=
  (exists q, v = PFloat q) \/ v = PAutoAlpha \/ (exists t, v = PAlpha t).

Definition pg_ok (e : envs) (p : string -> pv) : Prop :=
  scaling_ok e (p "action_scaling") /\ bound_ok (p "action_bound_method")
  /\ in_unit (p "discount_factor").
Definition a2c_ok (e : envs) (p : string -> pv) : Prop := pg_ok e p /\ in_unit (p "gae_lambda").
Definition dqn_ok (p : string -> pv) : Prop :=
  in_unit (p "discount_factor") /\ above 0 (p "estimation_step")
  /\ exists q, number (p "target_update_freq") q.
Definition q_ok (p : string -> pv) : Prop := in_unit (p "tau") /\ in_unit (p "gamma").
Definition ddpg_ok (e : envs) (p : string -> pv) : Prop :=
  q_ok p /\ bound_ok_q (p "action_bound_method") /\ scaling_ok e (p "action_scaling").

(** The parameters with which the algorithm can be created. *)
Definition acceptable (a : algo) (e : envs) (p : string -> pv) : Prop :=
  match a with
  | PG => pg_ok e p
  | A2C | NPG | TRPO => a2c_ok e p
  | PPO => a2c_ok e p /\ (p "dual_clip" = PNone \/ above 1 (p "dual_clip"))
  | DQN => dqn_ok p
  | IQN => dqn_ok p /\ above 1 (p "sample_size") /\ above 1 (p "online_sample_size")
           /\ above 1 (p "target_sample_size") /\ above 1 (p "num_quantiles")
  | DDPG | TD3 => ddpg_ok e p
  | REDQ => ddpg_ok e p /\ alpha_ok (p "alpha")
            /\ (p "target_mode" = PStr "min" \/ p "target_mode" = PStr "mean")
            /\ exists s n, number (p "subset_size") s /\ number (p "ensemble_size") n
                           /\ (0 < s)%Qc /\ (s <= n)%Qc
  | SAC => ddpg_ok e p /\ alpha_ok (p "alpha") /\ exists shape m, e = Continuous shape m
  | DSAC => q_ok p /\ alpha_ok (p "alpha") /\ exists n, e = Discrete n
  end.

(** Adjust [log_alpha] by one batch after the other. *)
Fixpoint runs (step : list Qc -> attrs -> res attrs) (batches : list (list Qc)) (s : attrs) : res attrs :=
  match batches with
  | [] => Ok s
  | b :: t => let* s' := step b s in runs step t s'
  end.
