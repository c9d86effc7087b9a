(** * The documented domains of the parameters of policies *)
From Verif Require Import CtorModel.
Open Scope nat_scope.

(** Classes with a discount factor, a target rate, an estimation step, a second critic. *)
Definition discounted (c : cls) : Prop := match c with Imitation | ICM => False | _ => True end.
Definition averaged (c : cls) : Prop := match c with DDPG | TD3 | SAC | REDQ | DiscreteSAC | CQL | TD3BC | BCQ => True | _ => False end.
Definition q_learning (c : cls) : Prop := match c with DQN | BDQ | C51 | Rainbow | QRDQN | IQN | FQF | DiscreteBCQ | DiscreteCQL => True | _ => False end.
Definition deterministic_gradient (c : cls) : Prop := match c with DDPG | TD3 | SAC | REDQ | DiscreteSAC | CQL | TD3BC => True | _ => False end.
Definition twin (c : cls) : Prop := match c with TD3 | SAC | DiscreteSAC | CQL | TD3BC | BCQ => True | _ => False end.
Definition tempered (c : cls) : Prop := match c with SAC | REDQ | DiscreteSAC | CQL => True | _ => False end.
Definition in_unit (q : Qc) : Prop := (0 <= q)%Qc /\ (q <= 1)%Qc.
(** The class passes the options of actions on. *)
Definition configurable (c : cls) : Prop :=
  match c with PG | A2C | PPO | NPG | TRPO | GAIL | DDPG | TD3 | TD3BC | SAC | CQL | REDQ | Imitation | ICM | BCQ => True | _ => False end.
(** Documented domains of the parameters of each class. *)
Definition domain (c : cls) (p : params) : Prop :=
  (c <> BCQ -> discounted c -> in_unit (p_gamma p)) /\
  (c <> BCQ -> averaged c -> in_unit (p_tau p)) /\
  (q_learning c -> (0 < p_nstep p)%Z) /\ (c = BDQ -> p_nstep p = 1%Z) /\
  (c = C51 \/ c = Rainbow -> (1 < p_atoms p)%Z /\ (p_vmin p < p_vmax p)%Qc) /\
  (c = QRDQN \/ c = IQN \/ c = FQF \/ c = DiscreteCQL -> (1 < p_quantiles p)%Z) /\
  (c = IQN -> (1 < p_sample p)%Z /\ (1 < p_online p)%Z /\ (1 < p_target p)%Z) /\
  (c = DiscreteBCQ -> (0 < p_freq p)%Z /\ (0 <= p_unlikely p)%Qc /\ (p_unlikely p < 1)%Qc /\ (0 <= p_eps p)%Qc /\ (p_eps p < 1)%Qc) /\
  (c = A2C \/ c = NPG \/ c = TRPO \/ c = PPO \/ c = GAIL -> in_unit (p_lambda p)) /\
  (c = PPO \/ c = GAIL -> forall d, p_dual p = Some d -> (1 < d)%Qc) /\
  (c = GAIL -> p_actor_out p <> None) /\
  (c = TD3 \/ c = TD3BC -> p_critic2 p <> None -> p_critic2_optim p <> None) /\
  (c = REDQ -> p_mode p <> TOther /\ (0 < p_subset p)%Z /\ (p_subset p <= p_ensemble p)%Z) /\
  (tempered c -> (exists q, p_alpha p = AFloat q) \/ p_alpha p = ATuple [1] true).
(** The options of actions suit the action space. *)
Definition actions_ok (c : cls) (p : params) : Prop :=
  p_space p <> SDict /\ (c = SAC \/ c = CQL -> p_space p = SBox) /\ (c = DiscreteSAC -> p_space p = SDiscrete) /\
  (configurable c -> (p_scaling p = true -> p_space p = SBox) /\ (p_bound p = None \/ p_bound p = Some BClip \/ p_bound p = Some BTanh) /\
    (deterministic_gradient c -> p_bound p <> Some BTanh)) /\
  (configurable c -> c <> Imitation -> c <> ICM -> c <> BCQ -> p_scaling p = true -> p_actor_max p <> None).
Definition with_nstep (p : params) (n : Z) : params :=
  mkP (p_space p) (p_scaling p) (p_bound p) (p_gamma p) (p_tau p) n (p_lambda p) (p_dual p) (p_atoms p) (p_vmin p) (p_vmax p) (p_quantiles p)
    (p_sample p) (p_online p) (p_target p) (p_freq p) (p_unlikely p) (p_eps p) (p_ensemble p) (p_subset p) (p_mode p) (p_alpha p)
    (p_actor_max p) (p_actor_out p) (p_critic p) (p_critic2 p) (p_critic2_optim p) (p_fresh p).
Definition with_space (p : params) (s : aspace) : params :=
  mkP s (p_scaling p) (p_bound p) (p_gamma p) (p_tau p) (p_nstep p) (p_lambda p) (p_dual p) (p_atoms p) (p_vmin p) (p_vmax p) (p_quantiles p)
    (p_sample p) (p_online p) (p_target p) (p_freq p) (p_unlikely p) (p_eps p) (p_ensemble p) (p_subset p) (p_mode p) (p_alpha p)
    (p_actor_max p) (p_actor_out p) (p_critic p) (p_critic2 p) (p_critic2_optim p) (p_fresh p).
(** The class is meant for discrete actions only. *)
Definition for_discrete (c : cls) : Prop := q_learning c \/ c = DiscreteCRR \/ c = PSRL \/ c = DiscreteSAC.
Definition with_alpha (p : params) (a : alpha) : params :=
  mkP (p_space p) (p_scaling p) (p_bound p) (p_gamma p) (p_tau p) (p_nstep p) (p_lambda p) (p_dual p) (p_atoms p) (p_vmin p) (p_vmax p) (p_quantiles p)
    (p_sample p) (p_online p) (p_target p) (p_freq p) (p_unlikely p) (p_eps p) (p_ensemble p) (p_subset p) (p_mode p) a
    (p_actor_max p) (p_actor_out p) (p_critic p) (p_critic2 p) (p_critic2_optim p) (p_fresh p).
