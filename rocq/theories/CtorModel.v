(** * Model of the constructors of the policies ([tianshou/policy/base.py:191-246] and the [__init__] of
      every policy class)

    What is checked and kept, in the order of the source.  Networks and optimizers are described by
    the numbers of their parameters; a copy of a network has new parameters. *)
From Verif Require Export Py Num.
Open Scope nat_scope.
Open Scope list_scope.

(** Kinds of action spaces and values of action_bound_method ([BEmpty] is the empty string). *)
Inductive aspace := SBox | SDiscrete | SMultiDiscrete | SMultiBinary | SDict.
Inductive bound := BClip | BTanh | BEmpty | BOther.
Inductive atype := Discr | Conti.
Inductive tmode := TMin | TMean | TOther.
(** alpha: a float, an int, or a tuple of target entropy, log_alpha (its shape and requires_grad) and optimizer. *)
Inductive alpha := AFloat (q : Qc) | AInt (z : Z) | ATuple (shape : list nat) (grad : bool).
Record params := mkP {
  p_space : aspace; p_scaling : bool; p_bound : option bound;
  p_gamma : Qc; p_tau : Qc; p_nstep : Z; p_lambda : Qc; p_dual : option Qc;
  p_atoms : Z; p_vmin : Qc; p_vmax : Qc; p_quantiles : Z; p_sample : Z; p_online : Z; p_target : Z;
  p_freq : Z; p_unlikely : Qc; p_eps : Qc;
  p_ensemble : Z; p_subset : Z; p_mode : tmode; p_alpha : alpha;
  p_actor_max : option Qc; p_actor_out : option nat;   (* attributes of the actor, if it has them *)
  p_critic : list nat; p_critic2 : option (list nat); p_critic2_optim : option (list nat);
  p_fresh : nat -> nat                                  (* numbers of copied parameters *) }.
(** What is kept; None: no such attribute. *)
Record policy := mkPol { pl_type : atype; pl_scaling : bool; pl_bound : option bound; pl_gamma : option Qc; pl_tau : option Qc; pl_nstep : option Z;
  pl_critic2 : option (list nat * list nat) (* the network and what its optimizer changes *) }.

Definition unit_interval (q : Qc) : bool := Qcleb 0 q && Qcleb q 1.
Definition is_box (s : aspace) : bool := match s with SBox => true | _ => false end.
(** BasePolicy.__init__ (base.py:191-246) *)
Definition base_init (space : aspace) (scaling : bool) (b : option bound) : res policy :=
  guard (match b with None | Some BClip | Some BTanh => true | _ => false end) ValueError
  (guard (negb scaling || is_box space) ValueError
   (let* t := (match space with
               | SDiscrete | SMultiDiscrete | SMultiBinary => Ok Discr
               | SBox => Ok Conti
               | SDict => Err ValueError end) in
    Ok (mkPol t scaling b None None None None))).
Definition set_gamma (pl : policy) (g : Qc) : policy := mkPol (pl_type pl) (pl_scaling pl) (pl_bound pl) (Some g) (pl_tau pl) (pl_nstep pl) (pl_critic2 pl).
Definition set_tau (pl : policy) (t : Qc) : policy := mkPol (pl_type pl) (pl_scaling pl) (pl_bound pl) (pl_gamma pl) (Some t) (pl_nstep pl) (pl_critic2 pl).
Definition set_nstep (pl : policy) (n : Z) : policy := mkPol (pl_type pl) (pl_scaling pl) (pl_bound pl) (pl_gamma pl) (pl_tau pl) (Some n) (pl_critic2 pl).
Definition set_critic2 (pl : policy) (c : list nat * list nat) : policy := mkPol (pl_type pl) (pl_scaling pl) (pl_bound pl) (pl_gamma pl) (pl_tau pl) (pl_nstep pl) (Some c).
(** critic2 or deepcopy(critic); critic2_optim or clone_optimizer(critic_optim, critic2.parameters()) *)
Definition second_critic (p : params) : list nat * list nat :=
  let c2 := match p_critic2 p with Some c => c | None => map (p_fresh p) (p_critic p) end in
  (c2, match p_critic2_optim p with Some o => o | None => c2 end).
(** np.isclose(actor.max_action, 1.0) is evaluated if action_scaling; its result only warns. *)
Definition read_max (scaling : bool) (p : params) : res unit :=
  if scaling then match p_actor_max p with Some _ => Ok tt | None => Err AttributeError end else Ok tt.

(** DQNPolicy (modelfree/dqn.py:60-105) *)
Definition dqn_init (p : params) : res policy :=
  let* pl := base_init (p_space p) false None in
  guard (unit_interval (p_gamma p)) AssertionError
  (guard (0 <? p_nstep p)%Z AssertionError (Ok (set_nstep (set_gamma pl (p_gamma p)) (p_nstep p)))).
(** BranchingDQNPolicy (modelfree/bdq.py:55-86) *)
Definition bdq_init (p : params) : res policy := guard (p_nstep p =? 1)%Z AssertionError (dqn_init p).
(** C51Policy, RainbowPolicy (modelfree/c51.py:53-93) *)
Definition c51_init (p : params) : res policy :=
  guard (1 <? p_atoms p)%Z AssertionError (guard (Qcltb (p_vmin p) (p_vmax p)) AssertionError (dqn_init p)).
(** QRDQNPolicy (modelfree/qrdqn.py:52-88), FQFPolicy (modelfree/fqf.py:58-95), DiscreteCQLPolicy (imitation/discrete_cql.py:52-83) *)
Definition qrdqn_init (p : params) : res policy := guard (1 <? p_quantiles p)%Z AssertionError (dqn_init p).
(** IQNPolicy (modelfree/iqn.py:58-100) *)
Definition iqn_init (p : params) : res policy :=
  guard (1 <? p_sample p)%Z AssertionError (guard (1 <? p_online p)%Z AssertionError (guard (1 <? p_target p)%Z AssertionError (qrdqn_init p))).
(** DiscreteBCQPolicy (imitation/discrete_bcq.py:67-112) *)
Definition dbcq_init (p : params) : res policy :=
  let* pl := dqn_init p in
  guard (0 <? p_freq p)%Z AssertionError
  (guard (Qcleb 0 (p_unlikely p) && Qcltb (p_unlikely p) 1) AssertionError
   (guard (Qcleb 0 (p_eps p) && Qcltb (p_eps p) 1) AssertionError (Ok pl))).
(** PGPolicy (modelfree/pg.py:85-125) *)
Definition pg_init_with (scaling : bool) (b : option bound) (p : params) : res policy :=
  let* pl := base_init (p_space p) scaling b in
  let* _ := read_max scaling p in
  guard (unit_interval (p_gamma p)) AssertionError (Ok (set_gamma pl (p_gamma p))).
Definition pg_init (p : params) : res policy := pg_init_with (p_scaling p) (p_bound p) p.
(** A2CPolicy (modelfree/a2c.py:64-106), NPGPolicy (modelfree/npg.py:60-108), TRPOPolicy (modelfree/trpo.py:58-104) *)
Definition a2c_init (p : params) : res policy :=
  let* pl := pg_init p in guard (unit_interval (p_lambda p)) AssertionError (Ok pl).
(** PPOPolicy (modelfree/ppo.py:92-147) *)
Definition ppo_init (p : params) : res policy :=
  guard (match p_dual p with None => true | Some d => Qcltb 1 d end) AssertionError (a2c_init p).
(** GAILPolicy (imitation/gail.py:80-139) *)
Definition gail_init (p : params) : res policy :=
  let* pl := ppo_init p in match p_actor_out p with Some _ => Ok pl | None => Err AttributeError end.
(** DiscreteCRRPolicy (imitation/discrete_crr.py:57-101) *)
Definition crr_init (p : params) : res policy := pg_init_with false None p.
(** DDPGPolicy (modelfree/ddpg.py:60-118) *)
Definition ddpg_init_with (scaling : bool) (b : option bound) (p : params) : res policy :=
  guard (unit_interval (p_tau p)) AssertionError
  (guard (unit_interval (p_gamma p)) AssertionError
   (guard (match b with Some BTanh => false | _ => true end) AssertionError
    (let* pl := base_init (p_space p) scaling b in
     let* _ := read_max scaling p in
     Ok (set_nstep (set_gamma (set_tau pl (p_tau p)) (p_gamma p)) (p_nstep p))))).
Definition ddpg_init (p : params) : res policy := ddpg_init_with (p_scaling p) (p_bound p) p.
(** TD3Policy (modelfree/td3.py:63-114), TD3BCPolicy (imitation/td3_bc.py:61-105) *)
Definition td3_init (p : params) : res policy :=
  let* pl := ddpg_init p in
  match p_critic2 p, p_critic2_optim p with
  | Some _, None => Err ValueError
  | _, _ => Ok (set_critic2 pl (second_critic p))
  end.
(** The alpha of SACPolicy (modelfree/sac.py:136-158) and REDQPolicy (modelfree/redq.py:117-137); an
    int has no item 1. *)
Definition alpha_init (a : alpha) : res unit :=
  match a with
  | AFloat _ => Ok tt
  | AInt _ => Err TypeError
  | ATuple [1] true => Ok tt
  | ATuple _ _ => Err ValueError
  end.
(** SACPolicy (modelfree/sac.py:95-161, 163-168), CQLPolicy (imitation/cql.py:82-157) *)
Definition sac_init_with (scaling : bool) (b : option bound) (valid : aspace -> bool) (p : params) : res policy :=
  let* pl := ddpg_init_with scaling b p in
  let* _ := alpha_init (p_alpha p) in
  guard (valid (p_space p)) ValueError (Ok (set_critic2 pl (second_critic p))).
Definition sac_init (p : params) : res policy := sac_init_with (p_scaling p) (p_bound p) is_box p.
(** DiscreteSACPolicy (modelfree/discrete_sac.py:54-100) *)
Definition dsac_init (p : params) : res policy := sac_init_with false None (fun s => match s with SDiscrete => true | _ => false end) p.
(** REDQPolicy (modelfree/redq.py:62-137) *)
Definition redq_init (p : params) : res policy :=
  guard (match p_mode p with TOther => false | _ => true end) ValueError
  (guard ((0 <? p_subset p) && (p_subset p <=? p_ensemble p))%Z ValueError
   (let* pl := ddpg_init p in let* _ := alpha_init (p_alpha p) in Ok pl)).
(** ImitationPolicy (imitation/base.py:54-73), ICMPolicy (modelbased/icm.py:57-84) *)
Definition plain_init (p : params) : res policy := base_init (p_space p) (p_scaling p) (p_bound p).
(** BCQPolicy (imitation/bcq.py:61-115) *)
Definition bcq_init (p : params) : res policy :=
  let* pl := base_init (p_space p) (p_scaling p) (p_bound p) in
  Ok (set_critic2 (set_tau (set_gamma pl (p_gamma p)) (p_tau p)) (second_critic p)).
(** PSRLPolicy (modelbased/psrl.py:179-207) *)
Definition psrl_init (p : params) : res policy :=
  let* pl := base_init (p_space p) false None in
  guard (unit_interval (p_gamma p)) AssertionError (Ok (set_gamma pl (p_gamma p))).

Inductive cls := DQN | BDQ | C51 | Rainbow | QRDQN | IQN | FQF | PG | A2C | PPO | NPG | TRPO | DDPG | TD3 | SAC | REDQ | DiscreteSAC
  | Imitation | BCQ | CQL | DiscreteBCQ | DiscreteCQL | DiscreteCRR | GAIL | TD3BC | PSRL | ICM.
Definition construct (c : cls) (p : params) : res policy :=
  match c with
  | DQN => dqn_init p | BDQ => bdq_init p | C51 | Rainbow => c51_init p
  | QRDQN | FQF | DiscreteCQL => qrdqn_init p | IQN => iqn_init p | DiscreteBCQ => dbcq_init p
  | PG => pg_init p | A2C | NPG | TRPO => a2c_init p | PPO => ppo_init p | GAIL => gail_init p | DiscreteCRR => crr_init p
  | DDPG => ddpg_init p | TD3 | TD3BC => td3_init p | SAC | CQL => sac_init p | DiscreteSAC => dsac_init p | REDQ => redq_init p
  | Imitation | ICM => plain_init p | BCQ => bcq_init p | PSRL => psrl_init p
  end.
