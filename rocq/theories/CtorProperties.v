(** * Properties C289-C295: the constructors of policies *)
From Verif Require Import CtorModel CtorSpec ReturnsModel CtorProofs.
Import List CtorModel.
Local Open Scope list_scope.
Local Open Scope nat_scope.

(** C289. Every policy class accepts exactly the parameters in their documented domains, with options that suit the action space. *)
Theorem C289_accepts : forall (c : cls) (p : params), is_ok (construct c p) = true <-> domain c p /\ actions_ok c p.
Proof. exact C289_accepts_lemma. Qed.
Print Assumptions C289_accepts.

(** C290. The discount factor of every policy but BCQ is in [0, 1], and so is the rate of its target networks. *)
Theorem C290_range : forall (c : cls) (p : params) (pl : policy), construct c p = Ok pl -> c <> BCQ ->
  (discounted c -> pl_gamma pl = Some (p_gamma p) /\ in_unit (p_gamma p)) /\ (averaged c -> pl_tau pl = Some (p_tau p) /\ in_unit (p_tau p)).
Proof. exact C290_range_lemma. Qed.
Print Assumptions C290_range.

(** C289. The actions of the constructed policy are continuous exactly if the action space is a Box. *)
Theorem C289_type : forall (c : cls) (p : params) (pl : policy), construct c p = Ok pl -> pl_type pl = Conti <-> p_space p = SBox.
Proof. exact C289_type_lemma. Qed.
Print Assumptions C289_type.

(** C290. BCQ takes any numbers as discount factor and rate. *)
Theorem C290_bcq_refuted : forall (p : params), actions_ok BCQ p -> exists pl, construct BCQ p = Ok pl /\ pl_gamma pl = Some (p_gamma p) /\ pl_tau pl = Some (p_tau p).
Proof. exact C290_bcq_refuted_lemma. Qed.
Print Assumptions C290_bcq_refuted.

(** C291. The estimation step of the Q-learning policies is positive. *)
Theorem C291_positive : forall (c : cls) (p : params), q_learning c -> is_ok (construct c p) = true -> (0 < p_nstep p)%Z.
Proof. exact C291_positive_lemma. Qed.
Print Assumptions C291_positive.

(** C291. The others take any estimation step. *)
Theorem C291_any_refuted : forall (c : cls) (p : params) (n : Z), deterministic_gradient c ->
  is_ok (construct c (with_nstep p n)) = is_ok (construct c p).
Proof. exact C291_any_refuted_lemma. Qed.
Print Assumptions C291_any_refuted.

(** C291. With 0 the rewards have no influence: the target is the value of the next observation. *)
Theorem C291_zero_refuted : forall (Ob A Inf : Type) (b : ibuf Ob A Inf) (len : nat) (indices : list Z) (f : list Z -> list (list Qc)) (gamma : Qc) (ret : list (list Qc)),
  compute_nstep_return b len indices f gamma 0 false = Ok ret ->
  exists mask, value_mask b indices = Ok mask /\ ret = map (fun x => map (fun v => (v * b2q (snd x))%Qc) (fst x)) (combine (f indices) mask).
Proof. exact C291_zero_refuted_lemma. Qed.
Print Assumptions C291_zero_refuted.

(** C292. SAC, CQL and DiscreteSAC refuse the action spaces they cannot handle. *)
Theorem C292_sac : forall (c : cls) (p : params) (pl : policy), construct c p = Ok pl ->
  (c = SAC \/ c = CQL -> p_space p = SBox) /\ (c = DiscreteSAC -> p_space p = SDiscrete).
Proof. exact C292_sac_lemma. Qed.
Print Assumptions C292_sac.

(** C292. All other classes for discrete actions take a Box of actions just as well. *)
Theorem C292_box_refuted : forall (c : cls) (p : params), for_discrete c -> c <> DiscreteSAC ->
  is_ok (construct c (with_space p SBox)) = is_ok (construct c (with_space p SDiscrete)).
Proof. exact C292_box_refuted_lemma. Qed.
Print Assumptions C292_box_refuted.

(** C292. And DDPG, TD3, TD3BC, REDQ and BCQ take discrete actions without action_scaling. *)
Theorem C292_discrete_refuted : forall (c : cls) (p : params), c = DDPG \/ c = TD3 \/ c = TD3BC \/ c = REDQ \/ c = BCQ -> p_scaling p = false ->
  is_ok (construct c (with_space p SDiscrete)) = is_ok (construct c (with_space p SBox)).
Proof. exact C292_discrete_refuted_lemma. Qed.
Print Assumptions C292_discrete_refuted.

(** C293. A class that has the option keeps it as given and takes no unknown value; the others have None. *)
Theorem C293_none : forall (c : cls) (p : params) (pl : policy), construct c p = Ok pl ->
  (configurable c -> pl_bound pl = p_bound p /\ p_bound p <> Some BEmpty /\ p_bound p <> Some BOther) /\ (~ configurable c -> pl_bound pl = None).
Proof. exact C293_none_lemma. Qed.
Print Assumptions C293_none.

(** C293. The documented empty string is refused by every class that has the option. *)
Theorem C293_empty_refuted : forall (c : cls) (p : params), configurable c -> p_bound p = Some BEmpty -> is_ok (construct c p) = false.
Proof. exact C293_empty_refuted_lemma. Qed.
Print Assumptions C293_empty_refuted.

(** C294. Of temperatures that are floats every one is accepted or none, and so is a tuple with a learnable log_alpha of shape [1]. *)
Theorem C294_float : forall (c : cls) (p : params) (q : Qc),
  is_ok (construct c (with_alpha p (AFloat q))) = is_ok (construct c (with_alpha p (ATuple [1] true))).
Proof. exact C294_float_lemma. Qed.
Print Assumptions C294_float.

(** C294. One that is an int is refused. *)
Theorem C294_int_refuted : forall (c : cls) (p : params) (z : Z), tempered c -> p_alpha p = AInt z -> is_ok (construct c p) = false.
Proof. exact C294_int_refuted_lemma. Qed.
Print Assumptions C294_int_refuted.

(** C295. The optimizer of the second critic changes that critic, if both, neither or only the critic is given. *)
Theorem C295_trained : forall (c : cls) (p : params) (pl : policy), twin c -> construct c p = Ok pl ->
  (forall o, p_critic2_optim p = Some o -> p_critic2 p = Some o) ->
  exists c2, pl_critic2 pl = Some (c2, c2) /\ (forall x, p_critic2 p = Some x -> c2 = x) /\ (p_critic2 p = None -> c2 = map (p_fresh p) (p_critic p)).
Proof. exact C295_trained_lemma. Qed.
Print Assumptions C295_trained.

(** C295. If only the optimizer is given, the second critic is a copy that no optimizer changes. *)
Theorem C295_untrained_refuted : forall (c : cls) (p : params) (pl : policy) (o : list nat), twin c -> construct c p = Ok pl ->
  p_critic2 p = None -> p_critic2_optim p = Some o -> (forall x y, In y o -> p_fresh p x <> y) ->
  exists c2, pl_critic2 pl = Some (c2, o) /\ (forall x, In x c2 -> ~ In x o) /\ length c2 = length (p_critic p).
Proof. exact C295_untrained_refuted_lemma. Qed.
Print Assumptions C295_untrained_refuted.

(** ** Non-vacuity: the defaults of the classes, with parameters 0 and 1 of the critic, and changes of them. *)
Definition half : Qc := Q2Qc (1 # 2).
Definition two : Qc := Q2Qc 2.
Definition pdef (s : aspace) (sc : bool) (g : Qc) (n : Z) (a : alpha) (b : option bound) (c2 o2 : option (list nat)) : params :=
  mkP s sc b g half n half None 51 (Q2Qc (-10)) (Q2Qc 10) 200 32 8 8 100 half half 10 2 TMin a (Some 1%Qc) (Some 4) [0; 1] c2 o2 (fun x => 10 + x).
Definition pbox := pdef SBox true half 1 (AFloat half) (Some BClip) None None.
Example C289_ex : forallb (fun c => is_ok (construct c pbox)) [DQN; C51; QRDQN; IQN; FQF; PG; A2C; PPO; NPG; TRPO; DDPG; TD3; SAC; REDQ; Imitation; BCQ; CQL; GAIL; TD3BC; ICM; PSRL; DiscreteBCQ; DiscreteCQL; DiscreteCRR; BDQ; Rainbow] = true
  /\ construct DiscreteSAC pbox = Err ValueError
  /\ construct DiscreteSAC (with_space pbox SDiscrete) = Ok (mkPol Discr false None (Some half) (Some half) (Some 1%Z) (Some ([10; 11], [10; 11]))).
Proof. split; [vm_compute; reflexivity|]. split; [vm_compute; reflexivity|]. reflexivity. Qed.
Example C290_ex : construct DDPG (pdef SBox true two 1 (AFloat half) (Some BClip) None None) = Err AssertionError
  /\ actions_ok BCQ (pdef SBox true two 1 (AFloat half) (Some BClip) None None)
  /\ is_ok (construct BCQ (pdef SBox true two 1 (AFloat half) (Some BClip) None None)) = true.
Proof.
  split; [vm_compute; reflexivity|]. split; [|vm_compute; reflexivity].
  unfold actions_ok. cbn. split; [discriminate|]. split; [reflexivity|]. split; [discriminate|]. split; [|congruence].
  intros _. split; [reflexivity|]. split; [right; left; reflexivity|intros []].
Qed.
Example C291_ex : construct DQN (pdef SDiscrete true half 0 (AFloat half) None None None) = Err AssertionError
  /\ is_ok (construct TD3 (with_nstep pbox 0)) = true /\ is_ok (construct SAC (with_nstep pbox (-3))) = true.
Proof. split; [vm_compute; reflexivity|]. split; vm_compute; reflexivity. Qed.
Example C292_ex : construct SAC (pdef SDiscrete false half 1 (AFloat half) None None None) = Err ValueError
  /\ option_map pl_type (match construct DQN pbox with Ok pl => Some pl | _ => None end) = Some Conti
  /\ is_ok (construct DDPG (pdef SDiscrete false half 1 (AFloat half) None None None)) = true.
Proof. split; [vm_compute; reflexivity|]. split; vm_compute; reflexivity. Qed.
Example C293_ex : construct PPO (pdef SBox true half 1 (AFloat half) (Some BEmpty) None None) = Err ValueError
  /\ is_ok (construct PPO (pdef SBox true half 1 (AFloat half) None None None)) = true
  /\ construct DDPG (pdef SBox true half 1 (AFloat half) (Some BTanh) None None) = Err AssertionError.
Proof. split; [vm_compute; reflexivity|]. split; vm_compute; reflexivity. Qed.
Example C294_ex : construct SAC (with_alpha pbox (AInt 1)) = Err TypeError /\ is_ok (construct SAC (with_alpha pbox (ATuple [1] true))) = true
  /\ construct REDQ (with_alpha pbox (ATuple [] true)) = Err ValueError.
Proof. split; [vm_compute; reflexivity|]. split; vm_compute; reflexivity. Qed.
Example C295_ex : option_map pl_critic2 (match construct SAC (pdef SBox true half 1 (AFloat half) (Some BClip) None (Some [4; 5])) with Ok pl => Some pl | _ => None end)
    = Some (Some ([10; 11], [4; 5]))
  /\ construct TD3 (pdef SBox true half 1 (AFloat half) (Some BClip) (Some [4; 5]) None) = Err ValueError
  /\ option_map pl_critic2 (match construct SAC (pdef SBox true half 1 (AFloat half) (Some BClip) (Some [4; 5]) None) with Ok pl => Some pl | _ => None end)
    = Some (Some ([4; 5], [4; 5])).
Proof. split; [vm_compute; reflexivity|]. split; vm_compute; reflexivity. Qed.
Example C289_type_ex : option_map pl_type (match construct PPO pbox with Ok pl => Some pl | _ => None end) = Some Conti
  /\ option_map pl_type (match construct PG (pdef SMultiBinary false half 1 (AFloat half) None None None) with Ok pl => Some pl | _ => None end) = Some Discr.
Proof. split; vm_compute; reflexivity. Qed.
