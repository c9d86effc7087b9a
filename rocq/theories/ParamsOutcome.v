(** * Creating the arguments of every algorithm, by computation on its lists of names *)
From Coq Require Import String.
From Verif Require Import Py Num PyLemmas ParamsModel ParamsSpec.
Import List.
Open Scope string_scope.
Open Scope list_scope.
Open Scope nat_scope.

Definition adm (a : algo) (e : envs) (p : string -> pv) : Prop :=
  forall k, In k (fields a) -> admissible e k (p k).

Lemma sched_cases (e : envs) (k : string) (v : pv) (o : optid) :
  In k factory_keys -> admissible e k v ->
  (v = PNone /\ scheduler_of o v = Ok None)
  \/ exists f, v = PLrFac f /\ scheduler_of o v = Ok (Some (o, f)).
Proof.
  intros Hk [H _]. destruct (H Hk) as [-> | [f ->]]; [left | right; exists f]; auto.
Qed.

Lemma noise_cases (e : envs) (v : pv) :
  admissible e "exploration_noise" v ->
  exists w, noise_value e v = Ok w /\ reaches e "exploration_noise" v w.
Proof.
  intros (_ & H & _).
  destruct v; try (eexists; split; [reflexivity |];
    apply reach_same; [intros [E _]; discriminate | intros [_ [? E]]; discriminate
                      | intros [[E | [E | []]] _]; discriminate | intros [E _]; discriminate]).
  destruct (H eq_refl _ eq_refl) as (sh & m & -> & Hm).
  exists (PNoise (m * fraction)%Qc). split; [| apply (reach_noise _ _ _ _ sh); reflexivity].
  cbn -[Qcleb Qcmult]. unfold guard. destruct (Qcleb_spec 0 (m * fraction)); [reflexivity |].
  exfalso. apply (Qclt_not_le _ _ H0). exact Hm.
Qed.

Lemma value_cases (e : envs) (k : string) (v : pv) :
  In k ["policy_noise"; "noise_clip"] -> admissible e k v ->
  exists w, env_value e v = Ok w /\ reaches e k v w.
Proof.
  intros Hk (_ & _ & H).
  assert (Hne : k <> "alpha" /\ k <> "exploration_noise" /\ k <> "action_scaling").
  { destruct Hk as [<- | [<- | []]]; repeat split; discriminate. }
  destruct Hne as (N1 & N2 & N3).
  destruct v; try (eexists; split; [reflexivity |];
    apply reach_same; [intros [E _]; contradiction | intros [E _]; contradiction
                      | intros [_ [? E]]; discriminate | intros [E _]; contradiction]).
  destruct (H Hk _ eq_refl) as (sh & m & ->).
  eexists. split; [reflexivity | apply (reach_value _ _ _ _ sh); auto].
Qed.

Lemma action_prod_spec (e : envs) : action_prod e = Q2Qc (inject_Z (Z.of_nat (actions e))).
Proof.
  destruct e as [sh m | n]; [| reflexivity]. cbn [action_prod actions]. do 2 f_equal.
  induction sh as [| x sh IH]; [reflexivity |]. cbn [fold_right]. rewrite IH. lia.
Qed.

Lemma alpha_reaches (e : envs) (v : pv) : reaches e "alpha" v (alpha_value e v).
Proof.
  destruct v; try (apply reach_same; [intros [_ E]; discriminate | intros [E _]; discriminate
    | intros [[E | [E | []]] _]; discriminate | intros [E _]; discriminate]).
  cbn [alpha_value]. unfold create_auto_alpha. rewrite action_prod_spec. constructor. reflexivity.
Qed.

Lemma is_continuous_spec (e : envs) : is_continuous e = true <-> exists sh m, e = Continuous sh m.
Proof.
  destruct e; cbn; split; try discriminate; eauto.
  intros (? & ? & E). discriminate.
Qed.

Lemma scaling_reaches (e : envs) (v : pv) : reaches e "action_scaling" v (scaling_value e v).
Proof.
  assert (G : v <> PStr "default" -> reaches e "action_scaling" v v).
  { intros N. apply reach_same; [intros [E _]; discriminate | intros [E _]; discriminate
    | intros [[E | [E | []]] _]; discriminate | intros [_ E]; contradiction]. }
  destruct v; try (apply G; discriminate).
  cbn [scaling_value]. destruct (String.eqb_spec s "default") as [-> | N].
  - apply reach_scaling; [reflexivity | apply is_continuous_spec].
  - apply G. intros E. inversion E. contradiction.
Qed.

Lemma plain_reaches (e : envs) (k : string) (v : pv) :
  ~ In k ["alpha"; "exploration_noise"; "policy_noise"; "noise_clip"; "action_scaling"] ->
  reaches e k v v.
Proof.
  intros N. apply reach_same;
    [intros [-> _]; apply N; cbn; auto | intros [-> _]; apply N; cbn; auto
    | intros [[<- | [<- | []]] _]; apply N; cbn; auto | intros [-> _]; apply N; cbn; auto 6].
Qed.

Ltac norm := cbv -[scheduler_of noise_value env_value alpha_value scaling_value flt
  String.append Q2Qc].

(** The sets of keys are compared by computation. *)
Definition memb (k : string) (l : list string) : bool := existsb (String.eqb k) l.

Lemma memb_In (k : string) (l : list string) : memb k l = true <-> In k l.
Proof.
  unfold memb. rewrite existsb_exists. split.
  - intros (x & Hx & E). apply String.eqb_eq in E. subst. exact Hx.
  - intros H. exists k. split; [exact H | apply String.eqb_refl].
Qed.

Fixpoint nodupb (l : list string) : bool :=
  match l with [] => true | x :: t => negb (memb x t) && nodupb t end.

Lemma nodupb_ok (l : list string) : nodupb l = true -> NoDup l.
Proof.
  induction l as [| x l IH]; [constructor |]. cbn. intros H.
  apply andb_true_iff in H. destruct H as [H1 H2]. constructor; [| auto].
  intros H. apply memb_In in H. rewrite H in H1. discriminate.
Qed.

Definition required (a : algo) : list string :=
  map fst (filter (fun kd => match snd kd with None => true | _ => false end) (signature a)).

Definition kw_good (a : algo) (kw : dict) : bool :=
  nodupb (map fst (explicit a ++ added a ++ kw))
  && forallb (fun k => memb k (map fst (signature a))) (map fst (explicit a ++ added a ++ kw))
  && forallb (fun k => memb k (map fst (explicit a ++ added a ++ kw))) (required a).

(** Everything about the arguments, in one statement over finite lists. *)
Definition outcome (a : algo) (e : envs) (p : string -> pv) : Prop :=
  (exists kw, create_kwargs a e p = Ok kw /\ kw_good a kw = true)
  /\ exists d, policy_args a e p = Ok d
     /\ map fst d = map fst (signature a)
     /\ Forall (fun k => exists w, dget k d = Some w /\ reaches e k (p k) w)
               (filter (fun k => negb (memb k consumed)) (fields a))
     /\ (exists w, dget "lr_scheduler" d = Some w /\ joint (wanted p (schedulers a)) w)
     /\ Forall (fun no => exists x, dget (fst no) d = Some (PTok x)
                                    /\ dget (snd no) d = Some (PTok (x ++ ".optim")%string)) (trained a).

Ltac sched a o k Hadm :=
  let H := fresh "Hs" in
  let E := fresh "Es" in
  let f := fresh "f" in
  let Hin := fresh in
  assert (Hin : In k (fields a)) by (apply memb_In; reflexivity);
  destruct (sched_cases _ k _ o ltac:(apply memb_In; reflexivity) (Hadm k Hin)) as [[E H] | (f & E & H)];
  clear Hin.

Ltac reach :=
  match goal with
  | |- exists w, Some ?x = Some w /\ reaches _ ?k _ w => exists x; split; [reflexivity |];
    first [ apply alpha_reaches | apply scaling_reaches | assumption
          | apply plain_reaches; intros HH; apply memb_In in HH; discriminate HH ]
  end.

Ltac rew_all :=
  repeat match goal with
  | H : scheduler_of _ _ = _ |- _ => rewrite H
  | H : noise_value _ _ = _ |- _ => rewrite H
  | H : env_value _ _ = _ |- _ => rewrite H
  end.
Ltac tidy := repeat match goal with H : ?p ?k = PNone |- _ => rewrite H | H : ?p ?k = PLrFac _ |- _ => rewrite H end.

Ltac fin :=
  split;
  [ eexists; split; [norm; rew_all; norm; rew_all; norm; rew_all; norm; rew_all; norm; reflexivity | vm_compute; reflexivity]
  | eexists; split; [norm; rew_all; norm; rew_all; norm; rew_all; norm; rew_all; norm; reflexivity |];
    split; [reflexivity |];
    split; [norm; repeat (apply Forall_cons; [reach |]); apply Forall_nil |];
    split; [norm; tidy; eexists; split; [reflexivity | constructor; cbn; auto] |];
    norm; repeat (apply Forall_cons; [eexists; split; reflexivity |]); apply Forall_nil ].

Ltac noise a Hadm :=
  let w := fresh "w" in
  let Hin := fresh in
  assert (Hin : In "exploration_noise" (fields a)) by (apply memb_In; reflexivity);
  destruct (noise_cases _ _ (Hadm "exploration_noise" Hin)) as (w & ? & ?); clear Hin.
Ltac val a k Hadm :=
  let w := fresh "w" in
  let Hin := fresh in
  assert (Hin : In k (fields a)) by (apply memb_In; reflexivity);
  destruct (value_cases _ k _ ltac:(apply memb_In; reflexivity) (Hadm k Hin)) as (w & ? & ?); clear Hin.

Lemma outcome_ok (a : algo) (e : envs) (p : string -> pv) : adm a e p -> env_fits a e -> outcome a e p.
Proof.
  intros Hadm Hfit. destruct a.
  1-5: match goal with H : adm ?a _ _ |- _ => sched a OOptim "lr_scheduler_factory" Hadm end; fin.
  1-2: destruct Hfit as [n ->]; match goal with H : adm ?a _ _ |- _ => sched a OOptim "lr_scheduler_factory" Hadm end; fin.
  - noise DDPG Hadm. sched DDPG OActor "actor_lr_scheduler_factory" Hadm;
    sched DDPG OCritic1 "critic_lr_scheduler_factory" Hadm; fin.
  - destruct Hfit as (sh & m & ->).
    noise REDQ Hadm. sched REDQ OActor "actor_lr_scheduler_factory" Hadm;
    sched REDQ OCritic1 "critic_lr_scheduler_factory" Hadm; fin.
  - noise SAC Hadm. sched SAC OActor "actor_lr_scheduler_factory" Hadm;
    sched SAC OCritic1 "critic1_lr_scheduler_factory" Hadm;
    sched SAC OCritic2 "critic2_lr_scheduler_factory" Hadm; fin.
  - sched DSAC OActor "actor_lr_scheduler_factory" Hadm;
    sched DSAC OCritic1 "critic1_lr_scheduler_factory" Hadm;
    sched DSAC OCritic2 "critic2_lr_scheduler_factory" Hadm; fin.
  - noise TD3 Hadm. val TD3 "policy_noise" Hadm. val TD3 "noise_clip" Hadm.
    sched TD3 OActor "actor_lr_scheduler_factory" Hadm;
    sched TD3 OCritic1 "critic1_lr_scheduler_factory" Hadm;
    sched TD3 OCritic2 "critic2_lr_scheduler_factory" Hadm; fin.
Qed.
