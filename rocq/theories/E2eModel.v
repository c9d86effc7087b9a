(** * Model of one policy update on a collected buffer.

    [BasePolicy.update] (policy/base.py:506-553) up to and including [process_fn]: sample from the
    buffer, look the rows up, compute the targets.  The networks are an arbitrary function [V] from
    an observation (its stacked frames) to a number.  Reward normalisation is off. *)
From Verif Require Export CollectModel ReturnsModel.
Open Scope nat_scope.

Section E2e.
Context {Ob A Inf : Type}.
Variable o : opts.
Variable m : mgr Ob A Inf Qc.
Variable rnd_b : nat -> nat.
Variable rnd : nat -> nat -> nat.
Variable V : list (option Ob) -> Qc.

(** data/buffer/base.py:526-534 [sample]. *)
Definition m_sample (batch_size : Z) : res (list (row_out Ob A Inf Qc) * list Z) :=
  let* idx := m_sample_indices o m rnd_b rnd (Some batch_size) in
  let idx := map Z.of_nat idx in
  let* rows := m_getitem o m idx in
  Ok (rows, idx).

(** modelfree/ddpg.py:136-141 [_target_q]: the value of the looked-up next observations, one column.
    [compute_nstep_return] is modelled with a total function, so a failing lookup gives zeros here. *)
Definition target_q (idx : list Z) : list (list Qc) :=
  match m_getitem o m idx with
  | Ok rows => map (fun r => [V (o_obs_next r)]) rows
  | Err _ => map (fun _ => [0%Qc]) idx
  end.

(** modelfree/ddpg.py:143-156 [process_fn] inside policy/base.py:506-553 [update]: the batch and its
    [returns]. *)
Definition off_policy (batch_size : Z) (gamma : Qc) (N : nat) : res (list (row_out Ob A Inf Qc) * list (list Qc)) :=
  let* x := m_sample batch_size in
  let* ret := compute_nstep_return (mgr_view m) (length (fst x)) (snd x) target_q gamma N false in
  Ok (fst x, ret).

(** What [compute_episodic_return] reads from the batch. *)
Definition facts (r : row_out Ob A Inf Qc) : Qc * bool * bool :=
  match o_cur r with Some s => (s_rew s, s_term s, s_trunc s) | None => (0%Qc, false, false) end.

(** modelfree/a2c.py:108-116 [process_fn], 118-156 [_compute_returns] (also used by PPO), with
    [sample_size=0] as in the on-policy trainer: the batch, its [returns] and its [adv].  The
    minibatches in which the critic is evaluated do not matter, since [V] acts row by row. *)
Definition on_policy (gamma lam : Qc) : res (list (row_out Ob A Inf Qc) * (list Qc * list Qc)) :=
  let* x := m_sample 0%Z in
  let v_s := map (fun r => V (o_obs r)) (fst x) in
  let v_s_ := map (fun r => V (o_obs_next r)) (fst x) in
  let* ret := compute_episodic_return (mgr_view m) (map facts (fst x)) (snd x) (Some v_s_) (Some v_s) gamma lam in
  Ok (fst x, ret).

(** modelfree/pg.py:127-173 [process_fn]: every next state has the value [mean] (of the running
    statistics of returns), lambda is 1. *)
Definition pg_policy (mean gamma : Qc) : res (list (row_out Ob A Inf Qc) * list Qc) :=
  let* x := m_sample 0%Z in
  let* ret := compute_episodic_return (mgr_view m) (map facts (fst x)) (snd x) (Some (map (fun _ => mean) (snd x))) None gamma 1%Qc in
  Ok (fst x, fst ret).
End E2e.
