(** * Model of the callbacks of the high-level trainer ([tianshou/highlevel/trainer.py])

    The events of a run of the trainer (TrainModel) are the calls of train_fn, test_fn and collect in
    their order; the callbacks act on the eps of the policy (DQNPolicy.set_eps, policy/modelfree/dqn.py:107-109),
    which the next collection reads.  The log line of the linear decay is left out. *)
From Verif Require Export TrainModel ExperModel.
Open Scope Z_scope.

(** epoch_train_callback: EpochTrainCallbackDQNSetEps (83-94), EpochTrainCallbackDQNEpsLinearDecay (97-118). *)
Inductive train_cb := TcSetEps (eps : Qc) | TcDecay (eps final : Qc) (decay : Z).
Definition call_train (cb : train_cb) (env_step : Z) : res Qc :=
  match cb with
  | TcSetEps eps => Ok eps
  | TcDecay eps final decay => eps_at eps final decay env_step
  end.
(** The eps a collection was made with: the [k]-th training collection, the [k]-th test. *)
Inductive use := UTrain (k : nat) (eps : Qc) | UTest (w : tkind) (k : nat) (eps : Qc).
(** The events in order.  [tr] is epoch_train_callback (called by _collect_training_data,
    trainer/base.py:496-501), [te] the eps of EpochTestCallbackDQNSetEps (121-130; called by
    test_episode, trainer/utils.py:28-30); without a callback nothing is called
    (highlevel/agent.py:217-228).  A callback that raises ends the run. *)
Fixpoint replay (tr : option train_cb) (te : option Qc) (l : list event) (eps : Qc) : list use * res Qc :=
  match l with
  | [] => ([], Ok eps)
  | ETrainFn _ env_step :: l =>
      match tr with
      | None => replay tr te l eps
      | Some cb => match call_train cb env_step with
                   | Err e => ([], Err e)
                   | Ok eps => replay tr te l eps
                   end
      end
  | ECollect k :: l => let '(us, r) := replay tr te l eps in (UTrain k eps :: us, r)
  | ETest w _ k :: l =>
      let eps := match te with Some e => e | None => eps end in
      let '(us, r) := replay tr te l eps in (UTest w k eps :: us, r)
  | _ :: l => replay tr te l eps
  end.

(** EpochStopCallbackRewardThreshold.should_stop (145-153): [spec] is env.spec (None if the
    environment has none) with its reward_threshold. *)
Definition should_stop (threshold : option Qc) (spec : option (option Qc)) (mean_rewards : Qc) : res bool :=
  let* t := match threshold with
            | Some t => Ok t
            | None => match spec with
                      | None => Err AttributeError
                      | Some None => Err AssertionError
                      | Some (Some t) => Ok t
                      end
            end in
  Ok (Qcleb t mean_rewards).
