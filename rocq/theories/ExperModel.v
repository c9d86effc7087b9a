(** * Model of high-level experiments: configuration, trainer creation, schedules, runs, seeds,
    launchers and persistence ([tianshou/highlevel/*.py], [tianshou/evaluation/launcher.py],
    [tianshou/utils/lr_scheduler.py])

    Environments, policies and loggers are left abstract; numbers are exact. *)
From Verif Require Export TrainModel.
From Coq Require Export String.
From Coq Require Import DecimalString.
Export List.
Open Scope string_scope.
Open Scope list_scope.
Open Scope Z_scope.

(** f"{n}" of an integer. *)
Definition str_of_Z (n : Z) : string := NilZero.string_of_int (Z.to_int n).

(** ** SamplingConfig (config.py:10-193) *)
(** The fields that are read here; the remaining ones are the options of the replay buffer. *)
Record sampling := mkSC {
  sc_epochs : Z; sc_step_per_epoch : Z; sc_batch : option Z;
  sc_train_envs : Z; sc_train_seed : Z; sc_test_envs : Z; sc_test_episodes : Z;
  sc_buffer_size : Z; sc_step_per_collect : option Z; sc_episode_per_collect : option Z;
  sc_repeat : option Z; sc_update_per_step : Q; sc_start : Z; sc_start_random : bool }.
Definition set_train_envs sc x := mkSC (sc_epochs sc) (sc_step_per_epoch sc) (sc_batch sc) x (sc_train_seed sc) (sc_test_envs sc) (sc_test_episodes sc) (sc_buffer_size sc) (sc_step_per_collect sc) (sc_episode_per_collect sc) (sc_repeat sc) (sc_update_per_step sc) (sc_start sc) (sc_start_random sc).
Definition set_train_seed sc x := mkSC (sc_epochs sc) (sc_step_per_epoch sc) (sc_batch sc) (sc_train_envs sc) x (sc_test_envs sc) (sc_test_episodes sc) (sc_buffer_size sc) (sc_step_per_collect sc) (sc_episode_per_collect sc) (sc_repeat sc) (sc_update_per_step sc) (sc_start sc) (sc_start_random sc).
(** test_seed (168-170). *)
Definition test_seed (sc : sampling) : Z := sc_train_seed sc + sc_train_envs sc.
Definition given {A} (o : option A) : Z := match o with Some _ => 1 | None => 0 end.
(** __post_init__ (172-193); warnings are left out, [cpu] is multiprocessing.cpu_count(). *)
Definition post_init (cpu : Z) (sc : sampling) : res sampling :=
  let sc := if sc_train_envs sc =? -1 then set_train_envs sc cpu else sc in
  guard (negb (negb (sc_test_episodes sc =? 0) && (sc_test_envs sc =? 0))) ZeroDivisionError (
  guard (given (sc_step_per_collect sc) + given (sc_episode_per_collect sc) =? 1) AssertionError (
  Ok sc)).

(** ** Creation of the trainer (agent.py:164-252) *)
(** The arguments of BaseTrainer that depend on the configuration.  Callbacks are left out. *)
Record targs := mkTA {
  ta_kind : kind; ta_max_epoch : Z; ta_step_per_epoch : Z; ta_batch : option Z;
  ta_step_per_collect : option Z; ta_episode_per_collect : option Z;
  ta_repeat : option Z; ta_update_per_step : Q; ta_episode_per_test : option Z;
  ta_test_in_train : bool; ta_save_best : bool; ta_save_checkpoint : bool }.
(** OnPolicyAgentFactory.create_trainer (165-207); [enabled] is that of the policy persistence
    (get_save_checkpoint_fn gives None when disabled).  Arguments that are not passed have the
    defaults of BaseTrainer (trainer/base.py:152-178). *)
Definition create_onpolicy (enabled : bool) (sc : sampling) : targs :=
  mkTA Onpolicy (sc_epochs sc) (sc_step_per_epoch sc) (sc_batch sc) (sc_step_per_collect sc) None
       (sc_repeat sc) 1 (Some (sc_test_episodes sc)) false true enabled.
(** OffPolicyAgentFactory.create_trainer (210-252). *)
Definition create_offpolicy (enabled : bool) (sc : sampling) : targs :=
  mkTA Offpolicy (sc_epochs sc) (sc_step_per_epoch sc) (sc_batch sc) (sc_step_per_collect sc) None
       None (sc_update_per_step sc) (Some (sc_test_episodes sc)) false true false.
Definition truthy (o : option Z) : bool := match o with Some n => negb (n =? 0) | None => false end.
(** BaseCollector._validate_n_step_n_episode (data/collector.py:498-512). *)
Definition validate_request (n_step n_episode : option Z) : res unit :=
  if negb (truthy n_step) && negb (truthy n_episode) then Err ValueError else Ok tt.
(** What the trainer asks of the training collector (trainer/base.py:499-502) and of the test
    collector (trainer/utils.py:30). *)
Definition train_request (ta : targs) : res unit := validate_request (ta_step_per_collect ta) (ta_episode_per_collect ta).
Definition test_request (ta : targs) : res unit := validate_request None (ta_episode_per_test ta).
(** The trainer with both collectors and without a stop callback. *)
Definition trainer_config (ta : targs) : config :=
  mkCfg (ta_kind ta) (ta_max_epoch ta) (ta_step_per_epoch ta) (ta_batch ta) (ta_update_per_step ta)
        true true true (ta_episode_per_test ta) None (ta_save_best ta) None None.

(** ** Learning rate and epsilon schedules *)
Definition cdiv (a b : Z) : Z := - ((- a) / b).
(** LRSchedulerFactoryLinear._LRLambda (params/lr_scheduler.py:26-35).  Division by a zero
    max_update_num (nan or infinity) is given as ZeroDivisionError. *)
Definition max_update_num (sc : sampling) : res Z :=
  match sc_step_per_collect sc with
  | None => Err AssertionError
  | Some n => guard (negb (n =? 0)) ZeroDivisionError (Ok (cdiv (sc_step_per_epoch sc) n * sc_epochs sc))
  end.
Definition lr_factor (sc : sampling) (k : Z) : res Qc :=
  let* m := max_update_num sc in
  guard (negb (m =? 0)) ZeroDivisionError (Ok (1 - Q2Qc (inject_Z k) / Q2Qc (inject_Z m))%Qc).
(** EpochTrainCallbackDQNEpsLinearDecay.callback (trainer.py:107-118). *)
Definition eps_at (eps final : Qc) (decay env_step : Z) : res Qc :=
  if env_step <=? decay then
    guard (negb (decay =? 0)) ZeroDivisionError
      (Ok (eps - Q2Qc (inject_Z env_step) / Q2Qc (inject_Z decay) * (eps - final))%Qc)
  else Ok final.

(** ** Experiment (experiment.py:119-470) *)
Record xconfig := mkX {
  x_seed : Z; x_restore : option string; x_train : bool; x_watch : bool; x_watch_episodes : Z;
  x_persist : bool; x_log_file : bool }.
Inductive xevent :=
| XMakeDir (dir : string)
| XLogFile (dir : string)
| XSeed (seed : Z)
| XEnvs (train test : Z) (watch : bool)
| XPickle (dir : string)
| XLogger (dir : string)
| XPolicy
| XCollectors
| XRestore (dir : string)
| XTrainer (ta : targs)
| XPrefill (n : Z) (random : bool)
| XTrain
| XFinalize
| XWatch (n : Z).
Definition restore_dir (c : xconfig) : option string :=
  match x_restore c with Some "" => None | d => d end.
(** create_experiment_world (218-352): [dir] is the persistence directory, [exists_] whether it is
    there already, [collision] raise_error_on_dirname_collision (FileExistsError, here
    RuntimeError). *)
Definition create_world (factory : bool -> sampling -> targs) (c : xconfig) (sc : sampling) (dir : string) (exists_ collision : bool)
  : list xevent * res unit :=
  if x_persist c && exists_ && collision then ([], Err RuntimeError)
  else
    ((if x_persist c then [XMakeDir dir] else [])
      ++ (if x_persist c && x_log_file c then [XLogFile dir] else [])
      ++ [XSeed (x_seed c); XEnvs (sc_train_envs sc) (sc_test_envs sc) (x_watch c)]
      ++ (if x_persist c then [XPickle dir; XLogger dir] else [])
      ++ [XPolicy]
      ++ (if x_train c then [XCollectors] else [])
      ++ (match restore_dir c with Some d => [XRestore d] | None => [] end)
      ++ (if x_train c then [XTrainer (factory (x_persist c) sc)] else []), Ok tt).
(** run (354-453): [train] is the outcome of trainer.run(). *)
Definition run_experiment {Info : Type} (factory : bool -> sampling -> targs) (train : res Info)
    (c : xconfig) (sc : sampling) (dir : string) (exists_ collision : bool)
  : list xevent * res (option Info) :=
  match create_world factory c sc dir exists_ collision with
  | (ev, Err e) => (ev, Err e)
  | (ev, Ok _) =>
      let ev := ev ++ (if x_persist c && x_log_file c then [XLogFile dir] else []) in
      let trainer_result : option Info := None in
      match (if x_train c then
               let ev := ev ++ (if 0 <? sc_start sc then [XPrefill (sc_start sc) (sc_start_random sc)] else []) in
               let ev := ev ++ [XTrain] in
               match train with
               | Err e => (ev, Err e)
               | Ok _ => (ev ++ (if x_persist c then [XFinalize] else []), Ok tt)
               end
             else (ev, Ok tt)) with
      | (ev, Err e) => (ev, Err e)
      | (ev, Ok _) =>
          if x_watch c then
            match validate_request None (Some (x_watch_episodes c)) with
            | Err e => (ev, Err e)
            | Ok _ => (ev ++ [XWatch (x_watch_episodes c)], Ok trainer_result)
            end
          else (ev, Ok trainer_result)
      end
  end.

(** ** Seeds *)
Record experiment := mkExp {
  e_seed : Z; e_sampling : sampling; e_name : string;
  e_env_train_seed : Z; e_env_test_seed : Z   (* of the EnvFactoryRegistered *) }.
(** get_seeding_info_as_str (187-200). *)
Definition seeding_info (e : experiment) : string :=
  String.append "exp_seed=" (String.append (str_of_Z (e_seed e))
  (String.append "_" (String.append "train_seed=" (String.append (str_of_Z (sc_train_seed (e_sampling e)))
  (String.append "_" (String.append "test_seed=" (str_of_Z (test_seed (e_sampling e))))))))).
(** build_seeded_collection (664-690) of a builder that would build [b]. *)
Definition seeded_experiment (b : experiment) (i : nat) : experiment :=
  let e := mkExp (e_seed b + Z.of_nat i)
    (set_train_seed (e_sampling b) (sc_train_seed (e_sampling b) + Z.of_nat i * sc_train_envs (e_sampling b)))
    (e_name b) (e_env_train_seed b) (e_env_test_seed b) in
  mkExp (e_seed e) (e_sampling e) (String.append (e_name e) (String.append "_" (seeding_info e)))
        (e_env_train_seed e) (e_env_test_seed e).
Definition seeded_collection (b : experiment) (n : nat) : list experiment := map (seeded_experiment b) (seq 0 n).
(** BaseVectorEnv.seed of an int (env/venvs.py:324-350). *)
Definition venv_seeds (seed n : Z) : list Z := map (fun j => seed + Z.of_nat j) (seq 0 (Z.to_nat n)).
(** EnvFactoryRegistered.create_venv (env.py:488-501) for training, test and watch. *)
Inductive env_mode := MTrain | MTest | MWatch.
Definition registered_seeds (e : experiment) (mode : env_mode) : list Z :=
  let seed := match mode with MTrain => e_env_train_seed e | _ => e_env_test_seed e end in
  venv_seeds seed (match mode with MTrain => sc_train_envs (e_sampling e) | MTest => sc_test_envs (e_sampling e) | MWatch => 1 end).

(** ** Launchers (evaluation/launcher.py) *)
Section Launcher.
Context {X R : Type}.
(** The outcome of experiment_runner(exp).  A result equal to the string "failed" is left out. *)
Variable runner : X -> res R.
(** _return_from_successful_and_failed_exps (60-74). *)
Definition return_from (successful : list R) (failed : list X) : res (list R) :=
  match successful with [] => Err RuntimeError | _ => Ok successful end.
(** SequentialExpLauncher._launch (94-104) with _safe_execute (51-57). *)
Fixpoint sequential_loop (exps : list X) (successful : list R) (failed : list X) : list R * list X :=
  match exps with
  | [] => (successful, failed)
  | x :: exps =>
      match runner x with
      | Ok r => sequential_loop exps (successful ++ [r]) failed
      | Err _ => sequential_loop exps successful (failed ++ [x])
      end
  end.
Definition sequential (exps : list X) : res (list R) :=
  let '(s, f) := sequential_loop exps [] [] in return_from s f.
(** JoblibExpLauncher._launch (128-141): the results come in the order of the experiments. *)
Fixpoint joblib_loop (pairs : list (X * res R)) (successful : list R) (failed : list X) : list R * list X :=
  match pairs with
  | [] => (successful, failed)
  | (x, Err _) :: pairs => joblib_loop pairs successful (failed ++ [x])
  | (_, Ok r) :: pairs => joblib_loop pairs (successful ++ [r]) failed
  end.
Definition joblib (exps : list X) : res (list R) :=
  let results := map runner exps in
  let '(s, f) := joblib_loop (combine exps results) [] [] in return_from s f.
(** launch (76-87). *)
Definition launch (_launch : list X -> res (list R)) (exps : list X) : res (list R) :=
  match exps with
  | [x] => let* r := runner x in Ok [r]
  | _ => _launch exps
  end.
End Launcher.

(** ** Persistence (persistence.py) *)
Inductive pmode := StateDict | WholePolicy.
Definition stem (m : pmode) : string := match m with StateDict => "policy_state_dict" | WholePolicy => "policy" end.
(** Mode.get_filename (75-76) and the name of a checkpoint (133-135). *)
Definition filename (m : pmode) : string := String.append (stem m) ".pt".
Definition checkpoint_name (m : pmode) (epoch : Z) : string :=
  String.append (stem m) (String.append "_epoch_" (String.append (str_of_Z epoch) ".pt")).
Section Persist.
(** [P]: the state dictionary of a policy, [E]: the rest of the policy object, [D]: what the
    additional persistence items (such as the statistics of observations) hold. *)
Context {P E D : Type}.
Inductive content := FState (p : P) | FPolicy (p : P) (e : E) | FItem (d : D).
Definition fs := string -> option content.
Definition write (f : fs) (name : string) (x : content) : fs := fun n => if String.eqb n name then Some x else f n.
(** A policy and the data of the items (by file name). *)
Record live := mkLive { l_params : P; l_extra : E; l_items : list (string * D) }.
Definition save_policy (m : pmode) (l : live) : content :=
  match m with StateDict => FState (l_params l) | WholePolicy => FPolicy (l_params l) (l_extra l) end.
(** PersistenceGroup.persist (49-53) with items that write a file each. *)
Definition persist_items (l : live) (f : fs) : fs :=
  fold_left (fun f kd => write f (fst kd) (FItem (snd kd))) (l_items l) f.
(** PolicyPersistence.persist (95-111), also save_best_fn (129-133). *)
Definition persist (enabled : bool) (m : pmode) (l : live) (f : fs) : fs :=
  if negb enabled then f else persist_items l (write f (filename m) (save_policy m l)).
(** save_checkpoint_fn (139-155); when disabled there is none. *)
Definition save_checkpoint (enabled : bool) (m : pmode) (l : live) (epoch : Z) (f : fs) : fs :=
  if negb enabled then f else persist_items l (write f (checkpoint_name m epoch) (save_policy m l)).
(** PolicyPersistence.restore (113-127) from a directory with content [f]; a missing file is
    FileNotFoundError (here KeyError), a file of the wrong kind TypeError. *)
Definition restore_item (f : fs) (kd : string * D) : res (string * D) :=
  match f (fst kd) with
  | Some (FItem d) => Ok (fst kd, d)
  | Some _ => Err TypeError
  | None => Err KeyError
  end.
Definition restore (m : pmode) (f : fs) (l : live) : res live :=
  let* p := match m, f (filename m) with
            | _, None => Err KeyError
            | StateDict, Some (FState p) => Ok p
            | WholePolicy, Some (FPolicy p _) => Ok p
            | _, Some _ => Err TypeError
            end in
  let* items := mapM (restore_item f) (l_items l) in
  Ok (mkLive p (l_extra l) items).
(** A run: training changes what is live, the trainer saves the best policy and checkpoints. *)
Inductive pop := Change (l : live) | SaveBest | SaveCheckpoint (epoch : Z).
Definition pstep (enabled : bool) (m : pmode) (s : live * fs) (o : pop) : live * fs :=
  match o with
  | Change l => (l, snd s)
  | SaveBest => (fst s, persist enabled m (fst s) (snd s))
  | SaveCheckpoint e => (fst s, save_checkpoint enabled m (fst s) e (snd s))
  end.
Definition pruns (enabled : bool) (m : pmode) (s : live * fs) (ops : list pop) : live * fs := fold_left (pstep enabled m) ops s.
End Persist.

(** ** MultipleLRSchedulers (utils/lr_scheduler.py) *)
(** What a scheduler's lr_lambdas hold: none, a callable, or what LambdaLR.state_dict puts in its
    place (None for a function, a dict for other callables). *)
Inductive lam := NoLambda | Callable (f : Z -> Qc) | Replaced.
(** A torch scheduler: last_epoch, its other numbers and its lambda. *)
Record sched := mkSched { s_last : Z; s_nums : list Qc; s_lam : lam }.
(** step(): for a LambdaLR the rate is base_lrs[0] * lambda(last_epoch), for others the closed form
    [g]. *)
Definition sched_step (g : list Qc -> Z -> Qc) (s : sched) : res (sched * Qc) :=
  let k := s_last s + 1 in
  match s_lam s with
  | NoLambda => Ok (mkSched k (s_nums s) NoLambda, g (s_nums s) k)
  | Callable f => Ok (mkSched k (s_nums s) (Callable f), (nth 0 (s_nums s) 0 * f k)%Qc)
  | Replaced => Err TypeError
  end.
(** LRScheduler.state_dict / LambdaLR.state_dict of torch. *)
Definition sched_state (s : sched) : sched :=
  mkSched (s_last s) (s_nums s) (match s_lam s with NoLambda => NoLambda | _ => Replaced end).
(** step (24-27): the schedulers and the learning rates they set. *)
Definition multi_step (gs : list (list Qc -> Z -> Qc)) (m : list sched) : res (list (sched * Qc)) :=
  mapM (fun gs => sched_step (fst gs) (snd gs)) (combine gs m).
(** state_dict (29-34). *)
Definition multi_state (m : list sched) : list sched := map sched_state m.
(** load_state_dict (36-43): s.__dict__.update(sd), zip(strict=True): the schedulers afterwards and
    the outcome. *)
Fixpoint multi_load (m sds : list sched) : list sched * res unit :=
  match m, sds with
  | [], [] => ([], Ok tt)
  | s :: m, sd :: sds => let '(m', r) := multi_load m sds in (sd :: m', r)
  | _, _ => (m, Err ValueError)
  end.
