(** * Properties C126-C134: experiments of the high-level interface *)
From Coq Require Import String.
From Verif Require Import Py Num TrainModel TrainSpec ExperModel ExperSpec ExperProofs.
Import List.
Open Scope string_scope.
Open Scope list_scope.
Open Scope Z_scope.

(** C126. A configuration is accepted exactly if one of step_per_collect and episode_per_collect is
    set and there are test environments for the test episodes; only a number of training
    environments of -1 is changed. *)
Theorem C126_accepts : forall cpu sc,
  ((exists sc', post_init cpu sc = Ok sc') <->
   exactly_one (sc_step_per_collect sc) (sc_episode_per_collect sc) /\ (sc_test_episodes sc = 0 \/ sc_test_envs sc <> 0)) /\
  forall sc', post_init cpu sc = Ok sc' ->
    (sc_train_envs sc <> -1 -> sc' = sc) /\ (sc_train_envs sc = -1 -> sc' = set_train_envs sc cpu).
Proof. exact C126_accepts_lemma. Qed.
Print Assumptions C126_accepts.

(** C126. The trainer made for an accepted configuration has its numbers; its collections are valid
    exactly if step_per_collect is set (and not zero), its tests exactly if there are test
    episodes. *)
Theorem C126_arguments : forall cpu sc sc' enabled,
  post_init cpu sc = Ok sc' ->
  (forall ta, ta = create_onpolicy enabled sc' \/ ta = create_offpolicy enabled sc' ->
    ta_max_epoch ta = sc_epochs sc /\ ta_step_per_epoch ta = sc_step_per_epoch sc /\ ta_batch ta = sc_batch sc /\
    ta_step_per_collect ta = sc_step_per_collect sc /\ ta_episode_per_test ta = Some (sc_test_episodes sc) /\
    ta_test_in_train ta = false /\ ta_save_best ta = true /\
    (train_request ta = Ok tt <-> exists n, sc_step_per_collect sc = Some n /\ n <> 0) /\
    (test_request ta = Ok tt <-> sc_test_episodes sc <> 0)) /\
  ta_repeat (create_onpolicy enabled sc') = sc_repeat sc /\
  ta_update_per_step (create_offpolicy enabled sc') = sc_update_per_step sc /\
  ta_save_checkpoint (create_onpolicy enabled sc') = enabled.
Proof. exact C126_arguments_lemma. Qed.
Print Assumptions C126_arguments.

(** C126. With episode_per_collect in place of step_per_collect, as the configuration allows, the
    first collection of either trainer fails. *)
Theorem C126_episodes_refuted : forall cpu sc sc' enabled k,
  sc_episode_per_collect sc = Some k -> post_init cpu sc = Ok sc' ->
  train_request (create_onpolicy enabled sc') = Err ValueError /\ train_request (create_offpolicy enabled sc') = Err ValueError.
Proof. exact C126_episodes_refuted_lemma. Qed.
Print Assumptions C126_episodes_refuted.

(** C126. A configuration without test episodes is accepted, but the trainer's first test fails. *)
Theorem C126_no_tests_refuted : forall cpu sc,
  sc_test_episodes sc = 0 -> exactly_one (sc_step_per_collect sc) (sc_episode_per_collect sc) ->
  exists sc', post_init cpu sc = Ok sc' /\ forall enabled,
    test_request (create_onpolicy enabled sc') = Err ValueError /\ test_request (create_offpolicy enabled sc') = Err ValueError.
Proof. exact C126_no_tests_refuted_lemma. Qed.
Print Assumptions C126_no_tests_refuted.

(** C126. An off-policy trainer gets no function to save checkpoints, even with persistence
    enabled. *)
Theorem C126_checkpoints_refuted : forall sc,
  ta_save_checkpoint (create_onpolicy true sc) = true /\ ta_save_checkpoint (create_offpolicy true sc) = false.
Proof. exact C126_checkpoints_refuted_lemma. Qed.
Print Assumptions C126_checkpoints_refuted.

(** C127. The run of a created trainer whose collections have [c] steps each, on-policy or
    off-policy with [q] updates for [c] steps: as many epochs as configured, ceil(s/c) collections
    in each, and as many updates. *)
Theorem C127_counts : forall enabled sc ta collect test buflen c q (k e fuel n : nat),
  ta = create_onpolicy enabled sc /\ q = 1 \/
  ta = create_offpolicy enabled sc /\ rounds_to (sc_update_per_step sc * inject_Z c) q /\ 0 < q ->
  0 < sc_step_per_epoch sc -> sc_epochs sc = Z.of_nat e -> (0 < e)%nat ->
  0 < c -> (forall i, cs_steps (collect i) = c) ->
  is_ceil (sc_step_per_epoch sc) c (Z.of_nat k) -> (k <= fuel)%nat -> (e < n)%nat ->
  exists st, run (trainer_config ta) collect test buflen fuel n true (new_trainer (ta_test_in_train ta)) =
      (st, Ok (map (fun i => 1 + Z.of_nat i) (seq 0 e))) /\
    s_nc st = (e * k)%nat /\ s_env st = Z.of_nat e * Z.of_nat k * c /\ upds (s_ev st) = Z.of_nat e * Z.of_nat k * q.
Proof. exact C127_counts_lemma. Qed.
Print Assumptions C127_counts.

(** C128. With the linear schedule and an on-policy trainer collecting c >= step_per_collect steps
    at a time, the factor of the learning rate after t of the updates of the run is between 0 and
    1, starts at 1, falls with every update by the same amount, and ends with 0 if
    step_per_collect steps are collected exactly. *)
Theorem C128_onpolicy : forall sc n c k e,
  sc_step_per_collect sc = Some n -> 0 < n -> n <= c -> 0 < sc_step_per_epoch sc -> sc_epochs sc = e -> 0 < e ->
  is_ceil (sc_step_per_epoch sc) c k ->
  exists f, (forall t, lr_factor sc t = Ok (f t)) /\ f 0 = 1%Qc /\
    (forall t, 0 <= t <= e * k -> (0 <= f t <= 1)%Qc) /\
    (exists d, (0 < d)%Qc /\ forall t, (f t - f (t + 1)%Z = d)%Qc) /\
    (c = n -> f (e * k)%Z = 0%Qc).
Proof. exact C128_onpolicy_lemma. Qed.
Print Assumptions C128_onpolicy.

(** C128. Off-policy with q updates for the step_per_collect steps of a collection, the factor at
    the end of the run is 1 - q: negative as soon as there are several updates per collection. *)
Theorem C128_offpolicy_refuted : forall sc n k e q,
  sc_step_per_collect sc = Some n -> 0 < n -> 0 < sc_step_per_epoch sc -> sc_epochs sc = e -> 0 < e ->
  is_ceil (sc_step_per_epoch sc) n k -> 1 < q ->
  exists f, lr_factor sc (e * k * q) = Ok f /\ f = (1 - Q2Qc (inject_Z q))%Qc /\ (f < 0)%Qc.
Proof. exact C128_offpolicy_refuted_lemma. Qed.
Print Assumptions C128_offpolicy_refuted.

(** C129. The linear decay of epsilon: from the initial value at step 0 to the final one at
    decay_steps and after, falling and between the two on the way. *)
Theorem C129_decay : forall eps final decay, (final <= eps)%Qc -> 0 < decay ->
  exists f, (forall t, eps_at eps final decay t = Ok (f t)) /\ f 0 = eps /\ (forall t, decay <= t -> f t = final) /\
    (forall t t', 0 <= t <= t' -> (final <= f t' /\ f t' <= f t /\ f t <= eps)%Qc) /\
    (forall t, 0 <= t <= decay -> ((f t - final) * Q2Qc (inject_Z decay) = (eps - final) * Q2Qc (inject_Z (decay - t)))%Qc).
Proof. exact C129_decay_lemma. Qed.
Print Assumptions C129_decay.

(** C129. decay_steps = 0 (the final value at once) is an error at the first step. *)
Theorem C129_zero_refuted : forall eps final,
  eps_at eps final 0 0 = Err ZeroDivisionError /\ forall t, 0 < t -> eps_at eps final 0 t = Ok final.
Proof. exact C129_zero_refuted_lemma. Qed.
Print Assumptions C129_zero_refuted.

(** C130. The result of an experiment does not contain that of the trainer: trainer_result is None
    also when the training succeeded. *)
Theorem C130_result_refuted : forall (Info : Type) factory (info : Info) c sc dir ex coll ev r,
  run_experiment factory (Ok info) c sc dir ex coll = (ev, Ok r) -> x_train c = true ->
  In XTrain ev /\ r = None.
Proof. exact C130_result_refuted_lemma. Qed.
Print Assumptions C130_result_refuted.

(** C130. What a successful run does, and in which order: seeding before environments and policy
    are made, restoring and the initial collection before training, watching last; collecting and
    training only if asked for. *)
Theorem C130_order : forall (Info : Type) factory (train : res Info) c sc dir ex coll ev r,
  run_experiment factory train c sc dir ex coll = (ev, Ok r) ->
  let envs := XEnvs (sc_train_envs sc) (sc_test_envs sc) (x_watch c) in
  before (XSeed (x_seed c)) envs ev /\ before envs XPolicy ev /\
  (x_train c = true -> before XPolicy XTrain ev /\ before (XTrainer (factory (x_persist c) sc)) XTrain ev) /\
  (forall d, restore_dir c = Some d -> before XPolicy (XRestore d) ev /\ (x_train c = true -> before (XRestore d) XTrain ev)) /\
  (x_train c = true -> 0 < sc_start sc -> before (XPrefill (sc_start sc) (sc_start_random sc)) XTrain ev) /\
  (forall n rnd, In (XPrefill n rnd) ev -> x_train c = true /\ n = sc_start sc /\ 0 < n) /\
  (In XTrain ev -> x_train c = true) /\
  (forall n, In (XWatch n) ev <-> x_watch c = true /\ n = x_watch_episodes c) /\
  (x_watch c = true -> exists ev', ev = ev' ++ [XWatch (x_watch_episodes c)]).
Proof. exact C130_order_lemma. Qed.
Print Assumptions C130_order.

(** C130. A run restores exactly the given directory (an empty name counts as none), after the
    policy is made and before training. *)
Theorem C130_restore : forall (Info : Type) factory (train : res Info) c sc dir ex coll ev r,
  run_experiment factory train c sc dir ex coll = (ev, Ok r) ->
  forall d, (In (XRestore d) ev <-> x_restore c = Some d /\ d <> EmptyString) /\
    (x_restore c = Some d -> d <> EmptyString -> before XPolicy (XRestore d) ev /\ (x_train c = true -> before (XRestore d) XTrain ev)).
Proof. exact C130_restore_lemma. Qed.
Print Assumptions C130_restore.

(** C130. A run with persistence disabled leaves nothing on disk; an experiment whose directory is
    there already is not started unless this is allowed. *)
Theorem C130_disk : forall (Info : Type) factory (train : res Info) c sc dir ex coll ev r,
  run_experiment factory train c sc dir ex coll = (ev, r) ->
  (x_persist c = false -> forall e, In e ev -> writes e = false) /\
  (x_persist c = true -> ex = true -> coll = true -> ev = [] /\ r = Err RuntimeError) /\
  (x_persist c = true -> ex = false \/ coll = false -> before (XMakeDir dir) (XPickle dir) ev).
Proof. exact C130_disk_lemma. Qed.
Print Assumptions C130_disk.

(** C131. The experiments of a seeded collection: the first has the configured seeds, and no two
    have the same seed, name, or a common seed for training environments (as configured).  In each, no test environment has the
    seed of a training environment. *)
Theorem C131_distinct : forall b n, 0 <= sc_train_envs (e_sampling b) ->
  length (seeded_collection b n) = n /\
  (forall x, nth_error (seeded_collection b n) 0 = Some x ->
     e_seed x = e_seed b /\ sc_train_seed (e_sampling x) = sc_train_seed (e_sampling b)) /\
  (forall i j x y, i <> j -> nth_error (seeded_collection b n) i = Some x -> nth_error (seeded_collection b n) j = Some y ->
     e_seed x <> e_seed y /\ e_name x <> e_name y /\
     ~ share (venv_seeds (sc_train_seed (e_sampling x)) (sc_train_envs (e_sampling x)))
             (venv_seeds (sc_train_seed (e_sampling y)) (sc_train_envs (e_sampling y)))) /\
  (forall i x, nth_error (seeded_collection b n) i = Some x ->
     ~ share (venv_seeds (sc_train_seed (e_sampling x)) (sc_train_envs (e_sampling x)))
             (venv_seeds (test_seed (e_sampling x)) (sc_test_envs (e_sampling x)))).
Proof. exact C131_distinct_lemma. Qed.
Print Assumptions C131_distinct.

(** C131. The seeds of different experiments do overlap: the test environments of each experiment
    have seeds of the training environments of the next one. *)
Theorem C131_overlap_refuted : forall b n i x y,
  0 < sc_train_envs (e_sampling b) -> 0 < sc_test_envs (e_sampling b) ->
  nth_error (seeded_collection b n) i = Some x -> nth_error (seeded_collection b n) (S i) = Some y ->
  share (venv_seeds (test_seed (e_sampling x)) (sc_test_envs (e_sampling x)))
        (venv_seeds (sc_train_seed (e_sampling y)) (sc_train_envs (e_sampling y))).
Proof. exact C131_overlap_refuted_lemma. Qed.
Print Assumptions C131_overlap_refuted.

(** C131. With environments from a registered factory, all experiments of the collection use the
    same seeds for their environments, those given to the factory. *)
Theorem C131_registered_refuted : forall b n i j x y mode,
  nth_error (seeded_collection b n) i = Some x -> nth_error (seeded_collection b n) j = Some y ->
  registered_seeds x mode = registered_seeds y mode /\ registered_seeds x mode = registered_seeds b mode.
Proof. exact C131_registered_refuted_lemma. Qed.
Print Assumptions C131_registered_refuted.

(** C132. Launching several experiments, one after the other or in parallel: the results of those
    that succeed, in order; RuntimeError exactly if all fail.  A single experiment gives its own
    result. *)
Theorem C132_results : forall (X R : Type) (runner : X -> res R) exps l,
  l = sequential runner \/ l = joblib runner ->
  (length exps <> 1%nat ->
    launch runner l exps = match successes (map runner exps) with [] => Err RuntimeError | rs => Ok rs end) /\
  (forall x r, exps = [x] -> runner x = Ok r -> launch runner l exps = Ok [r]).
Proof. exact C132_results_lemma. Qed.
Print Assumptions C132_results.

(** C132. The error of a single failing experiment is not caught: it is raised in place of the
    RuntimeError. *)
Theorem C132_single_refuted : forall (X R : Type) (runner : X -> res R) l x e,
  runner x = Err e -> launch runner l [x] = Err e.
Proof. exact C132_single_refuted_lemma. Qed.
Print Assumptions C132_single_refuted.

(** C133. Restoring from the directory of a run gives the parameters of the policy last saved as
    the best and the items of the last save of any kind; the rest of the policy object stays. *)
Theorem C133_restore : forall (P E D : Type) m names (cur : @live P E D) f ops best any l0,
  items_ok m names cur ops -> last_at is_best_save cur None ops = Some best -> last_at is_any_save cur None ops = Some any ->
  map fst (l_items l0) = names ->
  restore m (snd (pruns true m (cur, f) ops)) l0 = Ok (mkLive (l_params best) (l_extra l0) (l_items any)).
Proof. exact C133_restore_lemma. Qed.
Print Assumptions C133_restore.

(** C133. The checkpoint of an epoch is the policy at the last checkpoint of that epoch, whatever
    else was saved. *)
Theorem C133_checkpoints : forall (P E D : Type) m names (cur : @live P E D) f ops e l,
  items_ok m names cur ops -> last_at (is_checkpoint e) cur None ops = Some l ->
  snd (pruns true m (cur, f) ops) (checkpoint_name m e) =
    Some (match m with StateDict => FState (l_params l) | WholePolicy => FPolicy (l_params l) (l_extra l) end).
Proof. exact C133_checkpoints_lemma. Qed.
Print Assumptions C133_checkpoints.

(** C133. With persistence disabled, nothing is written. *)
Theorem C133_disabled : forall (P E D : Type) m (cur : @live P E D) f ops, snd (pruns false m (cur, f) ops) = f.
Proof. exact C133_disabled_lemma. Qed.
Print Assumptions C133_disabled.

(** C133. Without checkpoints, what is restored is the best policy with its own items. *)
Theorem C133_best_partial : forall (P E D : Type) m names (cur : @live P E D) f ops best l0,
  items_ok m names cur ops -> (forall e, ~ In (SaveCheckpoint e) ops) -> last_at is_best_save cur None ops = Some best ->
  map fst (l_items l0) = names ->
  restore m (snd (pruns true m (cur, f) ops)) l0 = Ok (mkLive (l_params best) (l_extra l0) (l_items best)).
Proof. exact C133_best_partial_lemma. Qed.
Print Assumptions C133_best_partial.

(** C133. A later checkpoint overwrites the items saved with the best policy: restoring gives the
    best policy together with items it was not saved with. *)
Theorem C133_items_refuted : exists (cur later : @live nat nat nat) ops l0,
  items_ok WholePolicy ["obs_rms.pt"] cur ops /\ last_at is_best_save cur None ops = Some cur /\
  restore WholePolicy (snd (pruns true WholePolicy (cur, fun _ => None) ops)) l0 = Ok (mkLive (l_params cur) (l_extra l0) (l_items later)) /\
  l_items later <> l_items cur /\ l_params later <> l_params cur.
Proof. exact C133_items_refuted_lemma. Qed.
Print Assumptions C133_items_refuted.

(** C134. A step of the group steps every scheduler once and sets the rate each prescribes. *)
Theorem C134_step : forall gs m, length gs = length m -> (forall s, In s m -> s_lam s <> Replaced) ->
  exists out, multi_step gs m = Ok out /\ length out = length m /\
    forall i s g, nth_error m i = Some s -> nth_error gs i = Some g ->
      nth_error out i = Some (mkSched (s_last s + 1) (s_nums s) (s_lam s),
        match s_lam s with Callable f => (nth 0 (s_nums s) 0 * f (s_last s + 1)%Z)%Qc | _ => g (s_nums s) (s_last s + 1)%Z end).
Proof. exact C134_step_lemma. Qed.
Print Assumptions C134_step.

(** C134. Loading the state of a group into a group of as many schedulers gives the same schedulers
    if none has a lambda; a state of another length is an error. *)
Theorem C134_roundtrip_partial : forall m m' sds,
  (length m' = length m -> (forall s, In s m -> s_lam s = NoLambda) -> multi_load m' (multi_state m) = (m, Ok tt)) /\
  (length m' <> length sds -> snd (multi_load m' sds) = Err ValueError).
Proof. exact C134_roundtrip_partial_lemma. Qed.
Print Assumptions C134_roundtrip_partial.

(** C134. A scheduler with a lambda, such as the linear one, cannot be stepped after the state of
    its own group was loaded. *)
Theorem C134_lambda_refuted : forall g s f, s_lam s = Callable f ->
  exists s', multi_load [s] (multi_state [s]) = ([s'], Ok tt) /\ multi_step [g] [s'] = Err TypeError /\
    exists out, multi_step [g] [s] = Ok out.
Proof. exact C134_lambda_refuted_lemma. Qed.
Print Assumptions C134_lambda_refuted.

(** Two epochs of 25 steps, 10 steps at a time, as many environments as CPUs. *)
Definition sc0 := mkSC 2 25 (Some 4) (-1) 42 1 3 100 (Some 10) None (Some 2) (1 # 2) 5 true.
Definition sc1 := mkSC 2 25 (Some 4) 3 42 1 3 100 None (Some 6) (Some 2) 1 0 false.
Example C126_config : post_init 4 sc0 = Ok (set_train_envs sc0 4) /\ post_init 4 sc1 = Ok sc1
  /\ post_init 4 (mkSC 2 25 None 3 42 0 3 100 (Some 10) None None 1 0 false) = Err ZeroDivisionError
  /\ post_init 4 (mkSC 2 25 None 3 42 1 3 100 (Some 10) (Some 1) None 1 0 false) = Err AssertionError
  /\ train_request (create_onpolicy true (set_train_envs sc0 4)) = Ok tt
  /\ train_request (create_onpolicy true sc1) = Err ValueError.
Proof. repeat split. Qed.
Example C126_no_tests : let sc := mkSC 2 25 None 3 42 1 0 100 (Some 10) None None 1 0 false in
  post_init 4 sc = Ok sc /\ test_request (create_offpolicy true sc) = Err ValueError.
Proof. split; reflexivity. Qed.

(** Four environments collect 12 steps at a time: 3 collections in each epoch. *)
Definition col0 (k : nat) := mkC 12 1 0%Qc.
Definition tst0 (k : nat) := mkT 0%Qc 0%Qc 0%Qc 0%Qc.
Example C127_on : exists st, run (trainer_config (create_onpolicy true (set_train_envs sc0 4))) col0 tst0 (fun _ => 12) 5 5 true (new_trainer false) = (st, Ok [1; 2])
  /\ s_nc st = 6%nat /\ s_env st = 72 /\ upds (s_ev st) = 6.
Proof. eexists. split; [vm_compute; reflexivity|]. repeat split. Qed.
Example C127_off : exists st, run (trainer_config (create_offpolicy true (set_train_envs sc0 4))) col0 tst0 (fun _ => 12) 5 5 true (new_trainer false) = (st, Ok [1; 2])
  /\ s_nc st = 6%nat /\ s_env st = 72 /\ upds (s_ev st) = 36.
Proof. eexists. split; [vm_compute; reflexivity|]. repeat split. Qed.
Example C127_hyp : is_ceil (sc_step_per_epoch sc0) 12 (Z.of_nat 3) /\ rounds_to (sc_update_per_step sc0 * inject_Z 12) 6.
Proof. split; [cbn; unfold is_ceil; lia|]. split; [split; vm_compute; discriminate | intros _; reflexivity]. Qed.

(** After 3 of the 6 updates the on-policy rate is a half; after 36 off-policy updates it would be
    -5 times the initial one. *)
Example C128_half : exists f, lr_factor sc0 3 = Ok f /\ f = Q2Qc (1 # 2).
Proof. eexists. split; [reflexivity|]. apply Qc_is_canon. reflexivity. Qed.
Example C128_negative : exists f, lr_factor sc0 36 = Ok f /\ f = Q2Qc (-5 # 1).
Proof. eexists. split; [reflexivity|]. apply Qc_is_canon. reflexivity. Qed.
Example C129_values : exists a b, eps_at (Q2Qc 1) (Q2Qc (1 # 10)) 100 50 = Ok a /\ a = Q2Qc (11 # 20)
  /\ eps_at (Q2Qc 1) (Q2Qc (1 # 10)) 100 500 = Ok b /\ b = Q2Qc (1 # 10).
Proof. do 2 eexists. split; [reflexivity|]. split; [apply Qc_is_canon; reflexivity|]. split; reflexivity. Qed.

Example C130_run : run_experiment create_onpolicy (Ok 7%nat) (mkX 1 (Some "old") true true 10 true false) (set_train_envs sc0 4) "log/x" false true =
  ([XMakeDir "log/x"; XSeed 1; XEnvs 4 1 true; XPickle "log/x"; XLogger "log/x"; XPolicy; XCollectors; XRestore "old";
    XTrainer (create_onpolicy true (set_train_envs sc0 4)); XPrefill 5 true; XTrain; XFinalize; XWatch 10], Ok None).
Proof. reflexivity. Qed.
Example C130_disabled : run_experiment create_onpolicy (Ok 7%nat) (mkX 1 None true false 10 false true) sc1 "log/x" true true =
  ([XSeed 1; XEnvs 3 1 false; XPolicy; XCollectors; XTrainer (create_onpolicy false sc1); XTrain], Ok None).
Proof. reflexivity. Qed.

Definition b0 := mkExp 7 (set_train_envs sc0 4) "exp" 42 46.
Example C131_collection : map (fun x => (e_seed x, sc_train_seed (e_sampling x), test_seed (e_sampling x), e_name x)) (seeded_collection b0 2) =
  [(7, 42, 46, "exp_exp_seed=7_train_seed=42_test_seed=46"); (8, 46, 50, "exp_exp_seed=8_train_seed=46_test_seed=50")].
Proof. reflexivity. Qed.
Example C131_registered : map (fun x => (registered_seeds x MTrain, registered_seeds x MTest)) (seeded_collection b0 2) =
  [([42; 43; 44; 45], [46]); ([42; 43; 44; 45], [46])].
Proof. reflexivity. Qed.

Definition runner0 (n : nat) : res nat := match n with O => Err KeyError | _ => Ok n end.
Example C132_launch : launch runner0 (sequential runner0) [3%nat; 0%nat; 5%nat] = Ok [3%nat; 5%nat]
  /\ launch runner0 (joblib runner0) [0%nat; 0%nat] = Err RuntimeError /\ launch runner0 (joblib runner0) [0%nat] = Err KeyError.
Proof. repeat split. Qed.

Definition lv (p d : nat) : @live nat nat nat := mkLive p 5%nat [("obs_rms.pt", d)].
Example C133_run : items_ok StateDict ["obs_rms.pt"] (lv 1 1) [SaveBest; Change (lv 2 2); SaveCheckpoint 1; SaveBest; Change (lv 3 3); SaveCheckpoint 2] /\
  exists f, snd (pruns true StateDict (lv 1 1, fun _ => None) [SaveBest; Change (lv 2 2); SaveCheckpoint 1; SaveBest; Change (lv 3 3); SaveCheckpoint 2]) = f
  /\ f "policy_state_dict.pt" = Some (FState 2%nat) /\ f "policy_state_dict_epoch_1.pt" = Some (FState 2%nat)
  /\ f "policy_state_dict_epoch_2.pt" = Some (FState 3%nat) /\ f "obs_rms.pt" = Some (FItem 3%nat).
Proof.
  split.
  - unfold items_ok. repeat split.
    + constructor; [intros [] | constructor].
    + cbn. intros [H|[]]. discriminate.
    + cbn. intros e [H|[]]. discriminate.
    + intros l H. cbn in H. intuition (try discriminate); injection H0 as <- || injection H as <-; reflexivity.
  - eexists. repeat split.
Qed.

Example C134_run : multi_load [mkSched 0 [] NoLambda; mkSched 0 [] NoLambda] (multi_state [mkSched 3 [Q2Qc 1] NoLambda; mkSched 4 [] NoLambda]) =
  ([mkSched 3 [Q2Qc 1] NoLambda; mkSched 4 [] NoLambda], Ok tt)
  /\ snd (multi_load [mkSched 0 [] NoLambda] []) = Err ValueError.
Proof. split; reflexivity. Qed.
