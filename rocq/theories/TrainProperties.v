(** * Properties C35-C37, C86-C90: trainers *)
From Coq Require Import Permutation.
From Verif Require Import Py Num TrainModel TrainSpec TrainProofs SplitModel.
Open Scope Z_scope.

(** A run performs the epochs start+1, start+2, ... in order: at least one, at most max_epoch -
    start (or one), and fewer only if stop_fn accepts the best reward.  The collected steps and
    episodes are exactly counted. *)
Theorem C35_epochs : forall c collect test buflen fuel n rp s s' l,
  run c collect test buflen fuel n rp s = (s', Ok l) ->
  let start := match c_resume c with Some (e, _, _) => e | None => s_start s end in
  l = map (fun i => start + 1 + Z.of_nat i) (seq 0 (length l)) /\
  (1 <= length l)%nat /\ Z.of_nat (length l) <= Z.max 1 (c_max_epoch c - start) /\
  (Z.of_nat (length l) < c_max_epoch c - start -> exists f, c_stop c = Some f /\ f (s_best_reward s') = true).
Proof. exact C35_epochs_lemma. Qed.
Print Assumptions C35_epochs.

(** The env step counter of a run with a training collector, starting from the restored value. *)
Theorem C35_env_step : forall c collect test buflen fuel n rp s s' l,
  run c collect test buflen fuel n rp s = (s', Ok l) -> c_train c = true ->
  let n0 := match c_resume c with Some (_, n, _) => n | None => 0 end in
  exists m, s_nc s' = (s_nc s + m)%nat /\
    s_env s' = n0 + sumz (fun k => cs_steps (collect k)) (s_nc s) m /\
    s_ep s' = s_ep s + sumz (fun k => cs_eps (collect k)) (s_nc s) m.
Proof. exact C35_env_step_lemma. Qed.
Print Assumptions C35_env_step.

(** One epoch collects until step_per_epoch steps are done and no further, unless stop_fn ends it. *)
Theorem C35_steps : forall c collect test buflen fuel s s' e,
  (s_iter s <= 0 -> s_stop s = false) -> c_train c = true ->
  next c collect test buflen fuel s = (s', Ok e) ->
  let sum := sumz (fun k => cs_steps (collect k)) (s_nc s) in
  e = s_epoch s + 1 /\
  exists m l, (1 <= m)%nat /\ s_nc s' = (s_nc s + m)%nat /\ s_env s' = s_env s + sum m /\ s_ev s' = s_ev s ++ l /\
    (forall j, (j < m)%nat -> sum j < c_step_per_epoch c) /\
    (c_step_per_epoch c <= sum m \/ train_stopped c test l).
Proof. exact C35_steps_lemma. Qed.
Print Assumptions C35_steps.

(** The best score, reward and epoch of a run with a test collector that was not stopped by a test
    during training: those of the first test with the highest score, and what save_best_fn saved
    last is the policy of that test. *)
Theorem C36_best_partial : forall c collect test buflen fuel n rp s s' l,
  run c collect test buflen fuel n rp s = (s', Ok l) ->
  c_test c = true -> ~ train_stopped c test (s_ev s') ->
  0 <= match c_resume c with Some (e, _, _) => e | None => s_start s end ->
  exists pre rest k, s_ev s' = pre ++ EResetCollectors :: rest /\ ~ In EResetCollectors rest /\
    is_best (fun k => ts_score (test k)) (c_save_best c) rest (s_best_epoch s') k /\
    s_best_score s' = ts_score (test k) /\ s_best_reward s' = ts_mean (test k).
Proof. exact C36_best_partial_lemma. Qed.
Print Assumptions C36_best_partial.

(** Off-policy: the number of updates after a collection is update_per_step times the collected
    steps, rounded to the nearest integer (ties to even); zero is an error. *)
Theorem C37_offpolicy : forall c buflen s n, c_kind c = Offpolicy -> c_train c = true ->
  exists r, rounds_to (c_update_per_step c * inject_Z n) r /\
    (forall r', rounds_to (c_update_per_step c * inject_Z n) r' -> r' = r) /\
    if r =? 0 then policy_update c buflen s n = (s, Err ValueError)
    else exists s', policy_update c buflen s n = (s', Ok tt) /\ s_ev s' = s_ev s ++ repeat EUpdate (Z.to_nat r) /\
           s_grad s' = s_grad s + Z.max 0 r /\ s_env s' = s_env s /\ s_ep s' = s_ep s.
Proof. exact C37_offpolicy_lemma. Qed.
Print Assumptions C37_offpolicy.

(** On-policy with a positive batch size: one update call; gradient_step grows by the number of
    batches of size at most b that cover the buffer. *)
Theorem C37_onpolicy : forall c buflen s n b, c_kind c = Onpolicy -> c_train c = true -> c_batch c = Some b -> 0 < b ->
  exists s' q, policy_update c buflen s n = (s', Ok tt) /\ s_ev s' = s_ev s ++ [EUpdate] /\ s_grad s' = s_grad s + q /\
    b * (q - 1) < buflen (s_nc s) <= b * q.
Proof. exact C37_onpolicy_lemma. Qed.
Print Assumptions C37_onpolicy.

(** Off-policy and offline: over a run, gradient_step grows by exactly the number of updates. *)
Theorem C37_counter : forall c collect test buflen fuel n rp s s' l,
  run c collect test buflen fuel n rp s = (s', Ok l) -> c_kind c <> Onpolicy ->
  let g0 := match c_resume c with Some (_, _, g) => g | None => s_grad s end in
  exists ev, s_ev s' = s_ev s ++ ev /\ s_grad s' = g0 + upds ev.
Proof. exact C37_counter_lemma. Qed.
Print Assumptions C37_counter.

(** A collection after which the training is stopped is not followed by updates. *)
Theorem C37_stop : forall c collect test buflen s s' n,
  training_step c collect test buflen s = (s', Ok (n, true)) ->
  exists l, s_ev s' = s_ev s ++ l /\ upds l = 0 /\ (c_kind c <> Onpolicy -> s_grad s' = s_grad s).
Proof. exact C37_stop_lemma. Qed.
Print Assumptions C37_stop.

(** Offline, no collector: an epoch makes step_per_epoch updates and env_step is the number of
    samples used so far. *)
Theorem C37_offline : forall c collect test buflen fuel s s' e b,
  (s_iter s <= 0 -> s_stop s = false) -> c_train c = false -> c_kind c = Offline -> c_buffer c = Some b ->
  next c collect test buflen fuel s = (s', Ok e) ->
  exists l, s_ev s' = s_ev s ++ l /\ upds l = c_step_per_epoch c /\ s_grad s' = s_grad s + c_step_per_epoch c /\
    s_env s' = s_grad s' * match c_batch c with None => b | Some k => if k =? 0 then b else k end.
Proof. exact C37_offline_lemma. Qed.
Print Assumptions C37_offline.

(** Resuming from a log whose last epoch is max_epoch (the run was complete) performs one more
    epoch. *)
Theorem C35_resume_refuted : exists c collect test buflen s' e,
  c_resume c = Some (c_max_epoch c, 30, 30) /\
  run c collect test buflen 10 10 true (new_trainer true) = (s', Ok [e]) /\ c_max_epoch c < e.
Proof. exact C35_resume_refuted_lemma. Qed.
Print Assumptions C35_resume_refuted.

Theorem C36_train_stop_refuted : exists c collect test buflen s' l,
  run c collect test buflen 10 10 true (new_trainer true) = (s', Ok l) /\
  In (ETest TStep 1 2) (s_ev s') /\ (s_best_score s' < ts_score (test 2%nat))%Qc /\ s_best_epoch s' = 1 /\
  s_best_score s' = ts_raw_score (test 3%nat) /\ In (ETest TTrain 2 3) (s_ev s').
Proof. exact C36_train_stop_refuted_lemma. Qed.
Print Assumptions C36_train_stop_refuted.

(** On-policy: gradient_step grows by 3 where the policy makes 2 mini-batch updates (10 samples,
    batch size 4: the last batch is merged), and by 2 for the single update with batch_size None. *)
Theorem C86_minibatches_refuted :   (exists c buflen s s' cs, c_kind c = Onpolicy /\ c_batch c = Some 4 /\ buflen (s_nc s) = 10 /\ policy_update c buflen s 10 = (s', Ok tt) /\
     split 10 4 None true = Ok cs /\ s_grad s' - s_grad s = 3 /\ length cs = 2%nat) /\
  (exists c buflen s s' cs, c_kind c = Onpolicy /\ c_batch c = None /\ buflen (s_nc s) = 10 /\ policy_update c buflen s 10 = (s', Ok tt) /\
     split 10 (-1) None true = Ok cs /\ s_grad s' - s_grad s = 2 /\ length cs = 1%nat).
Proof. exact C86_minibatches_refuted_lemma. Qed.
Print Assumptions C86_minibatches_refuted.

(** When the batch size divides the buffer length and the data is passed once, they agree. *)
Theorem C86_divides_partial : forall c buflen s n (k b : nat) shuffle,
  c_kind c = Onpolicy -> c_train c = true -> c_batch c = Some (Z.of_nat b) -> (0 < b)%nat -> (0 < k)%nat ->
  buflen (s_nc s) = Z.of_nat (k * b) -> (forall perm, shuffle = Some perm -> Permutation perm (seq 0 (k * b))) ->
  exists s' cs, policy_update c buflen s n = (s', Ok tt) /\ split (k * b) (Z.of_nat b) shuffle true = Ok cs /\
    s_grad s' = s_grad s + Z.of_nat (length cs).
Proof. exact C86_divides_partial_lemma. Qed.
Print Assumptions C86_divides_partial.

(** run(reset_prior_to_run=False) resets the collectors and tests the policy all the same; with
    the default it does so twice. *)
Theorem C87_no_reset_refuted : exists c collect test buflen s s1 s2 l l2,
  run c collect test buflen 10 10 false s = (s1, Ok l) /\ resets (s_ev s) = 0%nat /\ resets (s_ev s1) = 1%nat /\ In (ETest TInit 0 0) (s_ev s1) /\
  run c collect test buflen 10 10 true s = (s2, Ok l2) /\ resets (s_ev s2) = 2%nat /\ In (ETest TInit 0 1) (s_ev s2).
Proof. exact C87_no_reset_refuted_lemma. Qed.
Print Assumptions C87_no_reset_refuted.

Theorem C87_resets_partial : forall c collect test buflen fuel n (rp : bool) s s' l,
  run c collect test buflen fuel n rp s = (s', Ok l) ->
  resets (s_ev s') = (resets (s_ev s) + if rp then 2 else 1)%nat.
Proof. exact C87_resets_partial_lemma. Qed.
Print Assumptions C87_resets_partial.

(** reset() leaves gradient_step and env_episode as they were, so a second run of the same trainer
    starts from the first one's counts (env_step starts from 0). *)
Theorem C88_counters_refuted : exists c test s s',
  c_resume c = None /\ reset c test s = (s', Ok tt) /\ s_grad s <> 0 /\ s_ep s <> 0 /\ s_env s <> 0 /\
  s_grad s' = s_grad s /\ s_ep s' = s_ep s /\ s_env s' = 0.
Proof. exact C88_counters_refuted_lemma. Qed.
Print Assumptions C88_counters_refuted.

Theorem C88_env_step_partial : forall c test s s', reset c test s = (s', Ok tt) ->
  (c_resume c = None -> s_env s' = 0 /\ s_epoch s' = s_start s) /\
  (forall e n g, c_resume c = Some (e, n, g) -> s_epoch s' = e /\ s_env s' = n /\ s_grad s' = g).
Proof. exact C88_env_step_partial_lemma. Qed.
Print Assumptions C88_env_step_partial.

(** Training without a test collector raises unless episode_per_test is given. *)
Theorem C89_episode_per_test_refuted : exists c collect test buflen s',
  c_test c = false /\ c_train c = true /\ run c collect test buflen 10 10 true (new_trainer true) = (s', Err AssertionError).
Proof. exact C89_episode_per_test_refuted_lemma. Qed.
Print Assumptions C89_episode_per_test_refuted.

Theorem C89_given_partial : forall c collect test buflen s k, c_episode_per_test c = Some k -> c_test c = false ->
  c_kind c = Onpolicy -> c_train c = true -> c_stop c = None ->
  exists s' n, training_step c collect test buflen s = (s', Ok (n, false)).
Proof. exact C89_given_partial_lemma. Qed.
Print Assumptions C89_given_partial.

(** The test during training is evaluated without reward_metric: a run stops although the metric
    of the test returns does not satisfy stop_fn, and reports the other number as best reward. *)
Theorem C90_metric_refuted : exists c f collect test buflen s' l k,
  c_stop c = Some f /\ run c collect test buflen 10 10 true (new_trainer true) = (s', Ok l) /\ (length l < 3)%nat /\ c_max_epoch c = 3 /\
  (forall i, f (ts_mean (test i)) = false) /\ In (ETest TTrain 1 k) (s_ev s') /\ s_best_reward s' = ts_raw_mean (test k).
Proof. exact C90_metric_refuted_lemma. Qed.
Print Assumptions C90_metric_refuted.

Theorem C90_no_metric_partial : forall c test s r s',
  (forall k, ts_raw_mean (test k) = ts_mean (test k) /\ ts_raw_score (test k) = ts_score (test k)) ->
  train_stop c test s r = (s', Ok true) ->
  exists f, c_stop c = Some f /\ f (ts_mean (test (s_nt s))) = true /\
    s_best_reward s' = ts_mean (test (s_nt s)) /\ s_best_score s' = ts_score (test (s_nt s)).
Proof. exact C90_no_metric_partial_lemma. Qed.
Print Assumptions C90_no_metric_partial.

(** A run with three epochs of 10 steps, 5 per collection, update_per_step 1; the second test is the best. *)
Definition ex_tests (k : nat) : tstat := match k with 3%nat => mkT (qz 8) (qz 8) (qz 8) (qz 8) | _ => mkT (qz 2) (qz 2) (qz 2) (qz 2) end.
Example C35_ex : let '(s, r) := run (cfg0 Offpolicy None) ones ex_tests (fun _ => 10) 10 10 true (new_trainer true) in
  r = Ok [1; 2; 3] /\ s_env s = 30 /\ s_ep s = 6 /\ s_nc s = 6%nat /\ s_grad s = 30 /\ s_best_epoch s = 2 /\ this (s_best_score s) = 8%Q
  /\ upds (s_ev s) = 30.
Proof. vm_compute. repeat split; reflexivity. Qed.
Example C36_ex : c_test (cfg0 Offpolicy None) = true /\ c_stop (cfg0 Offpolicy None) = None.
Proof. split; reflexivity. Qed.
Example C35_steps_ex : let '(s, r) := next (cfg0 Offpolicy None) (fun k => mkC 3 0 0) tests0 (fun _ => 10) 10 (new_trainer true) in
  r = Ok 1 /\ s_nc s = 4%nat /\ s_env s = 12 /\ s_grad s = 12.
Proof. vm_compute. repeat split; reflexivity. Qed.
Example C35_resume_ex : snd (run (cfg0 Offpolicy (Some (1, 10, 7))) ones ex_tests (fun _ => 10) 10 10 true (new_trainer true)) = Ok [2; 3].
Proof. vm_compute. reflexivity. Qed.
Example C37_round_ex : map pyround [(1 # 2); (3 # 2); (5 # 2); (7 # 4); (9 # 4); (-1 # 2); (-3 # 2)]%Q = [0; 2; 2; 2; 2; 0; -2].
Proof. reflexivity. Qed.
Example C37_onpolicy_ex : s_grad (fst (policy_update (cfg0 Onpolicy None) (fun _ => 12) (new_trainer true) 0)) = 3 /\ length (match split 12 4 None true with Ok l => l | Err _ => [] end) = 3%nat.
Proof. split; vm_compute; reflexivity. Qed.
Example C37_offline_ex : let '(s, r) := next (mkCfg Offline 3 10 None 1 false true true (Some 1) None true (Some 50) None) ones tests0 (fun _ => 0) 20 (new_trainer true) in
  r = Ok 1 /\ s_grad s = 10 /\ s_env s = 500.
Proof. vm_compute. repeat split; reflexivity. Qed.
(** A stop during training. *)
Example C37_stop_ex : exists s', training_step cfg_stop (fun _ => mkC 5 1 (qz 20)) (fun _ => mkT (qz 12) (qz 12) (qz 12) (qz 12)) (fun _ => 10) (new_trainer true) = (s', Ok (5, true)).
Proof. eexists. vm_compute. reflexivity. Qed.
