(** * Properties C46, C72: logger *)
From Verif Require Import Py LogModel LogProofs.
Open Scope Z_scope.

(** C46.  In any run of log and save calls on a new logger, for every scope: consecutive writes
    (the virtual step -1 first) are at least the interval apart, only submitted steps are
    written, in order, and the other scopes and the saves have no influence: a further call
    writes its step iff it is at least the interval above the last written one (-1 if none). *)
Theorem C46_rate_limit : forall iv s ops,
  let '(l, ev) := lrun iv ops start in
  let written := items ev (TScope s) in
  spaced (interval iv s) (-1 :: written)
  /\ (forall x, In x written -> In x (steps_of s ops))
  /\ (forall x, let '(_, ev') := log_data iv s (l, ev) x in
        items ev' (TScope s) = if (interval iv s <=? x - List.last written (-1))%Z then written ++ [x] else written).
Proof. exact C46_rate_limit_lemma. Qed.
Print Assumptions C46_rate_limit.

(** C46.  With non-decreasing steps and a positive interval every submitted step that is not
    written lies less than the interval above a written step (or above -1). *)
Theorem C46_coverage : forall iv s ops, 0 < interval iv s ->
  (forall i j a b, (i < j)%nat -> nth_error (steps_of s ops) i = Some a -> nth_error (steps_of s ops) j = Some b -> a <= b) ->
  let '(_, ev) := lrun iv ops start in
  forall x, In x (steps_of s ops) -> -1 <= x -> exists w, (w = -1 \/ In w (items ev (TScope s))) /\ w <= x < w + interval iv s.
Proof. exact C46_coverage_lemma. Qed.
Print Assumptions C46_coverage.

(** C46.  restore_data of a new logger on the event file of any run returns the counters of the
    last save that was carried out, and (0, 0, 0) if there was none. *)
Theorem C46_restore : forall iv ops,
  let '(_, ev) := lrun iv ops start in
  snd (restore_data new_logger ev) = List.last (saves_done (save_interval iv) (-1) ops) (0, 0, 0).
Proof. exact C46_restore_lemma. Qed.
Print Assumptions C46_restore.

(** C72.  A restored logger does not continue where the saved one stopped: its test counter is
    the epoch although test data are logged by environment step, and its info counter is lost,
    so data are written again within the interval. *)
Theorem C72_restored_test_refuted : exists iv l ev,
  lrun iv [OLog Test 100; OLog Info 1; OSave true 1 100 10] start = (l, ev)
  /\ snd (log_data iv Test (l, ev) 105) = ev
  /\ snd (log_data iv Info (l, ev) 2) = ev
  /\ let l' := fst (restore_data new_logger ev) in
     snd (log_data iv Test (l', ev) 105) = ev ++ [(TScope Test, 105)]
     /\ snd (log_data iv Info (l', ev) 2) = ev ++ [(TScope Info, 2)]
     /\ ~ spaced (interval iv Test) (items (snd (log_data iv Test (l', ev) 105)) (TScope Test)).
Proof. exact C72_restored_test_refuted_lemma. Qed.
Print Assumptions C72_restored_test_refuted.

(** C72.  What a restored logger starts from after a save that was carried out: all counters but the
    one of the info scope. *)
Theorem C72_counters_partial : forall iv l ev epoch env_step gradient_step,
  save_interval iv <= epoch - last_save l ->
  let ev1 := snd (save_data iv (l, ev) true epoch env_step gradient_step) in
  let '(l', r) := restore_data new_logger ev1 in
  r = (epoch, env_step, gradient_step) /\ last_save l' = epoch
  /\ last l' Train = env_step /\ last l' Test = epoch /\ last l' Update = gradient_step /\ last l' Info = -1.
Proof. exact C72_counters_partial_lemma. Qed.
Print Assumptions C72_counters_partial.

(** C72 (restricted to the train and update scopes).  If the run ended with a save that was
    carried out at the current steps (no train step logged above env_step, no update step above
    gradient_step), the writes before and after restoring are together at least the interval
    apart, whatever is logged after the restoration. *)
Theorem C72_train_update_partial : forall iv ops epoch env_step gradient_step ops' s x,
  (s = Train /\ x = env_step) \/ (s = Update /\ x = gradient_step) ->
  (forall y, In y (steps_of s ops) -> y <= x) -> -1 <= x ->
  let '(l, ev) := lrun iv ops start in
  save_interval iv <= epoch - last_save l ->
  let '(_, ev1) := save_data iv (l, ev) true epoch env_step gradient_step in
  let '(_, ev2) := lrun iv ops' (fst (restore_data new_logger ev1), ev1) in
  spaced (interval iv s) (-1 :: items ev2 (TScope s)).
Proof. exact C72_train_update_partial_lemma. Qed.
Print Assumptions C72_train_update_partial.

Definition ex_iv := mkI (fun s => match s with Train => 10 | _ => 1 end) 2.
Example C46_ex : let ev := snd (lrun ex_iv [OLog Train 3; OLog Train 9; OLog Test 9; OLog Train 15; OSave true 1 15 4; OLog Train 19; OSave true 2 19 6; OLog Train 40; OSave true 3 40 9] start) in
  items ev (TScope Train) = [9; 19; 40] /\ items ev (TScope Test) = [9] /\ snd (restore_data new_logger ev) = (3, 40, 9).
Proof. repeat split; reflexivity. Qed.
Example C72_ex : let '(l, ev) := lrun ex_iv [OLog Train 9; OLog Train 15; OLog Update 3] start in
  save_interval ex_iv <= 1 - last_save l /\ let ev1 := snd (save_data ex_iv (l, ev) true 1 15 4) in
  items (snd (lrun ex_iv [OLog Train 20; OLog Train 25] (fst (restore_data new_logger ev1), ev1))) (TScope Train) = [9; 25].
Proof. split; [discriminate|reflexivity]. Qed.
