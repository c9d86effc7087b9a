(** * Properties C32-C34, C81-C85: vector environments *)
From Verif Require Import Py VenvModel VenvProofs VenvMainProofs.
From Coq Require Import Permutation.
Open Scope nat_scope.

(** C32.  step in synchronous mode with distinct ids (either worker class): environment ids[j]
    receives exactly actions[j], the j-th result is its result and carries its id, other
    environments receive nothing. *)
Theorem C32_step : forall (E Act R : Type) (estep : E -> cmd Act -> E * R) dummy v acts ks rounds,
  is_closed v = false -> is_async v = false -> (dummy = false -> idle v) ->
  ks <> [] -> NoDup ks -> Forall (fun k => k < length (workers v)) ks -> length acts = length ks ->
  exists v' rs, v_step estep dummy v (Some acts) (Some (map Z.of_nat ks)) rounds = (v', Ok (combine (map Z.of_nat ks) rs))
    /\ length rs = length ks /\ length (workers v') = length (workers v)
    /\ (forall j k a, nth_error ks j = Some k -> nth_error acts j = Some a -> exists e, nth_error (envs_of v) k = Some e
          /\ nth_error rs j = Some (snd (estep e (CStep a))) /\ nth_error (envs_of v') k = Some (fst (estep e (CStep a))))
    /\ (forall k, ~ In k ks -> nth_error (workers v') k = nth_error (workers v) k)
    /\ (dummy = false -> idle v').
Proof. exact C32_step_lemma. Qed.
Print Assumptions C32_step.

(** C32.  reset routes in the same way. *)
Theorem C32_reset : forall (E Act R : Type) (estep : E -> cmd Act -> E * R) dummy v ks,
  is_closed v = false -> is_async v = false -> (dummy = false -> idle v) ->
  ks <> [] -> NoDup ks -> Forall (fun k => k < length (workers v)) ks ->
  exists v' rs, v_reset estep dummy v (Some (map Z.of_nat ks)) = (v', Ok (combine (map Z.of_nat ks) rs))
    /\ length rs = length ks
    /\ (forall j k, nth_error ks j = Some k -> exists e, nth_error (envs_of v) k = Some e
          /\ nth_error rs j = Some (snd (estep e CReset)) /\ nth_error (envs_of v') k = Some (fst (estep e CReset)))
    /\ (forall k, ~ In k ks -> nth_error (workers v') k = nth_error (workers v) k).
Proof. exact C32_reset_lemma. Qed.
Print Assumptions C32_reset.

(** C32.  With subprocess workers and any id list, repeated ids included, sending all actions
    first and receiving all results afterwards gives what running the steps one after the other
    gives. *)
Theorem C32_pipelined : forall (E Act R : Type) (estep : E -> cmd Act -> E * R) v acts ks rounds es rs,
  is_closed v = false -> is_async v = false -> idle v ->
  ks <> [] -> Forall (fun k => k < length (workers v)) ks -> length acts = length ks ->
  ref estep (envs_of v) (combine ks (map CStep acts)) = (es, rs) ->
  exists v', v_step estep false v (Some acts) (Some (map Z.of_nat ks)) rounds = (v', Ok (combine (map Z.of_nat ks) rs))
    /\ envs_of v' = es /\ idle v'.
Proof. exact C32_pipelined_lemma. Qed.
Print Assumptions C32_pipelined.

(** C32.  seed: environment i receives the i-th seed (k + i for an int k, i.e. for [SInt k]), the
    i-th result is its result.  (Nothing may be running, see C83.) *)
Theorem C32_seed : forall (E Act R : Type) (estep : E -> cmd Act -> E * R) dummy v s,
  is_closed v = false -> (dummy = false -> idle v) -> (forall l, s = SList l -> length l = length (workers v)) ->
  exists v' rs, v_seed estep dummy v s = (v', Ok (combine (map Z.of_nat (seq 0 (length (workers v)))) rs)) /\ length rs = length (workers v)
    /\ (forall i e, nth_error (envs_of v) i = Some e ->
          exists sd, match s with SNone => sd = None | SInt k => sd = Some (k + Z.of_nat i)%Z | SList l => exists z, nth_error l i = Some z /\ sd = Some z end
            /\ nth_error rs i = Some (snd (estep e (CSeed sd))) /\ nth_error (envs_of v') i = Some (fst (estep e (CSeed sd))))
    /\ (dummy = false -> idle v').
Proof. exact C32_seed_lemma. Qed.
Print Assumptions C32_seed.

(** C33.  For every sequence of legal calls (distinct ids; seeding only when nothing runs), every
    completion order and timeout behaviour, and both worker classes, waiting_id and ready_id
    partition the environments; the results returned so far for environment k, followed by the
    pending one if k is waiting, are the results of exactly the commands it has received, in
    order (so every result is returned exactly once, under its own id, and an environment has
    an unanswered command only while it is waiting). *)
Theorem C33_partition : forall (E Act R : Type) (estep : E -> cmd Act -> E * R) dummy envs wn tm v0 v out,
  init envs wn tm = Ok v0 -> is_async v0 = true -> reach estep dummy envs v0 v out ->
  Permutation (waiting_id v ++ ready_id v) (map Z.of_nat (seq 0 (length envs)))
  /\ (forall k w e, nth_error (workers v) k = Some w -> nth_error envs k = Some e ->
        w_env w = final estep e (w_hist w)
        /\ (In (Z.of_nat k) (waiting_id v) -> exists r, w_q w = [r] /\ outs_of k out ++ [r] = results estep e (w_hist w))
        /\ (In (Z.of_nat k) (ready_id v) -> outs_of k out = results estep e (w_hist w) /\ (dummy = false -> w_q w = []))).
Proof. exact C33_partition_lemma. Qed.
Print Assumptions C33_partition.

(** C33.  Calls on ids that are not ready are refused without effect. *)
Theorem C33_refused : forall (E Act R : Type) (estep : E -> cmd Act -> E * R) dummy v acts ids i rounds,
  is_closed v = false -> is_async v = true -> In i ids -> (In i (waiting_id v) \/ ~ In i (ready_id v)) ->
  v_step estep dummy v (Some acts) (Some ids) rounds = (v, Err AssertionError) /\ v_reset estep dummy v (Some ids) = (v, Err AssertionError).
Proof. exact C33_refused_lemma. Qed.
Print Assumptions C33_refused.

(** After close every operation raises and changes nothing. *)
Theorem C34_closed : forall (E Act R : Type) (estep : E -> cmd Act -> E * R) dummy v o,
  is_closed v = true -> run_op estep dummy v o = (v, Err AssertionError).
Proof. exact C34_closed_lemma. Qed.
Print Assumptions C34_closed.

(** C34.  Over any sequence of operations, legal or not, close_env has been called on every worker
    exactly once if the vector environment is closed, and never otherwise. *)
Theorem C34_close_once : forall (E Act R : Type) (estep : E -> cmd Act -> E * R) dummy envs wn tm v0 ops,
  init envs wn tm = Ok v0 ->
  let v := fold_left (fun v o => fst (run_op estep dummy v o)) ops v0 in
  forall w, In w (workers v) -> w_closed w = is_closed v /\ w_closes w = if is_closed v then 1 else 0.
Proof. exact C34_close_once_lemma. Qed.
Print Assumptions C34_close_once.

(** C81.  With DummyVectorEnv, step may return fewer than wait_num results although enough
    environments are waiting: the loop pops from the list it iterates over. *)
Theorem C81_dummy_wait_num_refuted : exists acts l, length acts = 4 /\ wait_num (start 4 3) = 3
  /\ snd (v_step echo true (start 4 3) (Some acts) None []) = Ok l /\ length l = 2.
Proof. exact C81_dummy_wait_num_refuted_lemma. Qed.
Print Assumptions C81_dummy_wait_num_refuted.

(** C81 (subprocess workers without timeout).  step returns at least min(wait_num, number of
    waiting environments) results. *)
Theorem C81_wait_num_partial : forall (E Act R : Type) (estep : E -> cmd Act -> E * R) envs wn v0 v out acts ids rounds l,
  init envs wn None = Ok v0 -> is_async v0 = true -> timed v = false -> reach estep false envs v0 v out -> NoDup (wrap_id v ids) ->
  snd (v_step estep false v acts ids rounds) = Ok l ->
  l <> [] /\ Nat.min (wait_num v) (length (waiting_id v) + match acts with Some _ => length (wrap_id v ids) | None => 0 end) <= length l.
Proof. exact C81_wait_num_partial_lemma. Qed.
Print Assumptions C81_wait_num_partial.

(** C81 (dummy workers).  step returns half of the waiting environments, rounded up. *)
Theorem C81_dummy_half_partial : forall (E Act R : Type) (estep : E -> cmd Act -> E * R) envs wn tm v0 v out acts ids rounds l,
  init envs wn tm = Ok v0 -> is_async v0 = true -> reach estep true envs v0 v out -> NoDup (wrap_id v ids) ->
  snd (v_step estep true v acts ids rounds) = Ok l ->
  length l = S (length (waiting_id v) + match acts with Some _ => length (wrap_id v ids) | None => 0 end) / 2.
Proof. exact C81_dummy_half_partial_lemma. Qed.
Print Assumptions C81_dummy_half_partial.

(** C82.  step(None) with no environment running never returns, whatever happens and for both
    worker classes. *)
Theorem C82_nothing_waiting_refuted : exists (v : @venv nat nat (nat * cmd nat)), is_async v = true /\ is_closed v = false /\ waiting_id v = []
  /\ forall dummy rounds, v_step echo dummy v None None rounds = (v, Err OutOfFuel).
Proof. exact C82_nothing_waiting_refuted_lemma. Qed.
Print Assumptions C82_nothing_waiting_refuted.

(** C82 (something is running).  step(None) returns as soon as every running environment finishes
    some time (subprocess workers without timeout), and at once with dummy workers. *)
Theorem C82_waiting_partial : forall (E Act R : Type) (estep : E -> cmd Act -> E * R) dummy envs wn v0 v out rounds,
  init envs wn None = Ok v0 -> is_async v0 = true -> timed v = false -> is_closed v = false -> reach estep dummy envs v0 v out -> waiting_id v <> [] ->
  (forall i, In i (waiting_id v) -> exists r, In (Some r) rounds /\ In (Z.to_nat i) r) ->
  exists v' l, v_step estep dummy v None None rounds = (v', Ok l) /\ l <> [].
Proof. exact C82_waiting_partial_lemma. Qed.
Print Assumptions C82_waiting_partial.

(** C83.  seed() while an environment is running (subprocess workers): the caller gets the step
    result as that environment's seed, and the next step returns the seed result as a step
    result. *)
Theorem C83_seed_running_refuted : exists v1 v2 v3 l1 l2 l3,
  v_step echo false (start 2 1) (Some [7; 8]) None [Some [0]] = (v1, Ok l1) /\ waiting_id v1 = [1%Z]
  /\ v_seed echo false v1 (SInt 5) = (v2, Ok l2) /\ In (1%Z, (1, CStep 8)) l2
  /\ v_step echo false v2 None None [Some [1]] = (v3, Ok l3) /\ l3 = [(1%Z, (2, CSeed (Some 6%Z)))].
Proof. exact C83_seed_running_refuted_lemma. Qed.
Print Assumptions C83_seed_running_refuted.

(** C83 (nothing running).  In asynchronous mode too, environment i receives the i-th seed and the
    i-th result is its answer. *)
Theorem C83_seed_partial : forall (E Act R : Type) (estep : E -> cmd Act -> E * R) dummy envs wn tm v0 v out s,
  init envs wn tm = Ok v0 -> is_async v0 = true -> is_closed v = false -> reach estep dummy envs v0 v out -> waiting_id v = [] ->
  (forall l, s = SList l -> length l = length envs) ->
  exists v' rs, v_seed estep dummy v s = (v', Ok (combine (map Z.of_nat (seq 0 (length envs))) rs)) /\ length rs = length envs
    /\ (forall i e, nth_error (envs_of v) i = Some e ->
          exists sd, match s with SNone => sd = None | SInt k => sd = Some (k + Z.of_nat i)%Z | SList l => exists z, nth_error l i = Some z /\ sd = Some z end
            /\ nth_error rs i = Some (snd (estep e (CSeed sd)))).
Proof. exact C83_seed_partial_lemma. Qed.
Print Assumptions C83_seed_partial.

(** C84.  Repeated ids in an asynchronous step are accepted and break the partition: environment 0
    is both waiting and ready (either worker class). *)
Theorem C84_duplicate_ids_refuted : exists v1 v2 l1 l2,
  v_step echo true (start 2 1) (Some [7; 8]) (Some [0%Z; 0%Z]) [] = (v1, Ok l1) /\ In 0%Z (waiting_id v1) /\ In 0%Z (ready_id v1)
  /\ v_step echo false (start 2 1) (Some [7; 8]) (Some [0%Z; 0%Z]) [Some [0]] = (v2, Ok l2) /\ In 0%Z (waiting_id v2) /\ In 0%Z (ready_id v2).
Proof. exact C84_duplicate_ids_refuted_lemma. Qed.
Print Assumptions C84_duplicate_ids_refuted.

(** C85.  A synchronous step with an invalid id raises after sending the actions before it; with
    subprocess workers the next step of such an environment returns the stale result. *)
Theorem C85_stale_result_refuted : exists v1 v2, is_async (start 2 2) = false
  /\ v_step echo false (start 2 2) (Some [7; 8]) (Some [0%Z; 5%Z]) [] = (v1, Err IndexError)
  /\ v_step echo false v1 (Some [9]) (Some [0%Z]) [] = (v2, Ok [(0%Z, (1, CStep 7))]).
Proof. exact C85_stale_result_refuted_lemma. Qed.
Print Assumptions C85_stale_result_refuted.

Example C32_step_ex : is_async (start 3 3) = false
  /\ snd (v_step echo false (start 3 3) (Some [7; 8]) (Some [2%Z; 0%Z]) []) = Ok [(2%Z, (1, CStep 7)); (0%Z, (1, CStep 8))]
  /\ envs_of (fst (v_step echo true (start 3 3) (Some [7; 8]) (Some [2%Z; 0%Z]) [])) = [1; 0; 1].
Proof. repeat split; vm_compute; reflexivity. Qed.
Example C32_pipelined_ex : snd (v_step echo false (start 3 3) (Some [7; 8; 9]) (Some [2%Z; 0%Z; 2%Z]) []) = Ok [(2%Z, (1, CStep 7)); (0%Z, (1, CStep 8)); (2%Z, (2, CStep 9))]
  /\ ref echo [0; 0; 0] (combine [2; 0; 2] (map CStep [7; 8; 9])) = ([1; 0; 2], [(1, CStep 7); (1, CStep 8); (2, CStep 9)]).
Proof. split; vm_compute; reflexivity. Qed.
(** Dummy workers with a repeated id: the first result is lost. *)
Example C32_dummy_repeated_ex : snd (v_step echo true (start 3 3) (Some [7; 9]) (Some [2%Z; 2%Z]) []) = Ok [(2%Z, (2, CStep 9)); (2%Z, (2, CStep 9))].
Proof. vm_compute. reflexivity. Qed.
Example C32_reset_seed_ex : snd (v_reset echo true (start 3 3) (Some [1%Z; 0%Z])) = Ok [(1%Z, (1, CReset)); (0%Z, (1, CReset))]
  /\ snd (v_seed echo false (start 3 3) (SInt 40)) = Ok [(0%Z, (1, CSeed (Some 40%Z))); (1%Z, (1, CSeed (Some 41%Z))); (2%Z, (1, CSeed (Some 42%Z)))].
Proof. split; vm_compute; reflexivity. Qed.
(** Three subprocess environments, wait_num 1: environment 1 finishes first, then 0 and 2. *)
Definition ex_ops : list (@op nat) := [OReset None; OStep (Some [7; 8; 9]) None [Some [1]]; OStep (Some [5]) (Some [1%Z]) [Some [2; 0]]; OReset (Some [2%Z])].
Definition ex_run := fold_left (fun vo o => let '(v, r) := run_op echo false (fst vo) o in (v, snd vo ++ match r with Ok l => l | Err _ => [] end)) ex_ops (start 3 1, []).
Example C33_ex : is_async (start 3 1) = true /\ waiting_id (fst ex_run) = [1%Z] /\ ready_id (fst ex_run) = [2%Z; 0%Z]
  /\ map fst (snd ex_run) = [0; 1; 2; 1; 2; 0; 2]%Z /\ outs_of 1 (snd ex_run) = [(1, CReset); (2, CStep 8)]
  /\ option_map w_q (nth_error (workers (fst ex_run)) 1) = Some [(3, CStep 5)].
Proof. repeat split; vm_compute; reflexivity. Qed.
Example C33_reach_ex : exists v0, init [0; 0; 0] (Some 1) None = Ok v0 /\ reach echo false [0; 0; 0] v0 (fst ex_run) (snd ex_run).
Proof.
  exists (start 3 1). split; [reflexivity|]. assert (Hz : forall l : list Z, nodup Z.eq_dec l = l -> NoDup l) by (intros l <-; apply NoDup_nodup).
  pose proof (reach_init echo false [0; 0; 0] (start 3 1)) as H.
  apply (reach_op _ _ _ _ _ _ (OReset None)) in H; [|apply Hz; vm_compute; reflexivity].
  apply (reach_op _ _ _ _ _ _ (OStep (Some [7; 8; 9]) None [Some [1]])) in H; [|apply Hz; vm_compute; reflexivity].
  apply (reach_op _ _ _ _ _ _ (OStep (Some [5]) (Some [1%Z]) [Some [2; 0]])) in H; [|apply Hz; vm_compute; reflexivity].
  apply (reach_op _ _ _ _ _ _ (OReset (Some [2%Z]))) in H; [|apply Hz; vm_compute; reflexivity].
  vm_compute in H. vm_compute. exact H.
Qed.
Example C33_refused_ex : v_step echo false (fst ex_run) (Some [1; 2]) (Some [2%Z; 1%Z]) [] = (fst ex_run, Err AssertionError).
Proof. vm_compute. reflexivity. Qed.
Example C34_ex : let v := fst (run_op echo false (fst ex_run) OClose) in is_closed v = true /\ map w_closes (workers v) = [1; 1; 1] /\ snd (run_op echo false v OClose) = Err AssertionError.
Proof. repeat split; vm_compute; reflexivity. Qed.
Example C81_half_ex : option_map (@length _) (match snd (v_step echo true (start 5 4) (Some [1; 2; 3; 4; 5]) None []) with Ok l => Some l | Err _ => None end) = Some 3.
Proof. vm_compute. reflexivity. Qed.
Example C82_ex : snd (v_step echo false (fst ex_run) None None [Some [0]; Some [1; 2]]) = Ok [(1%Z, (3, CStep 5))].
Proof. vm_compute. reflexivity. Qed.
