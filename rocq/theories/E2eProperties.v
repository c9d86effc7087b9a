(** * One update on a collected buffer: properties *)
From Verif Require Import Py PyLemmas Num CollectSpec ReturnsSpec E2eModel E2eSpec E2eProofs.
Open Scope nat_scope.

(** C245. Collect, sample, compute n-step targets: every sampled row is a step of one environment's own
    trajectory (the newest that fit in its sub-buffer), and its target is the n-step target of that
    trajectory from that step on. *)
Theorem C245_off_policy : forall (Ob A B Inf H ES PS : Type) (r0 : Qc) (radd : Qc -> Qc -> Qc) (last_frame : Ob -> Ob) (o : opts)
  (estep : nat -> ES -> B -> ES * sres Ob Inf Qc) (ereset : nat -> ES -> ES * (Ob * Inf))
  (act_fn : PS -> list nat -> list Ob -> list Inf -> option (list H) -> PS * (list (A * B) * option (list H)))
  (hreset : list nat -> list H -> list H) (hook : list (row_out Ob A Inf Qc) -> bool)
  ns ops (c : coll Ob A Inf Qc H ES PS) c' ls fuel ts rb rnd (V : list (option Ob) -> Qc) z gamma N,
  stack_num o = 1 -> save_only_last_obs o = false -> one_stream ts ->
  coll_ok r0 radd last_frame o ns ops c -> (forall e, mqueue last_frame o ns ops e = []) ->
  collects (fun a b => collect r0 radd last_frame o estep ereset act_fn hreset hook fuel a b false) ts c = Ok (c', ls) ->
  let calls := concat (map (@l_calls _ _ _ _ _ _ _ _) ls) in
  let steps e := newest estep ereset ns c calls e in
  (exists e, trajectory estep ereset c calls e <> []) -> (0 < z)%Z -> 0 < N ->
  exists xs, length xs = Z.to_nat z
  /\ (forall x, In x xs -> fst x < length (c_envs c) /\ snd x < length (steps (fst x)))
  /\ off_policy o (c_mgr c') rb rnd V z gamma N
     = Ok (flat_map (fun x => row_at last_frame o (skipn (snd x) (steps (fst x)))) xs,
           map (fun x => [n_step (fun t rest => V [Some (seen_next (save_obs_next o) t rest)]) gamma N (skipn (snd x) (steps (fst x)))]) xs).
Proof. exact C245_off_policy_lemma. Qed.
Print Assumptions C245_off_policy.

(** C246. Not saving next observations: the targets are unchanged for steps of episodes that end with a
    terminal step. *)
Theorem C246_no_next_partial : forall (Ob A Inf : Type) (V : list (option Ob) -> Qc) gamma lam N (ts : list (trans Ob A Inf Qc)),
  terminates ts = true ->
  n_step (fun t rest => V [Some (seen_next false t rest)]) gamma N ts = n_step (fun t _ => V [Some (t_obs_next t)]) gamma N ts
  /\ td_lambda (fun t rest => V [Some (seen_next false t rest)]) gamma lam ts = td_lambda (fun t _ => V [Some (t_obs_next t)]) gamma lam ts.
Proof. exact C246_no_next_partial_lemma. Qed.
Print Assumptions C246_no_next_partial.

(** With next observations saved the target of every step uses what the environment returned. *)
Theorem C246_saved : forall (Ob A Inf : Type) (V : list (option Ob) -> Qc) gamma lam N (ts : list (trans Ob A Inf Qc)),
  n_step (fun t rest => V [Some (seen_next true t rest)]) gamma N ts = n_step (fun t _ => V [Some (t_obs_next t)]) gamma N ts
  /\ td_lambda (fun t rest => V [Some (seen_next true t rest)]) gamma lam ts = td_lambda (fun t _ => V [Some (t_obs_next t)]) gamma lam ts.
Proof. exact C246_saved_lemma. Qed.
Print Assumptions C246_saved.

(** The same run, the same draws: with next observations not saved the target of the truncated step is
    taken from the observation before it. *)
Theorem C246_no_next_refuted : forall rb rnd, exists c c0 c1 l0 l1,
  count_ok true [4] [] c /\ count_ok false [4] [] c
  /\ count_collect true 10 (Some 3) None false c = Ok (c1, l1) /\ count_collect false 10 (Some 3) None false c = Ok (c0, l0)
  /\ (let* x := on_policy (count_opts true) (c_mgr c1) rb rnd count_value 1 0 in Ok (map this (fst (snd x)))) = Ok (map inject_Z [11; 22; 33]%Z)
  /\ (let* x := on_policy (count_opts false) (c_mgr c0) rb rnd count_value 1 0 in Ok (map this (fst (snd x)))) = Ok (map inject_Z [11; 22; 23]%Z).
Proof. exact C246_no_next_refuted_lemma. Qed.
Print Assumptions C246_no_next_refuted.

(** C247. Collect, take the whole buffer, compute lambda-returns and advantages: environment after
    environment, oldest step first, the TD(lambda) targets of the trajectories, and their difference to
    the critic's value of the observation acted on. *)
Theorem C247_on_policy : forall (Ob A B Inf H ES PS : Type) (r0 : Qc) (radd : Qc -> Qc -> Qc) (last_frame : Ob -> Ob) (o : opts)
  (estep : nat -> ES -> B -> ES * sres Ob Inf Qc) (ereset : nat -> ES -> ES * (Ob * Inf))
  (act_fn : PS -> list nat -> list Ob -> list Inf -> option (list H) -> PS * (list (A * B) * option (list H)))
  (hreset : list nat -> list H -> list H) (hook : list (row_out Ob A Inf Qc) -> bool)
  ns ops (c : coll Ob A Inf Qc H ES PS) c' ls fuel ts rb rnd (V : list (option Ob) -> Qc) gamma lam,
  stack_num o = 1 -> save_only_last_obs o = false -> one_stream ts ->
  coll_ok r0 radd last_frame o ns ops c -> (forall e, mqueue last_frame o ns ops e = []) ->
  collects (fun a b => collect r0 radd last_frame o estep ereset act_fn hreset hook fuel a b false) ts c = Ok (c', ls) ->
  let calls := concat (map (@l_calls _ _ _ _ _ _ _ _) ls) in
  let steps e := newest estep ereset ns c calls e in
  let target := td_lambda (fun t rest => V [Some (seen_next (save_obs_next o) t rest)]) gamma lam in
  let value l := match l with t :: _ => V [Some (t_obs t)] | [] => 0%Qc end in
  let envs := seq 0 (length (c_envs c)) in
  (exists e, trajectory estep ereset c calls e <> []) ->
  on_policy o (c_mgr c') rb rnd V gamma lam
  = Ok (flat_map (fun e => flat_map (row_at last_frame o) (suffixes (steps e))) envs,
        (flat_map (fun e => map target (suffixes (steps e))) envs,
         flat_map (fun e => map (fun l => (target l - value l)%Qc) (suffixes (steps e))) envs)).
Proof. exact C247_on_policy_lemma. Qed.
Print Assumptions C247_on_policy.

(** C248. The same for the policy-gradient returns: discounted sums of the rewards of the rest of the
    episode; a part of an episode that does not end in a terminal step gets the discounted mean of the
    running statistics. *)
Theorem C248_policy_gradient : forall (Ob A B Inf H ES PS : Type) (r0 : Qc) (radd : Qc -> Qc -> Qc) (last_frame : Ob -> Ob) (o : opts)
  (estep : nat -> ES -> B -> ES * sres Ob Inf Qc) (ereset : nat -> ES -> ES * (Ob * Inf))
  (act_fn : PS -> list nat -> list Ob -> list Inf -> option (list H) -> PS * (list (A * B) * option (list H)))
  (hreset : list nat -> list H -> list H) (hook : list (row_out Ob A Inf Qc) -> bool)
  ns ops (c : coll Ob A Inf Qc H ES PS) c' ls fuel ts rb rnd mean gamma,
  stack_num o = 1 -> save_only_last_obs o = false -> one_stream ts ->
  coll_ok r0 radd last_frame o ns ops c -> (forall e, mqueue last_frame o ns ops e = []) ->
  collects (fun a b => collect r0 radd last_frame o estep ereset act_fn hreset hook fuel a b false) ts c = Ok (c', ls) ->
  let calls := concat (map (@l_calls _ _ _ _ _ _ _ _) ls) in
  let steps e := newest estep ereset ns c calls e in
  let envs := seq 0 (length (c_envs c)) in
  (exists e, trajectory estep ereset c calls e <> []) ->
  pg_policy o (c_mgr c') rb rnd mean gamma
  = Ok (flat_map (fun e => flat_map (row_at last_frame o) (suffixes (steps e))) envs,
        flat_map (fun e => map (to_go mean gamma) (suffixes (steps e))) envs).
Proof. exact C248_policy_gradient_lemma. Qed.
Print Assumptions C248_policy_gradient.

(** ** Examples: two environments, sub-buffers of 4, two calls for 6 and 4 steps: the ring wraps, an
    episode ends (by truncation in environment 0) and another is in progress. *)
Definition e2e_run (saved : bool) := collects (fun a b => count_collect saved 10 a b false) [Steps 5; Steps 3] (count_coll 4 2).
Definition e2e_mgr (saved : bool) : mgr nat unit unit Qc := match e2e_run saved with Ok (c, _) => c_mgr c | Err _ => m_init 0%Qc [] end.
Definition e2e_calls (saved : bool) := match e2e_run saved with Ok (_, ls) => concat (map (@l_calls _ _ _ _ _ _ _ _) ls) | Err _ => [] end.
Example C245_ex_hyp : forall b, stack_num (count_opts b) = 1 /\ save_only_last_obs (count_opts b) = false /\ one_stream [Steps 5; Steps 3]
  /\ count_ok b [4; 4] [] (count_coll 4 2) /\ (forall e, mqueue (A := unit) (Inf := unit) (R := Qc) (fun x : nat => x) (count_opts b) [4; 4] [] e = []) /\ is_ok (e2e_run b) = true
  /\ trajectory (A := unit) count_step count_reset (count_coll 4 2) (e2e_calls b) 1 <> [].
Proof.
  intro b. split; [reflexivity|]. split; [reflexivity|]. split.
  { left. intros t [<-|[<-|[]]]; eexists; reflexivity. }
  split. { split; [intros n [<-|[<-|[]]]; lia|]. split; [cbn; lia|]. split; [cbn; lia|]. split; [exists []; reflexivity|]. exists [0; 0], [tt; tt]. repeat split. }
  split; [intros [|[|[|e]]]; reflexivity|]. destruct b; split; vm_compute; try reflexivity; discriminate.
Qed.
(** The newest four of five steps of each: observations 1, 2, 0, 1. *)
Example C245_ex_steps : map (fun e => map (fun t => (t_obs t, t_obs_next t, t_term t, t_trunc t)) (newest count_step count_reset [4; 4] (count_coll 4 2) (e2e_calls true) e)) [0; 1; 2]
  = [[(1, 2, false, false); (2, 3, false, true); (0, 1, false, false); (1, 2, false, false)];
     [(1, 2, false, false); (2, 3, true, false); (0, 1, false, false); (1, 2, false, false)]; []].
Proof. vm_compute. reflexivity. Qed.
(** Two-step targets of four sampled rows, with gamma 1. *)
Example C245_ex : map (fun b => let* x := off_policy (count_opts b) (e2e_mgr b) (fun i => i) (fun k i => k + i) count_value 4 1 2 in
    Ok (map (fun r => (o_obs r, o_obs_next r)) (fst x), map (map this) (snd x))) [true; false]
  = [Ok ([([Some 1], [Some 2]); ([Some 1], [Some 2]); ([Some 2], [Some 3]); ([Some 0], [Some 1])], map (map inject_Z) [[22]; [35]; [33]; [23]]%Z);
     Ok ([([Some 1], [Some 1]); ([Some 1], [Some 2]); ([Some 2], [Some 2]); ([Some 0], [Some 1])], map (map inject_Z) [[12]; [25]; [23]; [13]]%Z)].
Proof. vm_compute. reflexivity. Qed.
(** Environment 1's episode is terminal, that of environment 0 is not. *)
Example C246_ex : map (fun e => terminates (newest count_step count_reset [4; 4] (count_coll 4 2) (e2e_calls true) e)) [0; 1] = [false; true].
Proof. vm_compute. reflexivity. Qed.
Example C247_ex : (let* x := on_policy (count_opts true) (e2e_mgr true) (fun i => i) (fun k i => k + i) count_value 1 (Q2Qc (1 # 2)) in
    Ok (map this (fst (snd x)), map this (snd (snd x))))
  = Ok ([57 # 2; 33 # 1; 17 # 1; 22 # 1; 27 # 2; 3 # 1; 17 # 1; 22 # 1]%Q, [37 # 2; 13 # 1; 17 # 1; 12 # 1; 7 # 2; (-17) # 1; 17 # 1; 12 # 1]%Q).
Proof. vm_compute. reflexivity. Qed.
Example C248_ex : (let* x := pg_policy (count_opts true) (e2e_mgr true) (fun i => i) (fun k i => k + i) (Q2Qc 7) 1 in Ok (map this (snd x)))
  = Ok (map inject_Z [12; 10; 10; 9; 5; 3; 10; 9]%Z).
Proof. vm_compute. reflexivity. Qed.
