(** * Properties C28-C31, C97-C102: Collector *)
From Verif Require Import Py BufferModel BufferSpec ManagerModel ManagerSpec CollectModel CollectSpec CollectProofs.
Open Scope nat_scope.

(** collect(n_episode=k+1) returns exactly k+1 finished episodes.  min(N, k+1) environments take part;
    the last row of each of them ends an episode, and so does the last row of an environment that is
    absent from a round. *)
Theorem C28_exact : forall (Ob A B Inf R H ES PS : Type) (r0 : R) (radd : R -> R -> R) (last_frame : Ob -> Ob) (o : opts)
  (estep : nat -> ES -> B -> ES * sres Ob Inf R) (ereset : nat -> ES -> ES * (Ob * Inf))
  (act_fn : PS -> list nat -> list Ob -> list Inf -> option (list H) -> PS * (list (A * B) * option (list H)))
  (hreset : list nat -> list H -> list H) (hook : list (row_out Ob A Inf R) -> bool)
  ns ops (c : coll Ob A Inf R H ES PS) c' l fuel k,
  coll_ok r0 radd last_frame o ns ops c -> collect r0 radd last_frame o estep ereset act_fn hreset hook fuel None (Some (S k)) false c = Ok (c', l) ->
  exists rounds, recorded r0 radd last_frame o estep ereset ns ops c (c_mgr c') (l_calls l) rounds
  /\ st_episodes (l_stats l) = S k /\ c_episode c' = c_episode c + S k
  /\ let w := Nat.min (length (c_envs c)) (S k) in
     num_ends w rounds = S k
  /\ (forall e, w <= e -> parts e rounds = [])
  /\ (forall e, e < w -> exists ts t, parts e rounds = ts ++ [t] /\ ends t = true)
  /\ (forall pre rd post e, rounds = pre ++ rd :: post -> e < w -> ~ In e (fst rd) -> exists ts t, parts e pre = ts ++ [t] /\ ends t = true).
Proof. exact C28_exact_lemma. Qed.
Print Assumptions C28_exact.

(** A collection ends, however the episode lengths differ, if every episode has at most [T] further
    steps after its first, [left e s] bounding those of environment [e] in state [s]; the episodes are
    then all shorter than their sub-buffers. *)
Theorem C28_terminates_partial : forall (Ob A B Inf R H ES PS : Type) (r0 : R) (radd : R -> R -> R) (last_frame : Ob -> Ob) (o : opts)
  (estep : nat -> ES -> B -> ES * sres Ob Inf R) (ereset : nat -> ES -> ES * (Ob * Inf))
  (act_fn : PS -> list nat -> list Ob -> list Inf -> option (list H) -> PS * (list (A * B) * option (list H)))
  (hreset : list nat -> list H -> list H) (hook : list (row_out Ob A Inf R) -> bool)
  ns ops (c : coll Ob A Inf R H ES PS) (left : nat -> ES -> nat) T fuel k,
  (forall e s, left e (fst (ereset e s)) <= T) ->
  (forall e s b, r_done (snd (estep e s b)) = false -> left e (fst (estep e s b)) < left e s) ->
  (forall p ids obs inf hid, length obs = length ids -> length (fst (snd (act_fn p ids obs inf hid))) = length ids) ->
  coll_ok r0 radd last_frame o ns ops c -> (forall h, c_hid c = Some h -> length h = length (c_envs c)) ->
  (forall e s n, nth_error (c_envs c) e = Some s -> nth_error ns e = Some n ->
     T + 1 < n /\ left e s <= T /\ length (fst (in_progress ns ops e)) + left e s + 1 < n) ->
  S k * (T + 1) <= fuel ->
  exists c' l rounds, collect r0 radd last_frame o estep ereset act_fn hreset hook fuel None (Some (S k)) false c = Ok (c', l)
  /\ recorded r0 radd last_frame o estep ereset ns ops c (c_mgr c') (l_calls l) rounds /\ short_enough ns ops rounds.
Proof. exact C28_terminates_partial_lemma. Qed.
Print Assumptions C28_terminates_partial.

(** collect(n_step=n+1) on N environments makes ceil((n+1)/N) rounds with all environments. *)
Theorem C29_rounds : forall (Ob A B Inf R H ES PS : Type) (r0 : R) (radd : R -> R -> R) (last_frame : Ob -> Ob) (o : opts)
  (estep : nat -> ES -> B -> ES * sres Ob Inf R) (ereset : nat -> ES -> ES * (Ob * Inf))
  (act_fn : PS -> list nat -> list Ob -> list Inf -> option (list H) -> PS * (list (A * B) * option (list H)))
  (hreset : list nat -> list H -> list H) (hook : list (row_out Ob A Inf R) -> bool)
  ns ops (c : coll Ob A Inf R H ES PS) c' l fuel n,
  coll_ok r0 radd last_frame o ns ops c -> collect r0 radd last_frame o estep ereset act_fn hreset hook fuel (Some (S n)) None false c = Ok (c', l) ->
  let N := length (c_envs c) in
  exists rounds, recorded r0 radd last_frame o estep ereset ns ops c (c_mgr c') (l_calls l) rounds
  /\ (forall rd, In rd rounds -> fst rd = seq 0 N)
  /\ N * (length rounds - 1) < S n <= N * length rounds
  /\ st_steps (l_stats l) = N * length rounds /\ c_step c' = c_step c + N * length rounds
  /\ st_episodes (l_stats l) = num_ends N rounds /\ c_episode c' = c_episode c + num_ends N rounds.
Proof. exact C29_rounds_lemma. Qed.
Print Assumptions C29_rounds.

Theorem C29_terminates_partial : forall (Ob A B Inf R H ES PS : Type) (r0 : R) (radd : R -> R -> R) (last_frame : Ob -> Ob) (o : opts)
  (estep : nat -> ES -> B -> ES * sres Ob Inf R) (ereset : nat -> ES -> ES * (Ob * Inf))
  (act_fn : PS -> list nat -> list Ob -> list Inf -> option (list H) -> PS * (list (A * B) * option (list H)))
  (hreset : list nat -> list H -> list H) (hook : list (row_out Ob A Inf R) -> bool)
  ns ops (c : coll Ob A Inf R H ES PS) (left : nat -> ES -> nat) T fuel n,
  (forall e s, left e (fst (ereset e s)) <= T) ->
  (forall e s b, r_done (snd (estep e s b)) = false -> left e (fst (estep e s b)) < left e s) ->
  (forall p ids obs inf hid, length obs = length ids -> length (fst (snd (act_fn p ids obs inf hid))) = length ids) ->
  coll_ok r0 radd last_frame o ns ops c -> (forall h, c_hid c = Some h -> length h = length (c_envs c)) ->
  (forall e s n, nth_error (c_envs c) e = Some s -> nth_error ns e = Some n ->
     T + 1 < n /\ left e s <= T /\ length (fst (in_progress ns ops e)) + left e s + 1 < n) ->
  (forall b, hook b = false) -> S n <= fuel * length (c_envs c) ->
  exists c' l rounds, collect r0 radd last_frame o estep ereset act_fn hreset hook fuel (Some (S n)) None false c = Ok (c', l)
  /\ recorded r0 radd last_frame o estep ereset ns ops c (c_mgr c') (l_calls l) rounds /\ short_enough ns ops rounds.
Proof. exact C29_terminates_partial_lemma. Qed.
Print Assumptions C29_terminates_partial.

(** The rows of sub-buffer [e] that a call adds are those of environment [e] on its own with the
    actions that were computed from its observations; afterwards the collector is ready for another
    call, with the state and observation where the environment is, or those of a fresh reset after an
    n_episode call. *)
Theorem C30_stored : forall (Ob A B Inf R H ES PS : Type) (r0 : R) (radd : R -> R -> R) (last_frame : Ob -> Ob) (o : opts)
  (estep : nat -> ES -> B -> ES * sres Ob Inf R) (ereset : nat -> ES -> ES * (Ob * Inf))
  (act_fn : PS -> list nat -> list Ob -> list Inf -> option (list H) -> PS * (list (A * B) * option (list H)))
  (hreset : list nat -> list H -> list H) (hook : list (row_out Ob A Inf R) -> bool)
  ns ops (c : coll Ob A Inf R H ES PS) c' l fuel t,
  coll_ok r0 radd last_frame o ns ops c -> collect r0 radd last_frame o estep ereset act_fn hreset hook fuel (by_steps t) (by_episodes t) false c = Ok (c', l) ->
  exists rounds, recorded r0 radd last_frame o estep ereset ns ops c (c_mgr c') (l_calls l) rounds
  /\ coll_ok r0 radd last_frame o ns (ops ++ as_adds rounds) c' /\ length (c_envs c') = length (c_envs c)
  /\ (forall e, e < length ns -> proj (length ns) e (ops ++ as_adds rounds) = proj (length ns) e ops ++ map OpAdd (parts e rounds))
  /\ forall e s ob, nth_error (c_envs c) e = Some s -> pre_obs c e = Some ob ->
       let x := solo_end estep ereset e s ob (answered e (l_calls l)) in
       match t with
       | Steps _ => nth_error (c_envs c') e = Some (fst x) /\ pre_obs c' e = Some (snd x)
       | Episodes _ => nth_error (c_envs c') e = Some (fst (ereset e (fst x))) /\ pre_obs c' e = Some (fst (snd (ereset e (fst x))))
       end.
Proof. exact C30_stored_lemma. Qed.
Print Assumptions C30_stored.

(** Several n_step collections are one stream for every environment. *)
Theorem C30_sequence : forall (Ob A B Inf R H ES PS : Type) (r0 : R) (radd : R -> R -> R) (last_frame : Ob -> Ob) (o : opts)
  (estep : nat -> ES -> B -> ES * sres Ob Inf R) (ereset : nat -> ES -> ES * (Ob * Inf))
  (act_fn : PS -> list nat -> list Ob -> list Inf -> option (list H) -> PS * (list (A * B) * option (list H)))
  (hreset : list nat -> list H -> list H) (hook : list (row_out Ob A Inf R) -> bool)
  ns ops (c : coll Ob A Inf R H ES PS) c' ls fuel ts,
  (forall t, In t ts -> exists n, t = Steps n) -> coll_ok r0 radd last_frame o ns ops c ->
  collects (fun a b => collect r0 radd last_frame o estep ereset act_fn hreset hook fuel a b false) ts c = Ok (c', ls) ->
  exists rounds, recorded r0 radd last_frame o estep ereset ns ops c (c_mgr c') (concat (map (@l_calls _ _ _ _ _ _ _ _) ls)) rounds
  /\ coll_ok r0 radd last_frame o ns (ops ++ as_adds rounds) c'.
Proof. exact C30_sequence_lemma. Qed.
Print Assumptions C30_sequence.

(** Statistics: as many returns, lengths and hook calls as episodes; if every finished episode is
    shorter than its sub-buffer they are, per environment, those of its finished episodes, and the
    lengths with the unfinished steps add up to the number of steps. *)
Theorem C31_stats_partial : forall (Ob A B Inf R H ES PS : Type) (r0 : R) (radd : R -> R -> R) (last_frame : Ob -> Ob) (o : opts)
  (estep : nat -> ES -> B -> ES * sres Ob Inf R) (ereset : nat -> ES -> ES * (Ob * Inf))
  (act_fn : PS -> list nat -> list Ob -> list Inf -> option (list H) -> PS * (list (A * B) * option (list H)))
  (hreset : list nat -> list H -> list H) (hook : list (row_out Ob A Inf R) -> bool)
  ns ops (c : coll Ob A Inf R H ES PS) c' l fuel t,
  coll_ok r0 radd last_frame o ns ops c -> collect r0 radd last_frame o estep ereset act_fn hreset hook fuel (by_steps t) (by_episodes t) false c = Ok (c', l) ->
  let st := l_stats l in let N := length (c_envs c) in
  exists rounds, recorded r0 radd last_frame o estep ereset ns ops c (c_mgr c') (l_calls l) rounds
  /\ length (st_returns st) = st_episodes st /\ length (st_lens st) = st_episodes st /\ length (l_hook l) = st_episodes st
  /\ length (enders rounds) = st_episodes st
  /\ st_steps st = list_sum (map (fun e => length (parts e rounds)) (seq 0 N))
  /\ (short_enough ns ops rounds ->
       (forall e, e < N ->
          part e (enders rounds, st_returns st) = map (fun ep => total r0 radd (snd ep)) (episodes ns ops rounds e)
          /\ part e (enders rounds, st_lens st) = map (fun ep => length (fst ep)) (episodes ns ops rounds e)
          /\ part e (enders rounds, map (map (@o_cur _ _ _ _)) (l_hook l)) = map (fun ep => map (fun t => Some (kept last_frame o t)) (fst ep)) (episodes ns ops rounds e))
       /\ list_sum (st_lens st) + list_sum (map (fun e => length (fst (in_progress ns (ops ++ as_adds rounds) e))) (seq 0 N))
          = st_steps st + list_sum (map (fun e => length (fst (in_progress ns ops e))) (seq 0 N))).
Proof. exact C31_stats_partial_lemma. Qed.
Print Assumptions C31_stats_partial.

(** The second episode fills the sub-buffer and does not start at its first slot: its indices are
    looked up as the range from a slot to itself, which is refused. *)
Theorem C28_long_episode_refuted : exists ns (c : coll nat unit unit Z nat (nat * list nat) unit),
  demo_ok ns [] c /\ forall fuel, 4 <= fuel -> demo_collect HArray fuel None (Some 2) false c = Err ValueError.
Proof. exact C28_long_episode_refuted_lemma. Qed.
Print Assumptions C28_long_episode_refuted.

(** C29. The same happens when a number of steps is asked for: the call does not return. *)
Theorem C29_long_episode_refuted : exists ns (c : coll nat unit unit Z nat (nat * list nat) unit),
  demo_ok ns [] c /\ forall fuel, 4 <= fuel -> demo_collect HArray fuel (Some 4) None false c = Err ValueError.
Proof. exact C29_long_episode_refuted_lemma. Qed.
Print Assumptions C29_long_episode_refuted.

(** An episode of 3 steps in a sub-buffer of 2: the return is of the whole episode, the length and
    what the hook is given are of its last step. *)
Theorem C31_long_episode_refuted : exists ns (c : coll nat unit unit Z nat (nat * list nat) unit) c' l,
  demo_ok ns [] c /\ demo_collect HArray 5 None (Some 1) false c = Ok (c', l)
  /\ st_steps (l_stats l) = 3 /\ st_returns (l_stats l) = [3%Z] /\ st_lens (l_stats l) = [1]
  /\ map (map (fun r => option_map (@s_obs _ _ _ _) (o_cur r))) (l_hook l) = [[Some 2]].
Proof. exact C31_long_episode_refuted_lemma. Qed.
Print Assumptions C31_long_episode_refuted.

(** A row of a hidden state whose environment finished its episode is reset, the others are kept. *)
Theorem C97_hidden_partial : forall (Ob A B Inf R H ES PS : Type) (r0 : R) (radd : R -> R -> R) (last_frame : Ob -> Ob) (o : opts)
  (estep : nat -> ES -> B -> ES * sres Ob Inf R) (ereset : nat -> ES -> ES * (Ob * Inf))
  (act_fn : PS -> list nat -> list Ob -> list Inf -> option (list H) -> PS * (list (A * B) * option (list H)))
  (hook : list (row_out Ob A Inf R) -> bool) k (zero : H -> H) (l l' : loop Ob A B Inf R H ES PS) h,
  k <> HTensor -> NoDup (l_ready l) -> length (l_obs l) = length (l_ready l) ->
  snd (snd (act_fn (l_pol l) (l_ready l) (l_obs l) (l_inf l) (l_hid l))) = Some h ->
  iter r0 radd last_frame o estep ereset act_fn (reset_hidden k zero) hook None l = Ok l' ->
  exists rows reps h', m_add r0 radd last_frame o (l_mgr l) (Some (map Z.of_nat (l_ready l))) rows = Ok (l_mgr l', reps)
  /\ l_hid l' = Some h'
  /\ forall j t x, nth_error rows j = Some t -> nth_error h j = Some x -> nth_error h' j = Some (if ends t then zero x else x).
Proof. exact C97_hidden_partial_lemma. Qed.
Print Assumptions C97_hidden_partial.

(** A hidden state that is a tensor is not reset: after 2 episodes of 2 steps the policy has seen 4
    steps instead of none. *)
Theorem C97_tensor_refuted : exists ns (c : coll nat unit unit Z nat (nat * list nat) unit) c' l,
  demo_ok ns [] c /\ demo_collect HTensor 5 (Some 4) None false c = Ok (c', l)
  /\ st_lens (l_stats l) = [2; 2] /\ c_hid c' = Some [4]
  /\ exists c2 l2, demo_collect HArray 5 (Some 4) None false c = Ok (c2, l2) /\ c_hid c2 = Some [0].
Proof. exact C97_tensor_refuted_lemma. Qed.
Print Assumptions C97_tensor_refuted.

(** *** Arguments *)
Theorem C98_neither_partial : forall (Ob A B Inf R H ES PS : Type) (r0 : R) (radd : R -> R -> R) (last_frame : Ob -> Ob) (o : opts)
  (estep : nat -> ES -> B -> ES * sres Ob Inf R) (ereset : nat -> ES -> ES * (Ob * Inf))
  (act_fn : PS -> list nat -> list Ob -> list Inf -> option (list H) -> PS * (list (A * B) * option (list H)))
  (hreset : list nat -> list H -> list H) (hook : list (row_out Ob A Inf R) -> bool)
  (c : coll Ob A Inf R H ES PS) fuel r n_step n_episode,
  (n_step = None \/ n_step = Some 0) -> (n_episode = None \/ n_episode = Some 0) ->
  collect r0 radd last_frame o estep ereset act_fn hreset hook fuel n_step n_episode r c = Err ValueError.
Proof. exact C98_neither_partial_lemma. Qed.
Print Assumptions C98_neither_partial.

(** Both n_step and n_episode: accepted; no episode is collected although one was asked for. *)
Theorem C98_both_refuted : exists ns (c : coll nat unit unit Z nat (nat * list nat) unit) c' l,
  demo_ok ns [] c /\ demo_collect HArray 5 (Some 3) (Some 1) false c = Ok (c', l) /\ st_episodes (l_stats l) = 0 /\ st_steps (l_stats l) = 4.
Proof. exact C98_both_refuted_lemma. Qed.
Print Assumptions C98_both_refuted.

(** n_step=0 and n_episode=1: all environments take part and two episodes are collected. *)
Theorem C98_zero_steps_refuted : exists ns (c : coll nat unit unit Z nat (nat * list nat) unit) c' l,
  demo_ok ns [] c /\ demo_collect HArray 5 (Some 0) (Some 1) false c = Ok (c', l) /\ st_episodes (l_stats l) = 2.
Proof. exact C98_zero_steps_refuted_lemma. Qed.
Print Assumptions C98_zero_steps_refuted.

(** With no episode in progress in the buffer, a call (with or without reset_before_collect) reports
    the lengths of whole episodes of the environments, and the lengths together with the unfinished
    steps add up to the number of steps. *)
Theorem C99_whole_partial : forall (Ob A B Inf R H ES PS : Type) (r0 : R) (radd : R -> R -> R) (last_frame : Ob -> Ob) (o : opts)
  (estep : nat -> ES -> B -> ES * sres Ob Inf R) (ereset : nat -> ES -> ES * (Ob * Inf))
  (act_fn : PS -> list nat -> list Ob -> list Inf -> option (list H) -> PS * (list (A * B) * option (list H)))
  (hreset : list nat -> list H -> list H) (hook : list (row_out Ob A Inf R) -> bool)
  ns ops (c : coll Ob A Inf R H ES PS) c' l fuel t r,
  coll_ok r0 radd last_frame o ns ops c -> (forall e, e < length (c_envs c) -> in_progress ns ops e = ([], [])) ->
  collect r0 radd last_frame o estep ereset act_fn hreset hook fuel (by_steps t) (by_episodes t) r c = Ok (c', l) ->
  let st := l_stats l in let N := length (c_envs c) in
  exists c1 rounds, (if r then reset r0 ereset false c = Ok c1 else c1 = c)
  /\ recorded r0 radd last_frame o estep ereset ns ops c1 (c_mgr c') (l_calls l) rounds
  /\ (short_enough ns ops rounds ->
       (forall e, e < N -> part e (enders rounds, st_lens st) = map (fun ep => length (fst ep)) (finished ([], []) (parts e rounds)))
       /\ list_sum (st_lens st) + list_sum (map (fun e => length (fst (in_progress ns (ops ++ as_adds rounds) e))) (seq 0 N)) = st_steps st).
Proof. exact C99_whole_partial_lemma. Qed.
Print Assumptions C99_whole_partial.

(** Calls with n_episode >= N, and calls after which all episodes are over, keep it that way. *)
Theorem C99_episodes_partial : forall (Ob A B Inf R H ES PS : Type) (r0 : R) (radd : R -> R -> R) (last_frame : Ob -> Ob) (o : opts)
  (estep : nat -> ES -> B -> ES * sres Ob Inf R) (ereset : nat -> ES -> ES * (Ob * Inf))
  (act_fn : PS -> list nat -> list Ob -> list Inf -> option (list H) -> PS * (list (A * B) * option (list H)))
  (hreset : list nat -> list H -> list H) (hook : list (row_out Ob A Inf R) -> bool)
  ns ops (c : coll Ob A Inf R H ES PS) c' l fuel k,
  coll_ok r0 radd last_frame o ns ops c -> length (c_envs c) <= S k -> collect r0 radd last_frame o estep ereset act_fn hreset hook fuel None (Some (S k)) false c = Ok (c', l) ->
  exists rounds, coll_ok r0 radd last_frame o ns (ops ++ as_adds rounds) c'
  /\ forall e, e < length (c_envs c') -> in_progress ns (ops ++ as_adds rounds) e = ([], []).
Proof. exact C99_episodes_partial_lemma. Qed.
Print Assumptions C99_episodes_partial.

(** reset_before_collect in the middle of an episode: the step of the abandoned episode is counted
    with the new episode, whose 2 steps are reported as 3. *)
Theorem C99_reset_refuted : exists ns (c : coll nat unit unit Z nat (nat * list nat) unit) c1 l1 c2 l2,
  demo_ok ns [] c /\ demo_collect HArray 5 (Some 1) None false c = Ok (c1, l1) /\ st_episodes (l_stats l1) = 0
  /\ demo_collect HArray 5 None (Some 1) true c1 = Ok (c2, l2)
  /\ st_steps (l_stats l2) = 2 /\ st_returns (l_stats l2) = [3%Z] /\ st_lens (l_stats l2) = [3]
  /\ map (map (fun r => option_map (@s_obs _ _ _ _) (o_cur r))) (l_hook l2) = [[Some 0; Some 0; Some 1]].
Proof. exact C99_reset_refuted_lemma. Qed.
Print Assumptions C99_reset_refuted.

(** The same without any explicit reset: an n_episode call resets the environments it did not use. *)
Theorem C99_unused_env_refuted : exists ns (c : coll nat unit unit Z nat (nat * list nat) unit) c' ls,
  demo_ok ns [] c /\ collects (fun a b => demo_collect HArray 5 a b false) [Steps 1; Episodes 0; Episodes 1] c = Ok (c', ls)
  /\ map (fun l => (st_steps (l_stats l), st_lens (l_stats l))) ls = [(2, []); (2, [3]); (4, [2; 3])].
Proof. exact C99_unused_env_refuted_lemma. Qed.
Print Assumptions C99_unused_env_refuted.

(** The counters of the collector are raised by what a call collected. *)
Theorem C100_counters_partial : forall (Ob A B Inf R H ES PS : Type) (r0 : R) (radd : R -> R -> R) (last_frame : Ob -> Ob) (o : opts)
  (estep : nat -> ES -> B -> ES * sres Ob Inf R) (ereset : nat -> ES -> ES * (Ob * Inf))
  (act_fn : PS -> list nat -> list Ob -> list Inf -> option (list H) -> PS * (list (A * B) * option (list H)))
  (hreset : list nat -> list H -> list H) (hook : list (row_out Ob A Inf R) -> bool)
  ns ops (c : coll Ob A Inf R H ES PS) c' l fuel t,
  coll_ok r0 radd last_frame o ns ops c -> collect r0 radd last_frame o estep ereset act_fn hreset hook fuel (by_steps t) (by_episodes t) false c = Ok (c', l) ->
  c_step c' = c_step c + st_steps (l_stats l) /\ c_episode c' = c_episode c + st_episodes (l_stats l).
Proof. exact C100_counters_partial_lemma. Qed.
Print Assumptions C100_counters_partial.

(** reset_before_collect also resets them. *)
Theorem C100_reset_refuted : exists ns (c : coll nat unit unit Z nat (nat * list nat) unit) c1 l1 c2 l2,
  demo_ok ns [] c /\ demo_collect HArray 5 (Some 4) None false c = Ok (c1, l1) /\ c_step c1 = 4 /\ c_episode c1 = 2
  /\ demo_collect HArray 5 (Some 2) None true c1 = Ok (c2, l2) /\ st_steps (l_stats l2) = 2 /\ c_step c2 = 2 /\ c_episode c2 = 1.
Proof. exact C100_reset_refuted_lemma. Qed.
Print Assumptions C100_reset_refuted.

(** If the buffer was never reset with keep_statistics, the return and the length that are reported for
    an episode are those of the same rows, the ones the hook is given. *)
Theorem C101_same_rows_partial : forall (Ob A B Inf R H ES PS : Type) (r0 : R) (radd : R -> R -> R) (last_frame : Ob -> Ob) (o : opts)
  (estep : nat -> ES -> B -> ES * sres Ob Inf R) (ereset : nat -> ES -> ES * (Ob * Inf))
  (act_fn : PS -> list nat -> list Ob -> list Inf -> option (list H) -> PS * (list (A * B) * option (list H)))
  (hreset : list nat -> list H -> list H) (hook : list (row_out Ob A Inf R) -> bool)
  ns ops (c : coll Ob A Inf R H ES PS) c' l fuel t,
  coll_ok r0 radd last_frame o ns ops c -> ~ In (MReset true) ops -> collect r0 radd last_frame o estep ereset act_fn hreset hook fuel (by_steps t) (by_episodes t) false c = Ok (c', l) ->
  let st := l_stats l in
  exists rounds, recorded r0 radd last_frame o estep ereset ns ops c (c_mgr c') (l_calls l) rounds
  /\ (short_enough ns ops rounds -> forall e, e < length (c_envs c) -> let eps := map fst (episodes ns ops rounds e) in
       part e (enders rounds, st_returns st) = map (fun ep => total r0 radd (map (@t_rew _ _ _ _) ep)) eps
       /\ part e (enders rounds, st_lens st) = map (@length _) eps
       /\ part e (enders rounds, map (map (@o_cur _ _ _ _)) (l_hook l)) = map (map (fun t => Some (kept last_frame o t))) eps).
Proof. exact C101_same_rows_partial_lemma. Qed.
Print Assumptions C101_same_rows_partial.

(** Otherwise the return also counts rows that are neither in the length nor given to the hook. *)
Theorem C101_kept_refuted : exists ns (c : coll nat unit unit Z nat (nat * list nat) unit) c1 l1 c2 l2,
  demo_ok ns [] c /\ demo_collect HArray 5 (Some 1) None false c = Ok (c1, l1)
  /\ demo_collect HArray 5 None (Some 1) false (reset_buffer 0%Z true c1) = Ok (c2, l2)
  /\ st_returns (l_stats l2) = [3%Z] /\ st_lens (l_stats l2) = [2].
Proof. exact C101_kept_refuted_lemma. Qed.
Print Assumptions C101_kept_refuted.

(** Merging without the check: the value of a key is the one of the last hook that returned it. *)
Theorem C102_unchecked_partial : forall (K V : Type) (eqb : K -> K -> bool) (outs : list (option (list (K * V)))),
  (forall a b, eqb a b = true <-> a = b) -> (forall d, In (Some d) outs -> NoDup (map fst d)) ->
  let value k (d : list (K * V)) := option_map snd (find (fun kv => eqb k (fst kv)) d) in
  exists r, merge_hooks eqb false outs = Ok r
  /\ forall k, value k (match r with Some d => d | None => [] end)
      = fold_left (fun acc out => match out with Some d => match value k d with Some v => Some v | None => acc end | None => acc end) outs None.
Proof. exact C102_unchecked_partial_lemma. Qed.
Print Assumptions C102_unchecked_partial.

(** With the check, which is the default, hooks are merged only if none of them returns an entry. *)
Theorem C102_checked_refuted : forall (K V : Type) (eqb : K -> K -> bool) (outs : list (option (list (K * V)))) r,
  merge_hooks eqb true outs = Ok r <-> r = None /\ forall d, In (Some d) outs -> d = [].
Proof. exact C102_checked_refuted_lemma. Qed.
Print Assumptions C102_checked_refuted.

(** Three environments with episodes of different lengths. *)
Definition ex_c := demo_coll [5; 5; 6] [[1; 4; 1; 2; 2; 2]; [3; 1; 3; 2; 2]; [2; 2; 5; 2; 2]].
Example C28_ex : demo_ok [5; 5; 6] [] ex_c /\
  match demo_collect HArray 20 None (Some 5) false ex_c with
  | Ok (c', l) => st_episodes (l_stats l) = 5 /\ st_lens (l_stats l) = [1; 2; 3; 2; 4] /\ st_returns (l_stats l) = [1; 2; 3; 2; 4]%Z
     /\ map (fun call => fst (fst call)) (l_calls l) = [[0; 1; 2]; [0; 1; 2]; [0; 1; 2]; [0; 2]; [0]] /\ c_step c' = 12
  | Err _ => False
  end.
Proof. split; [apply demo_is_ok; [cbn; intuition lia|cbn; lia]|]. vm_compute. repeat split. Qed.
Example C28_ex_fewer : match demo_collect HArray 20 None (Some 2) false ex_c with
  | Ok (c', l) => st_episodes (l_stats l) = 2 /\ map (fun call => fst (fst call)) (l_calls l) = [[0; 1]; [1]; [1]]
  | Err _ => False
  end.
Proof. vm_compute. repeat split. Qed.
(** Environments that count down: the hypotheses of the termination theorems. *)
Definition ex_step (e s : nat) (b : unit) : nat * sres nat unit Z := (s - 1, mkSres s 1%Z (s =? 0) false tt).
Definition ex_reset (e s : nat) : nat * (nat * unit) := (Nat.min e 3, (0, tt)).
Example C28_ex_terminates :
  (forall e s, fst (ex_reset e s) <= 3) /\ (forall e s b, r_done (snd (ex_step e s b)) = false -> fst (ex_step e s b) < s)
  /\ (forall p ids obs inf hid, length obs = length ids -> length (fst (snd (demo_act p ids obs inf hid))) = length ids).
Proof.
  split; [intros; cbn; lia|]. split.
  - intros e s b. unfold ex_step, r_done. cbn. destruct s; cbn; [discriminate|lia].
  - intros. cbn. rewrite map_length. assumption.
Qed.
Example C29_ex : match demo_collect HArray 20 (Some 7) None false ex_c with
  | Ok (c', l) => st_steps (l_stats l) = 9 /\ st_episodes (l_stats l) = 3 /\ st_lens (l_stats l) = [1; 2; 3]
  | Err _ => False
  end.
Proof. vm_compute. repeat split. Qed.
(** Two calls are one stream: the observations shown to the policy. *)
Example C30_ex : match collects (fun a b => demo_collect HArray 20 a b false) [Steps 4; Steps 2] ex_c with
  | Ok (c', ls) => map (fun e => shown e (concat (map (@l_calls _ _ _ _ _ _ _ _) ls))) [0; 1; 2] = [[0; 0; 1]; [0; 1; 2]; [0; 1; 0]]
  | Err _ => False
  end.
Proof. vm_compute. reflexivity. Qed.
Example C31_ex : match demo_collect HArray 20 (Some 7) None false ex_c with
  | Ok (c', l) => map (map (fun r => option_map (@s_obs _ _ _ _) (o_cur r))) (l_hook l) = [[Some 0]; [Some 0; Some 1]; [Some 0; Some 1; Some 2]]
  | Err _ => False
  end.
Proof. vm_compute. reflexivity. Qed.
Example C97_ex : reset_hidden HArray (fun _ => 0) [0; 2] [5; 6; 7] = [0; 6; 0] /\ reset_hidden HTensor (fun _ => 0) [0; 2] [5; 6; 7] = [5; 6; 7].
Proof. split; reflexivity. Qed.
Example C99_ex : match collects (fun a b => demo_collect HArray 20 a b false) [Episodes 2; Episodes 3] ex_c with
  | Ok (c', ls) => map (fun l => st_lens (l_stats l)) ls = [[1; 2; 3]; [1; 2; 3; 5]]
  | Err _ => False
  end.
Proof. vm_compute. reflexivity. Qed.
Example C102_ex : merge_hooks Nat.eqb false [Some [(1, 10); (2, 20)]; None; Some [(2, 21); (3, 30)]] = Ok (Some [(1, 10); (2, 21); (3, 30)])
  /\ merge_hooks Nat.eqb true [Some [(1, 10)]; Some [(2, 20)]] = Err KeyError.
Proof. split; reflexivity. Qed.
