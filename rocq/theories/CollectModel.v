(** * Model of [tianshou/data/collector.py]: Collector with a ReplayBufferManager.

    Environments, policy and hooks are arbitrary functions:
    - [estep e s b]: environment [e] in state [s] gets the (normalised) action [b];
      [ereset e s]: its reset.  The vector environment hands row [j] of the actions to the
      environment [ids[j]] and returns the results in the order of [ids] (VenvModel.v, C32).
    - [act_fn p ids obs info hidden]: _compute_action_policy_hidden (collector.py:677-740) as seen by
      _collect: for each row the action that is stored and the normalised one that is executed, and
      the new hidden state; [p] is the state of the policy (network, random generator).
      [policy_act] and [random_act] below are its two branches.
    - [hreset idx h]: _reset_hidden_state_based_on_type on the rows [idx] (collector.py:1064-1075).
    - [hook rows]: whether on_episode_done_hook returns entries to be added to the buffer; which
      episodes it was given is recorded in [l_hook].  The added entries live under other keys of the
      buffer, which the buffer model does not have.

    Not modelled: the step hook, rendering, the standard deviations of action distributions, times,
    and the NaN check after the loop (the rows of the buffer model contain no NaN). *)
From Verif Require Export Py BufferModel ManagerModel GetIndicesModel.
Open Scope nat_scope.

Section Collect.
Context {Ob A B Inf R H ES PS : Type}.
Variable r0 : R.
Variable radd : R -> R -> R.
Variable last_frame : Ob -> Ob.
Variable o : opts.
Notation trans := (trans Ob A Inf R).
Notation mgr := (mgr Ob A Inf R).
Notation row_out := (row_out Ob A Inf R).

(** What an environment returns for an action. *)
Record sres : Type := mkSres { r_obs : Ob; r_rew : R; r_term : bool; r_trunc : bool; r_info : Inf }.
Definition r_done (r : sres) : bool := r_term r || r_trunc r.

Variable estep : nat -> ES -> B -> ES * sres.
Variable ereset : nat -> ES -> ES * (Ob * Inf).
Variable act_fn : PS -> list nat -> list Ob -> list Inf -> option (list H) -> PS * (list (A * B) * option (list H)).
Variable hreset : list nat -> list H -> list H.
Variable hook : list row_out -> bool.

(** ** The vector environment *)
Fixpoint step_envs (es : list ES) (ids : list nat) (acts : list B) : res (list ES * list sres) :=
  match ids, acts with
  | [], [] => Ok (es, [])
  | id :: ids, b :: acts =>
      match nth_error es id with
      | None => Err IndexError
      | Some s => let '(s', r) := estep id s b in
                  let* y := step_envs (upd es id s') ids acts in
                  Ok (fst y, r :: snd y)
      end
  | _, _ => Err AssertionError                       (* len(action) != len(id) *)
  end.
Fixpoint reset_envs (es : list ES) (ids : list nat) : res (list ES * list (Ob * Inf)) :=
  match ids with
  | [] => Ok (es, [])
  | id :: ids =>
      match nth_error es id with
      | None => Err IndexError
      | Some s => let '(s', x) := ereset id s in
                  let* y := reset_envs (upd es id s') ids in
                  Ok (fst y, x :: snd y)
      end
  end.

(** CollectStats (collector.py:102-200): the counters and sequences. *)
Record stats : Type := mkStats { st_episodes : nat; st_steps : nat; st_returns : list R; st_lens : list nat }.
Definition stats0 : stats := mkStats 0 0 [] [].
(** update_at_step_batch (collector.py:170-189) *)
Definition at_step (s : stats) (n : nat) : stats := mkStats (st_episodes s) (st_steps s + n) (st_returns s) (st_lens s).
(** update_at_episode_done (collector.py:191-213) *)
Definition at_episode (s : stats) (len : nat) (ret : R) : stats :=
  mkStats (st_episodes s + 1) (st_steps s) (st_returns s ++ [ret]) (st_lens s ++ [len]).

(** ** State of the collector and of one run of _collect *)
Record coll : Type := mkColl {
  c_envs : list ES; c_mgr : mgr; c_pol : PS;
  c_pre : option (list Ob * list Inf); c_hid : option (list H);
  c_step : nat; c_episode : nat }.
Record loop : Type := mkLoop {
  l_envs : list ES; l_mgr : mgr; l_pol : PS;
  l_ready : list nat; l_obs : list Ob; l_inf : list Inf; l_hid : option (list H);
  l_steps : nat; l_eps : nat; l_stats : stats;
  l_hook : list (list row_out);              (* episodes given to the hook *)
  l_calls : list (list nat * list Ob * list (A * B)) (* what the policy saw and returned, per round *) }.

(** [_nullable_slice(obj, ids)], [obj[ids]] *)
Definition take {T} (l : list T) (ids : list nat) : res (list T) :=
  mapM (fun i => match nth_error l i with Some x => Ok x | None => Err IndexError end) ids.
(** [l[mask]] *)
Definition masked {T} (mask : list bool) (l : list T) : list T :=
  map snd (filter (fun x => fst x) (combine mask l)).
(** [l[idx] = xs] *)
Definition put {T} (idx : list nat) (xs : list T) (l : list T) : list T :=
  fold_left (fun l ix => upd l (fst ix) (snd ix)) (combine idx xs) l.
(** [np.where(done)[0]] *)
Definition where_true (done : list bool) : list nat := filter (fun j => nth j done false) (seq 0 (length done)).

(** The rows of one step, as they are added to the buffer (collector.py:846-862, 889-897). *)
Fixpoint rows_of (obs : list Ob) (acts : list A) (rs : list sres) : list trans :=
  match obs, acts, rs with
  | ob :: obs, a :: acts, r :: rs =>
      mkTrans ob a (r_rew r) (r_term r) (r_trunc r) (r_obs r) (r_info r) :: rows_of obs acts rs
  | _, _, _ => []
  end.

(** Steps 9-11 for one finished environment (collector.py:950-990); [nep]: n_episode was given. *)
Definition episode_done (nep : bool) (m : mgr) (acc : stats * list (list row_out)) (rep : nat * R * nat * nat)
  : res (stats * list (list row_out)) :=
  let '(i, ret, _, start) := rep in
  let* idx := get_buffer_indices (map Z.of_nat (m_edges m)) (Z.of_nat start) (Z.of_nat i + 1) in
  let* batch := m_getitem o m idx in
  if hook batch && negb nep then Err ValueError
  else Ok (at_episode (fst acc) (length batch) ret, snd acc ++ [batch]).

(** One round of the loop (collector.py:814-1022). *)
Definition iter (n_episode : option nat) (l : loop) : res loop :=
  let '(p, (acts, hid)) := act_fn (l_pol l) (l_ready l) (l_obs l) (l_inf l) (l_hid l) in
  let* x := step_envs (l_envs l) (l_ready l) (map snd acts) in
  let '(es, rs) := x in
  let rows := rows_of (l_obs l) (map fst acts) rs in
  let st := at_step (l_stats l) (length rows) in
  let done := map r_done rs in
  let num := length (filter (fun b => b) done) in
  let eps := l_eps l + num in
  let steps := l_steps l + length (l_ready l) in
  let* y := m_add r0 radd last_frame o (l_mgr l) (Some (map Z.of_nat (l_ready l))) rows in
  let '(m, reps) := y in
  let obs := map r_obs rs in
  let inf := map r_info rs in
  let calls := l_calls l ++ [(l_ready l, l_obs l, acts)] in
  if num =? 0 then Ok (mkLoop es m p (l_ready l) obs inf hid steps eps st (l_hook l) calls)
  else
    let dl := where_true done in
    let* reps_d := take reps dl in
    let* dg := take (l_ready l) dl in
    let* z := reset_envs es dg in
    let '(es, rst) := z in
    let hid := option_map (hreset dl) hid in
    let* w := foldM (episode_done (match n_episode with None => false | Some _ => true end) m) reps_d (st, l_hook l) in
    let '(st, hooks) := w in
    let obs := put dl (map fst rst) obs in
    let inf := put dl (map snd rst) inf in
    match n_episode with
    | Some (S n') =>
        let surplus := (Z.of_nat (length (l_ready l)) - (Z.of_nat (S n') - Z.of_nat eps))%Z in
        if (0 <? surplus)%Z then
          let ignored := firstn (Z.to_nat surplus) dl in
          let mask := map (fun j => negb (existsb (Nat.eqb j) ignored)) (seq 0 (length (l_ready l))) in
          Ok (mkLoop es m p (masked mask (l_ready l)) (masked mask obs) (masked mask inf)
                (option_map (masked mask) hid) steps eps st hooks calls)
        else Ok (mkLoop es m p (l_ready l) obs inf hid steps eps st hooks calls)
    | _ => Ok (mkLoop es m p (l_ready l) obs inf hid steps eps st hooks calls)
    end.

(** collector.py:1024-1027; [if n] is false for None and 0. *)
Definition reached (n : option nat) (c : nat) : bool :=
  match n with Some (S n) => S n <=? c | _ => false end.
Fixpoint iterate (fuel : nat) (n_step n_episode : option nat) (l : loop) : res loop :=
  match fuel with
  | O => Err OutOfFuel
  | S fuel =>
      let* l := iter n_episode l in
      if reached n_step (l_steps l) || reached n_episode (l_eps l) then Ok l else iterate fuel n_step n_episode l
  end.

(** reset_env (collector.py:405-421, 652-665) *)
Definition reset_env (c : coll) : res coll :=
  let* z := reset_envs (c_envs c) (seq 0 (length (c_envs c))) in
  Ok (mkColl (fst z) (c_mgr c) (c_pol c) (Some (map fst (snd z), map snd (snd z))) None (c_step c) (c_episode c)).
(** reset(reset_buffer) with the default reset_stats=True (collector.py:372-403) *)
Definition reset (reset_buffer : bool) (c : coll) : res coll :=
  let* c := reset_env c in
  Ok (mkColl (c_envs c) (if reset_buffer then m_reset r0 false (c_mgr c) else c_mgr c) (c_pol c) (c_pre c) (c_hid c) 0 0).

(** reset_buffer(keep_statistics) (collector.py:405-407) *)
Definition reset_buffer (keep : bool) (c : coll) : coll :=
  mkColl (c_envs c) (m_reset r0 keep (c_mgr c)) (c_pol c) (c_pre c) (c_hid c) (c_step c) (c_episode c).

(** The start of the loop (collector.py:778-812). *)
Definition start (n_step n_episode : option nat) (c : coll) : res loop :=
  let* ready := match n_step, n_episode with
                | Some _, _ => Ok (seq 0 (length (c_envs c)))
                | None, Some n => Ok (seq 0 (Nat.min (length (c_envs c)) n))
                | None, None => Err RuntimeError
                end in
  match c_pre c with
  | None => Err ValueError
  | Some (obs, inf) =>
      let* obs := take obs ready in
      let* inf := take inf ready in
      let* hid := match c_hid c with None => Ok None | Some h => let* h := take h ready in Ok (Some h) end in
      Ok (mkLoop (c_envs c) (c_mgr c) (c_pol c) ready obs inf hid 0 0 stats0 [] [])
  end.

(** _collect (collector.py:743-1061), returning the statistics and the record of the run. *)
Definition collect_ (fuel : nat) (n_step n_episode : option nat) (c : coll) : res (coll * loop) :=
  let* l := start n_step n_episode c in
  let* l := iterate fuel n_step n_episode l in
  let c' := mkColl (l_envs l) (l_mgr l) (l_pol l) (c_pre c) (c_hid c) (c_step c + l_steps l) (c_episode c + l_eps l) in
  match n_step, n_episode with
  | Some (S _), _ => Ok (mkColl (c_envs c') (c_mgr c') (c_pol c') (Some (l_obs l, l_inf l)) (l_hid l) (c_step c') (c_episode c'), l)
  | _, Some (S _) => let* c' := reset_env c' in Ok (c', l)
  | _, _ => Ok (c', l)
  end.

(** collect (collector.py:433-517) *)
Definition validate (n_step n_episode : option nat) : res unit :=
  let truthy (n : option nat) := match n with Some (S _) => true | _ => false end in
  if negb (truthy n_step) && negb (truthy n_episode) then Err ValueError else Ok tt.
Definition collect (fuel : nat) (n_step n_episode : option nat) (reset_before : bool) (c : coll) : res (coll * loop) :=
  let* _ := validate n_step n_episode in
  let* c := if reset_before then reset false c else Ok c in
  collect_ fuel n_step n_episode c.

(** _validate_buffer (collector.py:341-361) for a manager with [num] sub-buffers. *)
Definition validate_buffer (num env_num : nat) : res unit := if num <? env_num then Err ValueError else Ok tt.
End Collect.
Arguments sres : clear implicits.
Arguments coll : clear implicits.
Arguments loop : clear implicits.
Arguments stats : clear implicits.

(** ** The two branches of _compute_action_policy_hidden (collector.py:688-740)

    [policy]: the policy's forward, [noise]: exploration_noise (the identity without), [map_action];
    [sample e]: the action space of environment [e].  A result with another number of rows than the
    observations is caught by the vector environment. *)
Definition policy_act {Ob A B Inf H PS} (policy : PS -> list Ob -> list Inf -> option (list H) -> PS * (list A * option (list H)))
    (noise : PS -> list A -> list Ob -> PS * list A) (map_action : A -> B)
    (p : PS) (ids : list nat) (obs : list Ob) (inf : list Inf) (hid : option (list H)) : PS * (list (A * B) * option (list H)) :=
  let '(p, (acts, hid)) := policy p obs inf hid in
  let '(p, acts) := noise p acts obs in
  (p, (map (fun a => (a, map_action a)) acts, hid)).
Definition random_act {Ob A B Inf H PS} (sample : PS -> nat -> PS * B) (map_inverse : B -> A)
    (p : PS) (ids : list nat) (obs : list Ob) (inf : list Inf) (hid : option (list H)) : PS * (list (A * B) * option (list H)) :=
  let '(p, acts) := fold_left (fun acc e => let '(p, l) := acc in let '(p, b) := sample p e in (p, l ++ [(map_inverse b, b)])) ids (p, []) in
  (p, (acts, None)).

(** ** _reset_hidden_state_based_on_type (collector.py:1064-1075)

    A tensor indexed by an array is a new tensor, so [zero_] does not reach the state.  [zero] is 0,
    None (object arrays) or what Batch.empty_ leaves. *)
Inductive hkind : Type := HArray | HTensor | HBatch.
Definition reset_hidden {H} (k : hkind) (zero : H -> H) (idx : list nat) (h : list H) : list H :=
  match k with
  | HTensor => h
  | _ => map (fun jx => if existsb (Nat.eqb (fst jx)) idx then zero (snd jx) else snd jx) (combine (seq 0 (length h)) h)
  end.

(** ** EpisodeRolloutHookMerged (collector.py:1477-1513)

    A hook returns None or a dict; [K] are the keys. *)
Definition merge_hooks {K V} (eqb : K -> K -> bool) (check : bool) (outs : list (option (list (K * V)))) : res (option (list (K * V))) :=
  let has l k := existsb (fun kv : K * V => eqb k (fst kv)) l in
  let put l (kv : K * V) := if has l (fst kv) then map (fun x => if eqb (fst kv) (fst x) then (fst x, snd kv) else x) l else l ++ [kv] in
  let* r := foldM (fun result out =>
    match out with
    | None => Ok result
    | Some new =>
        (* set(new_entries).difference(result) *)
        if check && existsb (fun kv => negb (has result (fst kv))) new then Err KeyError
        else Ok (fold_left put new result)
    end) outs [] in
  Ok (match r with [] => None | _ => Some r end).
