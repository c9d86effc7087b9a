(** * Model of MultiAgentPolicyManager ([tianshou/policy/multiagent/mapolicy.py]) *)
From Verif Require Export Py.
Open Scope nat_scope.

(** Agent ids are naturals.  [self.policies] is the dict's key list, in insertion order. *)
Section Manager.
Context {Row Act St Out : Type}.

(** np.nonzero(batch.obs.agent_id == agent)[0] *)
Definition agent_index (ids : list nat) (agent : nat) : list nat :=
  filter (fun i => nth i ids agent =? agent) (seq 0 (length ids)).
(** [x[index]] for an array of positions. *)
Definition take {X} (l : list X) (index : list nat) : res (list X) :=
  mapM (fun i => match nth_error l i with Some x => Ok x | None => Err IndexError end) index.
(** [x[index] = vals]: one value per position (a length-1 value would be broadcast), IndexError
    for a position out of range, ValueError for a wrong number of values. *)
Definition put {X} (l : list X) (index : list nat) (vals : list X) : res (list X) :=
  if negb (forallb (fun i => i <? length l) index) then Err IndexError
  else
    let vals := match vals with [v] => map (fun _ => v) index | _ => vals end in
    if length vals =? length index
    then Ok (fold_left (fun l iv => upd l (fst iv) (snd iv)) (combine index vals) l)
    else Err ValueError.

(** ** forward (mapolicy.py:182-259)

    [policy a state rows] is agent [a]'s forward on its rows: the actions and the state ([None] if
    it has none, which becomes an empty Batch; [out] is dropped except for these).  The reward
    column and the unwrapping of obs.obs are part of the row and left out.  The state dict maps
    every agent to [Some s], or [None] for the empty Batch. *)
Variable policy : nat -> option (option St) -> list Row -> res (list Act * option St).
Definition forward_one (agents_rows : list nat * list Row) (state : option (nat -> option St)) (agent : nat)
  : res (option (list nat * list Act) * option St) :=
  let '(ids, rows) := agents_rows in
  let index := agent_index ids agent in
  if length index =? 0 then Ok (None, None)
  else
    let* tmp := take rows index in
    let* out := policy agent (option_map (fun st => st agent) state) tmp in
    Ok (Some (index, fst out), snd out).
(** Batch.cat of the acts of the agents with data; cat of nothing gives a Batch without act
    (AttributeError at the first use, but there is none then). *)
Definition acts_of {I} (results : list (option (I * list Act) * option St)) : list Act :=
  flat_map (fun r => match fst r with Some ia => snd ia | None => [] end) results.
Definition forward (agents : list nat) (ids : list nat) (rows : list Row) (state : option (nat -> option St))
  : res (list Act * list (nat * option St)) :=
  let* results := mapM (forward_one (ids, rows) state) agents in
  let* act := foldM (fun act r => match fst r with Some (index, a) => put act index a | None => Ok act end)
                    results (acts_of results) in
  Ok (act, combine agents (map snd results)).

(** ** exploration_noise (mapolicy.py:165-180) *)
Variable noise : nat -> list Act -> list Row -> res (list Act).
Definition exploration (agents ids : list nat) (rows : list Row) (act : list Act) : res (list Act) :=
  foldM (fun act agent =>
    let index := agent_index ids agent in
    if length index =? 0 then Ok act
    else
      let* a := take act index in
      let* tmp := take rows index in
      let* new := noise agent a tmp in
      put act index new) agents act.
End Manager.

(** ** process_fn (mapolicy.py:120-161) and learn (262-278)

    The rows carry their reward vectors; the buffer is reduced to its reward array, which the
    manager replaces by the agent's column while the agent's process_fn runs ([pf a rows rews
    indices buffer_rew]).  The final reward array is returned together with the outcome. *)
Section Process.
Context {Row R X Stats : Type}.
Variable agent_idx : nat -> nat.
Variable pf : nat -> list Row -> list R -> list nat -> list R -> res X.
Inductive buf_rew : Type := RFull (r : list (list R)) | RCol (r : list R) | REmpty.
Definition column (c : nat) (rews : list (list R)) : res (list R) :=
  mapM (fun r => match nth_error r c with Some x => Ok x | None => Err IndexError end) rews.
Definition process_one (ids : list nat) (rows : list Row) (rews : list (list R)) (indice : list nat) (save : list (list R)) (agent : nat) (cur : buf_rew)
  : buf_rew * res (option X) :=
  let index := agent_index ids agent in
  if length index =? 0 then (cur, Ok None)
  else
    match (let* tmp := take rows index in
           let* trew := take rews index in
           let* tind := take indice index in
           let* tcol := column (agent_idx agent) trew in
           let* bcol := column (agent_idx agent) save in
           Ok (tmp, tcol, tind, bcol)) with
    | Err e => (cur, Err e)
    | Ok (tmp, tcol, tind, bcol) =>
        match pf agent tmp tcol tind bcol with
        | Ok x => (RCol bcol, Ok (Some x))
        | Err e => (RCol bcol, Err e)
        end
    end.
Fixpoint process_loop (agents ids : list nat) rows rews indice save (cur : buf_rew) : buf_rew * res (list (nat * option X)) :=
  match agents with
  | [] => (cur, Ok [])
  | a :: agents =>
      match process_one ids rows rews indice save a cur with
      | (cur, Err e) => (cur, Err e)
      | (cur, Ok x) =>
          match process_loop agents ids rows rews indice save cur with
          | (cur, Ok l) => (cur, Ok ((a, x) :: l))
          | (cur, Err e) => (cur, Err e)
          end
      end
  end.
(** With a reward array in the buffer ([has_rew]). *)
Definition process (agents ids : list nat) rows rews indice (save : list (list R)) : buf_rew * res (list (nat * option X)) :=
  match process_loop agents ids rows rews indice save REmpty with
  | (_, Ok l) => (RFull save, Ok l)
  | (cur, Err e) => (cur, Err e)
  end.
(** learn: agents with an empty batch are skipped. *)
Variable learn_fn : nat -> X -> res Stats.
Definition ma_learn (results : list (nat * option X)) : res (list (nat * Stats)) :=
  let* l := mapM (fun ax => match snd ax with
                            | None => Ok []
                            | Some x => let* s := learn_fn (fst ax) x in Ok [(fst ax, s)]
                            end) results in
  Ok (concat l).
End Process.

(** ** Modes of the manager and its sub-policies

    [policies] is a plain dict, so the sub-policies are not registered as submodules; [train]
    (mapolicy.py:282-286) sets their mode and leaves the manager's own [training] flag alone
    (True since construction).  policy_within_training_step (torch_utils.py:25-42) sets the
    manager's own flag only, torch_train_mode (12-22) reads the manager's [training] and calls
    [train]. *)
Record sub := mkSub { s_training : bool; s_within : bool }.
Record manager := mkMa { m_training : bool; m_within : bool; m_subs : list sub }.
Definition ma_train (mode : bool) (m : manager) : manager := mkMa (m_training m) (m_within m) (map (fun s => mkSub mode (s_within s)) (m_subs m)).
Definition ma_train_mode {T} (enabled : bool) (body : manager -> manager * T) (m : manager) : manager * T :=
  let original := m_training m in
  let '(m, t) := body (ma_train enabled m) in
  (ma_train original m, t).
Definition set_m_within (m : manager) (b : bool) : manager := mkMa (m_training m) b (m_subs m).
Definition ma_within {T} (enabled : bool) (body : manager -> manager * T) (m : manager) : manager * T :=
  let original := m_within m in
  let '(m, t) := body (set_m_within m enabled) in
  (set_m_within m original, t).
