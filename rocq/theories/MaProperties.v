(** * Properties C43, C78-C80: multi-agent policy manager *)
From Verif Require Import Py MaModel MaProofs.
Open Scope nat_scope.

(** C43.  For every batch whose rows belong to known agents, with policies that return one action
    per row: the action of row i is the action its own agent's policy returned, on that agent's
    rows in order, at the position of row i among them; the state dict holds every agent's
    state. *)
Theorem C43_forward : forall (Row Act St : Type) (policy : nat -> option (option St) -> list Row -> res (list Act * option St)) agents ids rows state acts sts,
  NoDup agents -> length ids = length rows -> (forall a, In a ids -> In a agents) ->
  (forall a, In a agents -> rows_of ids rows a <> [] -> policy a (option_map (fun st => st a) state) (rows_of ids rows a) = Ok (acts a, sts a) /\ length (acts a) = length (rows_of ids rows a)) ->
  exists act, forward policy agents ids rows state = Ok (act, map (fun a => (a, if length (rows_of ids rows a) =? 0 then None else sts a)) agents)
    /\ length act = length rows
    /\ (forall i a, nth_error ids i = Some a -> exists x, nth_error act i = Some x /\ nth_error (acts a) (rank ids a i) = Some x).
Proof. exact C43_forward_lemma. Qed.
Print Assumptions C43_forward.

(** C43.  exploration_noise replaces the action of every row of a known agent by what the agent's
    policy makes of its own rows, and leaves the others unchanged. *)
Theorem C43_noise : forall (Row Act : Type) (noise : nat -> list Act -> list Row -> res (list Act)) agents ids rows act new,
  NoDup agents -> length ids = length rows -> length ids = length act ->
  (forall a, In a agents -> rows_of ids rows a <> [] -> noise a (rows_of ids act a) (rows_of ids rows a) = Ok (new a) /\ length (new a) = length (rows_of ids rows a)) ->
  exists act', exploration noise agents ids rows act = Ok act' /\ length act' = length act
    /\ (forall i a, nth_error ids i = Some a -> nth_error act' i = if existsb (Nat.eqb a) agents then nth_error (new a) (rank ids a i) else nth_error act i).
Proof. exact C43_noise_lemma. Qed.
Print Assumptions C43_noise.

(** C43.  process_fn hands every agent exactly its own rows, its own reward column of these rows
    and of the whole buffer, and its own indices; agents without rows get nothing; afterwards the
    buffer has its original reward array. *)
Theorem C43_process : forall (Row R X : Type) agent_idx (pf : nat -> list Row -> list R -> list nat -> list R -> res X) agents ids rows rews indice save trew brew x,
  length ids = length rows -> length ids = length rews -> length ids = length indice ->
  (forall a, In a agents -> rows_of ids rows a <> [] ->
     map Some (trew a) = map (fun r => nth_error r (agent_idx a)) (rows_of ids rews a)
     /\ map Some (brew a) = map (fun r => nth_error r (agent_idx a)) save
     /\ pf a (rows_of ids rows a) (trew a) (rows_of ids indice a) (brew a) = Ok (x a)) ->
  process agent_idx pf agents ids rows rews indice save
    = (RFull save, Ok (map (fun a => (a, match rows_of ids rows a with [] => None | _ => Some (x a) end)) agents)).
Proof. exact C43_process_lemma. Qed.
Print Assumptions C43_process.

(** C43.  learn hands every agent with data exactly its own batch. *)
Theorem C43_learn : forall (X Stats : Type) (learn_fn : nat -> X -> res Stats) results st,
  (forall a x, In (a, Some x) results -> learn_fn a x = Ok (st a)) ->
  ma_learn learn_fn results = Ok (map (fun ax => (fst ax, st (fst ax))) (filter (fun ax => match snd ax with Some _ => true | None => false end) results)).
Proof. exact C43_learn_lemma. Qed.
Print Assumptions C43_learn.

(** C78.  The state of an agent without rows in a call is dropped: the next call gives its policy
    an empty state although it had one. *)
Theorem C78_state_dropped_refuted : exists (policy : nat -> option (option nat) -> list nat -> res (list nat * option nat)) st0 st1 st2 act1 act2,
  (forall a st rows, exists s acts, policy a st rows = Ok (acts, Some s) /\ length acts = length rows)
  /\ forward policy [1; 2] [1; 2] [10; 20] None = Ok (act1, st0) /\ In (1, Some 1) st0
  /\ forward policy [1; 2] [2; 2] [10; 20] (Some (fun a => match find (fun p => fst p =? a) st0 with Some p => snd p | None => None end)) = Ok (act2, st1)
  /\ In (1, st2) st1 /\ st2 = None.
Proof. exact C78_state_dropped_refuted_lemma. Qed.
Print Assumptions C78_state_dropped_refuted.

(** C78 (restricted to agents that have rows).  Their new state is stored. *)
Theorem C78_state_kept_partial : forall (Row Act St : Type) (policy : nat -> option (option St) -> list Row -> res (list Act * option St)) agents ids rows state acts sts a,
  NoDup agents -> length ids = length rows -> (forall a, In a ids -> In a agents) ->
  (forall a, In a agents -> rows_of ids rows a <> [] -> policy a (option_map (fun st => st a) state) (rows_of ids rows a) = Ok (acts a, sts a) /\ length (acts a) = length (rows_of ids rows a)) ->
  In a ids -> exists act d, forward policy agents ids rows state = Ok (act, d) /\ In (a, sts a) d /\ (forall s, In (a, s) d -> s = sts a).
Proof. exact C78_state_kept_partial_lemma. Qed.
Print Assumptions C78_state_kept_partial.

(** C79.  If a sub-policy's process_fn raises, the buffer is left with that agent's reward column. *)
Theorem C79_reward_lost_refuted : exists (pf : nat -> list nat -> list nat -> list nat -> list nat -> res nat) save e,
  process (fun a => a - 1) pf [1; 2] [1; 2] [0; 0] [[5; 6]; [7; 8]] [0; 1] save = (RCol [6; 8], Err e) /\ save = [[5; 6]; [7; 8]].
Proof. exact C79_reward_lost_refuted_lemma. Qed.
Print Assumptions C79_reward_lost_refuted.

(** C80.  A training step of the manager does not put its sub-policies into a training step: a
    sub-policy sees is_within_training_step = False. *)
Theorem C80_sub_not_within_refuted : exists m : manager, m_within m = false /\ map s_within (m_subs m) = [false; false]
  /\ snd (ma_within true (fun m => (m, map s_within (m_subs m))) m) = [false; false].
Proof. exact C80_sub_not_within_refuted_lemma. Qed.
Print Assumptions C80_sub_not_within_refuted.

(** C80.  torch_train_mode on the manager does not restore the sub-policies' mode: sub-policies in
    eval mode are in train mode afterwards. *)
Theorem C80_mode_not_restored_refuted : exists m : manager,
  (exists m0, m = ma_train false m0) /\ map s_training (m_subs m) = [false; false]
  /\ map s_training (m_subs (fst (ma_train_mode false (fun m => (m, tt)) m))) = [true; true].
Proof. exact C80_mode_not_restored_refuted_lemma. Qed.
Print Assumptions C80_mode_not_restored_refuted.

(** C80 (restricted to sub-policies in the manager's own mode).  During the block all sub-policies
    have the requested mode and afterwards all have the original one, for every body that keeps
    the manager's mode. *)
Theorem C80_mode_partial : forall (T : Type) enabled (body : manager -> manager * T) m,
  (forall s, In s (m_subs m) -> s_training s = m_training m) ->
  (forall m', length (m_subs (fst (body m'))) = length (m_subs m')) ->
  (exists m1, ma_train_mode enabled body m = (ma_train (m_training m) (fst (body m1)), snd (body m1))
     /\ (forall s, In s (m_subs m1) -> s_training s = enabled) /\ map s_within (m_subs m1) = map s_within (m_subs m))
  /\ map s_training (m_subs (fst (ma_train_mode enabled body m))) = map s_training (m_subs m).
Proof. exact C80_mode_partial_lemma. Qed.
Print Assumptions C80_mode_partial.

(** Agents 1 and 2 with interleaved rows; the policy adds its id times 100, the noise its id. *)
Definition ex_policy (a : nat) (st : option (option nat)) (rows : list nat) : res (list nat * option nat) := Ok (map (fun r => a * 100 + r) rows, Some (length rows)).
Example C43_forward_ex : forward ex_policy [1; 2; 3] [2; 1; 2; 2; 1] [10; 11; 12; 13; 14] None
  = Ok ([210; 111; 212; 213; 114], [(1, Some 2); (2, Some 3); (3, None)]) /\ rank [2; 1; 2; 2; 1] 2 3 = 2 /\ rows_of [2; 1; 2; 2; 1] [10; 11; 12; 13; 14] 1 = [11; 14].
Proof. repeat split; reflexivity. Qed.
(** A row of an unknown agent: IndexError, or an action array that is too short. *)
Example C43_unknown_ex : forward ex_policy [1] [9; 1] [10; 11] None = Err IndexError /\ forward ex_policy [1] [1; 9] [10; 11] None = Ok ([110], [(1, Some 1)]).
Proof. split; reflexivity. Qed.
Example C43_noise_ex : exploration (fun a act rows => Ok (map (fun p => fst p + a * 1000 + snd p) (combine act rows))) [1; 2] [2; 1; 3; 2] [5; 6; 7; 8] [10; 20; 30; 40] = Ok [2015; 1026; 30; 2048].
Proof. reflexivity. Qed.
Example C43_process_ex : process (fun a => a - 1) (fun a rows rews ind brew => Ok (rows, rews, ind, brew)) [1; 2; 3] [2; 1; 2] [10; 11; 12] [[1; 2]; [3; 4]; [5; 6]] [7; 8; 9] [[1; 2]; [3; 4]; [5; 6]; [0; 9]]
  = (RFull [[1; 2]; [3; 4]; [5; 6]; [0; 9]],
     Ok [(1, Some ([11], [3], [8], [1; 3; 5; 0])); (2, Some ([10; 12], [2; 6], [7; 9], [2; 4; 6; 9])); (3, None)]).
Proof. reflexivity. Qed.
Example C43_learn_ex : ma_learn (fun a x => Ok (a + x)) [(1, Some 10); (2, None); (3, Some 30)] = Ok [(1, 11); (3, 33)].
Proof. reflexivity. Qed.
Example C80_ex : map s_training (m_subs (fst (ma_train_mode false (fun m => (m, tt)) (mkMa true false [mkSub true false; mkSub true true])))) = [true; true].
Proof. reflexivity. Qed.
