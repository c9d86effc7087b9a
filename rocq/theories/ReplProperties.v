(** * Property C375: the policies a multi-agent manager holds *)
From Verif Require Import Py PyLemmas MaModel MaProofs ReplModel ReplProofs.
Open Scope nat_scope.

(** C375.  A manager made for agents with distinct ids holds for every agent the policy given for
    it, in the order of the agents; distinct policies know their agent. *)
Theorem C375_init : forall (agents policies : list nat) (id : nat -> nat),
  NoDup agents -> length policies = length agents ->
  exists m, pm_init agents policies id = Ok m /\ pm_agents m = agents /\ map snd (pm_dict m) = policies
    /\ (forall i a p, nth_error agents i = Some a -> nth_error policies i = Some p ->
          dict_get (pm_dict m) a = Some p /\ (NoDup policies -> pm_id m p = a)).
Proof. exact C375_init_lemma. Qed.
Print Assumptions C375_init.

(** C375.  There must be one policy for each agent. *)
Theorem C375_number : forall (agents policies : list nat) (id : nat -> nat),
  length policies <> length agents -> pm_init agents policies id = Err AssertionError.
Proof. exact C375_number_lemma. Qed.
Print Assumptions C375_number.

(** C375.  A policy object shared by all agents takes the id of the last one. *)
Theorem C375_shared : forall (agents : list nat) (a p : nat) (id : nat -> nat) (m : pm),
  pm_init (agents ++ [a]) (repeat p (S (length agents))) id = Ok m -> pm_id m p = a /\ (forall q, q <> p -> pm_id m q = id q).
Proof. exact C375_shared_lemma. Qed.
Print Assumptions C375_shared.

(** C375.  replace_policy changes the policy of that agent only and keeps the order of the agents;
    of two replacements for one agent the second counts, and those for two agents commute. *)
Theorem C375_replace : forall (m : pm) (p q a b : nat),
  (forall c, dict_get (pm_dict (pm_replace m p a)) c = if c =? a then Some p else dict_get (pm_dict m) c)
  /\ (In a (pm_agents m) -> pm_agents (pm_replace m p a) = pm_agents m)
  /\ (~ In a (pm_agents m) -> pm_agents (pm_replace m p a) = pm_agents m ++ [a])
  /\ pm_id (pm_replace m p a) p = a /\ (forall r, r <> p -> pm_id (pm_replace m p a) r = pm_id m r)
  /\ pm_dict (pm_replace (pm_replace m q a) p a) = pm_dict (pm_replace m p a)
  /\ (a <> b -> In a (pm_agents m) -> pm_dict (pm_replace (pm_replace m q b) p a) = pm_dict (pm_replace (pm_replace m p a) q b)).
Proof. exact C375_replace_lemma. Qed.
Print Assumptions C375_replace.

(** C375.  After replace_policy the rows of the other agents get the actions they got before, and
    those of the agent get the actions of the new policy; likewise the states. *)
Theorem C375_act : forall (Row Act St : Type) (fw : nat -> option (option St) -> list Row -> res (list Act * option St))
  (m : pm) (p a : nat) (ids : list nat) (rows : list Row) (state : option (nat -> option St)) act sts new s,
  NoDup (pm_agents m) -> In a (pm_agents m) -> length ids = length rows -> (forall b, In b ids -> In b (pm_agents m)) ->
  (forall q st rs out, fw q st rs = Ok out -> length (fst out) = length rs) ->
  pm_forward fw m ids rows state = Ok (act, sts) ->
  fw p (option_map (fun st => st a) state) (rows_of ids rows a) = Ok (new, s) ->
  exists act', pm_forward fw (pm_replace m p a) ids rows state
      = Ok (act', map (fun bs => if fst bs =? a then (a, match rows_of ids rows a with [] => None | _ => s end) else bs) sts)
    /\ length act' = length rows
    /\ (forall i, nth_error ids i <> Some a -> nth_error act' i = nth_error act i)
    /\ (forall i, nth_error ids i = Some a -> nth_error act' i = nth_error new (rank ids a i)).
Proof. exact C375_act_lemma. Qed.
Print Assumptions C375_act.

(** C375.  Under an id that is no agent's (a position, as the docstring puts it) the new policy
    never acts: the actions stay, and the states get one empty entry more. *)
Theorem C375_no_agent : forall (Row Act St : Type) (fw : nat -> option (option St) -> list Row -> res (list Act * option St)) (nz : nat -> list Act -> list Row -> res (list Act))
  (m : pm) (p a : nat) (ids : list nat) (rows : list Row) (state : option (nat -> option St)) (act : list Act),
  ~ In a (pm_agents m) -> ~ In a ids ->
  pm_forward fw (pm_replace m p a) ids rows state = (let* out := pm_forward fw m ids rows state in Ok (fst out, snd out ++ [(a, None)]))
  /\ pm_noise nz (pm_replace m p a) ids rows act = pm_noise nz m ids rows act.
Proof. exact C375_no_agent_lemma. Qed.
Print Assumptions C375_no_agent.

(** C375.  process_fn and learn: the data and statistics of the other agents stay, those of the
    agent are the new policy's. *)
Theorem C375_learn : forall (Row R X Stats : Type) (agent_idx : nat -> nat) (pfn : nat -> list Row -> list R -> list nat -> list R -> res X) (ln : nat -> X -> res Stats)
  (m : pm) (p a : nat) (ids : list nat) (rows : list Row) (rews : list (list R)) (indice : list nat) (save : list (list R)) results stats x s,
  In a (pm_agents m) -> length ids = length rows -> length ids = length rews -> length ids = length indice ->
  snd (pm_process pfn agent_idx m ids rows rews indice save) = Ok results -> pm_learn ln m results = Ok stats ->
  (forall tr br, map Some tr = map (fun r => nth_error r (agent_idx a)) (rows_of ids rews a) -> map Some br = map (fun r => nth_error r (agent_idx a)) save ->
     pfn p (rows_of ids rows a) tr (rows_of ids indice a) br = Ok x) ->
  ln p x = Ok s ->
  let results' := map (fun br => if fst br =? a then (a, option_map (fun _ => x) (snd br)) else br) results in
  pm_process pfn agent_idx (pm_replace m p a) ids rows rews indice save = (RFull save, Ok results')
  /\ pm_learn ln (pm_replace m p a) results' = Ok (map (fun bs => if fst bs =? a then (a, s) else bs) stats).
Proof. exact C375_learn_lemma. Qed.
Print Assumptions C375_learn.

(** ** Non-vacuity: agents 5, 7, 9 with policies 1, 2, 3; policy 4 takes the place of the one of 7. *)
Definition ex_fw (q : nat) (st : option (option nat)) (rows : list nat) : res (list nat * option nat) := Ok (map (fun r => q * 100 + r) rows, Some (q + length rows)).
Definition ex_pf (q : nat) (rows rew indice brew : list nat) : res (list nat) := Ok (q :: rew ++ brew).
Definition ex_ln (q : nat) (x : list nat) : res nat := Ok (q + list_sum x).
Definition ex_m : pm := mkPm [(5, 1); (7, 2); (9, 3)] (fun q => match q with 1 => 5 | 2 => 7 | 3 => 9 | _ => 0 end).
Example C375_init_ex : exists m, pm_init [5; 7; 9] [1; 2; 3] (fun _ => 0) = Ok m /\ pm_dict m = pm_dict ex_m /\ map (pm_id m) [1; 2; 3; 4] = [5; 7; 9; 0]
  /\ pm_init [5; 7] [1; 2; 3] (fun _ => 0) = Err AssertionError /\ pm_init [5; 7] [1] (fun _ => 0) = Err AssertionError
  /\ exists m', pm_init [5; 7; 9] [1; 1; 1] (fun _ => 0) = Ok m' /\ pm_dict m' = [(5, 1); (7, 1); (9, 1)] /\ pm_id m' 1 = 9.
Proof. eexists. split; [reflexivity|]. split; [reflexivity|]. split; [reflexivity|]. split; [reflexivity|]. split; [reflexivity|]. eexists. repeat split; reflexivity. Qed.
Example C375_act_ex : NoDup (pm_agents ex_m) /\ In 7 (pm_agents ex_m)
  /\ (forall q st rs out, ex_fw q st rs = Ok out -> length (fst out) = length rs)
  /\ pm_forward ex_fw ex_m [7; 5; 7] [10; 11; 12] None = Ok ([210; 111; 212], [(5, Some 2); (7, Some 4); (9, None)])
  /\ ex_fw 4 None (rows_of [7; 5; 7] [10; 11; 12] 7) = Ok ([410; 412], Some 6)
  /\ pm_forward ex_fw (pm_replace ex_m 4 7) [7; 5; 7] [10; 11; 12] None = Ok ([410; 111; 412], [(5, Some 2); (7, Some 6); (9, None)])
  /\ pm_forward ex_fw (pm_replace ex_m 4 1) [7; 5; 7] [10; 11; 12] None = Ok ([210; 111; 212], [(5, Some 2); (7, Some 4); (9, None); (1, None)]).
Proof.
  split; [repeat constructor; cbn; intuition discriminate|]. split; [right; left; reflexivity|]. split; [intros q st rs out H; injection H as <-; apply map_length|]. repeat split; reflexivity.
Qed.
Example C375_learn_ex : snd (pm_process ex_pf (fun a => if a =? 5 then 0 else 1) ex_m [7; 5; 7] [10; 11; 12] [[1; 2]; [3; 4]; [5; 6]] [0; 1; 2] [[1; 2]; [3; 4]; [5; 6]])
    = Ok [(5, Some [1; 3; 1; 3; 5]); (7, Some [2; 2; 6; 2; 4; 6]); (9, None)]
  /\ pm_learn ex_ln ex_m [(5, Some [1; 3; 1; 3; 5]); (7, Some [2; 2; 6; 2; 4; 6]); (9, None)] = Ok [(5, 14); (7, 24)]
  /\ pm_process ex_pf (fun a => if a =? 5 then 0 else 1) (pm_replace ex_m 4 7) [7; 5; 7] [10; 11; 12] [[1; 2]; [3; 4]; [5; 6]] [0; 1; 2] [[1; 2]; [3; 4]; [5; 6]]
    = (RFull [[1; 2]; [3; 4]; [5; 6]], Ok [(5, Some [1; 3; 1; 3; 5]); (7, Some [4; 2; 6; 2; 4; 6]); (9, None)])
  /\ pm_learn ex_ln (pm_replace ex_m 4 7) [(5, Some [1; 3; 1; 3; 5]); (7, Some [4; 2; 6; 2; 4; 6]); (9, None)] = Ok [(5, 14); (7, 28)].
Proof. repeat split; reflexivity. Qed.
