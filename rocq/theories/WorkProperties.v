(** * Properties of workers and wrappers *)
From Verif Require Import Py PyLemmas Num StatModel StatProofs WorkModel WorkSpec WorkProofs.
Open Scope nat_scope.

(** C203. Through shared memory, of whatever previous contents, an observation of the space arrives as it was sent. *)
Theorem C203_round_trip : forall (V : Type) (conv : dt -> dt -> V -> V) (sp : space) (o : obs V) (b : buf V),
  (forall d v, conv d d v = v) -> fits sp o -> isbuf sp b ->
  exists b', encode conv o b = Ok b' /\ isbuf sp b' /\ eqo (decode b') o.
Proof. exact C203_round_trip_lemma. Qed.
Print Assumptions C203_round_trip.

(** C203. Shared memory can be made exactly for spaces of the supported types; otherwise a KeyError. *)
Theorem C203_setup : forall (V : Type) (v0 : V) (sp : space),
  (shareable sp -> exists b, setup_buf v0 sp = Ok b /\ isbuf sp b) /\ (~ shareable sp -> setup_buf v0 sp = Err KeyError).
Proof. exact C203_setup_lemma. Qed.
Print Assumptions C203_setup.

(** C203. A number or a list is not written: the reader gets what was there before. *)
Theorem C203_number_refuted : forall (V : Type) (conv : dt -> dt -> V -> V) (v : V) (l : list (obs V)) (b : buf V),
  encode conv (OScalar v) b = Ok b /\ encode conv (OList l) b = Ok b.
Proof. exact C203_number_refuted_lemma. Qed.
Print Assumptions C203_number_refuted.

(** C203. A dictionary without some key leaves the value of an earlier observation there. *)
Theorem C203_missing_key_refuted : forall (V : Type) (conv : dt -> dt -> V -> V) (l : list (nat * obs V)) (m : list (nat * buf V)) (b' : buf V) (k : nat) (b : buf V),
  encode conv (ODict l) (BDict m) = Ok b' -> ~ In k (map fst l) -> lookup k m = Some b -> exists m', decode b' = ODict m' /\ lookup k m' = Some (decode b).
Proof. exact C203_missing_key_refuted_lemma. Qed.
Print Assumptions C203_missing_key_refuted.

(** C203. An array of one element is accepted in place of a row of any length. *)
Theorem C203_broadcast_refuted : forall (V : Type) (conv : dt -> dt -> V -> V) (d : dt) (n : nat) (v : V) (old : list V),
  (forall v, conv d d v = v) -> encode conv (OArr (mkNd d [1] [v])) (BArr d [n] old) = Ok (BArr d [n] (repeat v n)).
Proof. exact C203_broadcast_refuted_lemma. Qed.
Print Assumptions C203_broadcast_refuted.

(** C204. Whatever is asked of it, a worker in another process, with shared memory or without, answers as one in the same process and its environment goes through the
    same states; where the latter raises an AttributeError it answers None, and it does not answer with seeds. *)
Theorem C204_same_answers : forall (V : Type) (v0 : V) (conv : dt -> dt -> V -> V) (E A X Info At Rg : Type) (e_step : E -> A -> E * (obs V * X))
    (e_reset : E -> option (option Z) -> E * (obs V * Info)) (e_render : option (E -> E * At)) (e_seed : option (E -> option Z -> E * At)) (e_get : E -> nat -> option At)
    (e_set : E -> nat -> At -> E) (seed_rg : option Z -> Rg -> Rg) (draw : Rg -> Rg * A) (sp : option space) (e : E) (g : Rg) (p : proc) (ops : list wop),
  (forall d v, conv d d v = v) ->
  match sp with Some s => (forall e a, fits s (fst (snd (e_step e a)))) /\ (forall e k, fits s (fst (snd (e_reset e k)))) | None => True end ->
  new_proc v0 sp e g = Ok p ->
  let '(w', rs) := dummy_run e_step e_reset e_render e_seed e_get e_set seed_rg draw (new_dummy e g) ops in
  let '(p', rs') := proc_run conv e_step e_reset e_render e_seed e_get e_set seed_rg draw p ops in
  d_env w' = p_env p' /\ p_dead p' = false /\ length rs = length ops /\ length rs' = length ops /\
  forall i o r r', nth_error ops i = Some o -> nth_error rs i = Some r -> nth_error rs' i = Some r' -> is_sample o = false ->
    agree (match sp with Some _ => eqo | None => Logic.eq end) (is_seed o) r r'.
Proof. exact C204_same_answers_lemma. Qed.
Print Assumptions C204_same_answers.

(** C204. A missing attribute, a missing [render] and [seed] are answered differently, always. *)
Theorem C204_same_answers_refuted : forall (V : Type) (v0 : V) (conv : dt -> dt -> V -> V) (E A X Info At Rg : Type) (e_step : E -> A -> E * (obs V * X))
    (e_reset : E -> option (option Z) -> E * (obs V * Info)) (e_get : E -> nat -> option At)
    (e_set : E -> nat -> At -> E) (seed_rg : option Z -> Rg -> Rg) (draw : Rg -> Rg * A) (w : dummy) (p : proc) (k : nat) (s : option Z),
  d_env w = p_env p -> p_dead p = false -> e_get (d_env w) k = None ->
  let dop := dummy_op e_step e_reset None None e_get e_set seed_rg draw w in
  let pop := proc_op conv e_step e_reset None None e_get e_set seed_rg draw p in
  snd (dop (WGet k)) = Err AttributeError /\ snd (pop (WGet k)) = Ok RNone /\ snd (dop WRender) = Err AttributeError /\ snd (pop WRender) = Ok RNone /\
  snd (dop (WSeed s)) = Ok (RSeeds [s]) /\ snd (pop (WSeed s)) = Ok RNone.
Proof. exact C204_same_answers_refuted_lemma. Qed.
Print Assumptions C204_same_answers_refuted.

(** C205. As long as the vector environment's [reset] is not given a seed, the action spaces of both kinds of worker give the same actions. *)
Theorem C205_actions : forall (V : Type) (v0 : V) (conv : dt -> dt -> V -> V) (E A X Info At Rg : Type) (e_step : E -> A -> E * (obs V * X))
    (e_reset : E -> option (option Z) -> E * (obs V * Info)) (e_render : option (E -> E * At)) (e_seed : option (E -> option Z -> E * At)) (e_get : E -> nat -> option At)
    (e_set : E -> nat -> At -> E) (seed_rg : option Z -> Rg -> Rg) (draw : Rg -> Rg * A) (sp : option space) (e : E) (g : Rg) (p : proc) (ops : list wop),
  (forall d v, conv d d v = v) ->
  match sp with Some s => (forall e a, fits s (fst (snd (e_step e a)))) /\ (forall e k, fits s (fst (snd (e_reset e k)))) | None => True end ->
  new_proc v0 sp e g = Ok p -> (forall o, In o ops -> seeded_reset o = false) ->
  let '(w', rs) := dummy_run e_step e_reset e_render e_seed e_get e_set seed_rg draw (new_dummy e g) ops in
  let '(p', rs') := proc_run conv e_step e_reset e_render e_seed e_get e_set seed_rg draw p ops in
  d_space w' = p_space p' /\
  forall i o r r', nth_error ops i = Some o -> nth_error rs i = Some r -> nth_error rs' i = Some r' -> is_sample o = true -> r = r'.
Proof. exact C205_actions_lemma. Qed.
Print Assumptions C205_actions.

(** C205. With a seed, [reset] seeds the action space of a worker in another process and leaves the other kind as it was; the next actions are drawn from these. *)
Theorem C205_reset_seed_refuted : forall (V : Type) (v0 : V) (conv : dt -> dt -> V -> V) (E A X Info At Rg : Type) (e_step : E -> A -> E * (obs V * X))
    (e_reset : E -> option (option Z) -> E * (obs V * Info)) (e_render : option (E -> E * At)) (e_seed : option (E -> option Z -> E * At)) (e_get : E -> nat -> option At)
    (e_set : E -> nat -> At -> E) (seed_rg : option Z -> Rg -> Rg) (draw : Rg -> Rg * A) (e : E) (g : Rg) (s : option Z),
  exists (p : proc) r r', new_proc v0 None e g = Ok p /\
  snd (dummy_run e_step e_reset e_render e_seed e_get e_set seed_rg draw (new_dummy e g) [WSendReset (Some s); WSample]) = [r; Ok (RAct (snd (draw g)))] /\
  snd (proc_run conv e_step e_reset e_render e_seed e_get e_set seed_rg draw p [WSendReset (Some s); WSample]) = [r'; Ok (RAct (snd (draw (seed_rg s g))))].
Proof. exact C205_reset_seed_refuted_lemma. Qed.
Print Assumptions C205_reset_seed_refuted.

(** C206. Array observations returned by a vector environment with shared memory stay as they were, whatever the workers do later. *)
Theorem C206_arrays : forall (V : Type) (conv : dt -> dt -> V -> V) (sp : space) (l : list (nat * obs V)) (mem : list (buf V)),
  (forall d v, conv d d v = v) -> is_array sp = true -> (forall b, In b mem -> isbuf sp b) -> (forall i o, In (i, o) l -> i < length mem /\ fits sp o) ->
  exists mem' rs, shm_run conv mem l = Ok (mem', rs) /\ length rs = length l /\
  forall k i o, nth_error l k = Some (i, o) -> exists r, nth_error rs k = Some r /\ read mem' r = Some o.
Proof. exact C206_arrays_lemma. Qed.
Print Assumptions C206_arrays.

(** C206. Dictionaries do not: once the worker has moved on, each one it ever returned shows its latest observation. *)
Theorem C206_dicts_refuted : forall (V : Type) (conv : dt -> dt -> V -> V) (sp : space) (l : list (nat * obs V)) (mem : list (buf V)),
  (forall d v, conv d d v = v) -> is_dict sp = true -> (forall b, In b mem -> isbuf sp b) -> (forall i o, In (i, o) l -> i < length mem /\ fits sp o) ->
  exists mem' rs, shm_run conv mem l = Ok (mem', rs) /\ length rs = length l /\
  forall k i o, nth_error l k = Some (i, o) -> exists r o' latest, nth_error rs k = Some r /\ read mem' r = Some o' /\ last_of i l = Some latest /\ eqo o' latest.
Proof. exact C206_dicts_refuted_lemma. Qed.
Print Assumptions C206_dicts_refuted.

(** C206. With array observations the collector stores each observation with the next one. *)
Theorem C206_collector : forall (V : Type) (conv : dt -> dt -> V -> V) (sp : space) (b : buf V) (first : obs V) (l : list (obs V * option (obs V))),
  (forall d v, conv d d v = v) -> is_array sp = true -> isbuf sp b -> fits sp first -> answers (fits sp) l ->
  collect_from conv b first l = Ok (map (fun x => (Some (fst x), Some (snd x))) (transitions first l)).
Proof. exact C206_collector_lemma. Qed.
Print Assumptions C206_collector.

(** C206. With dictionaries, it stores the next observation twice, in every transition. *)
Theorem C206_collector_refuted : forall (V : Type) (conv : dt -> dt -> V -> V) (sp : space) (b : buf V) (first : obs V) (l : list (obs V * option (obs V))),
  (forall d v, conv d d v = v) -> is_dict sp = true -> isbuf sp b -> fits sp first -> answers (fits sp) l ->
  exists r, collect_from conv b first l = Ok r /\ length r = length l /\
  forall k o again, nth_error l k = Some (o, again) -> exists a, nth_error r k = Some (Some a, Some a) /\ eqo a o.
Proof. exact C206_collector_refuted_lemma. Qed.
Print Assumptions C206_collector_refuted.

(** C207. VectorEnvNormObs keeps the statistics of all observations it has returned, and each batch is normalised with those that include it. *)
Theorem C207_statistics : forall (sqrt : Qc -> Qc) (eps : Qc) (clip : option Qc) (mean std : Qc) (d : nat) (l : list raw),
  (forall o, In o l -> rows_ok d o) ->
  exists outs rs', norm_run sqrt eps clip (mkN true (Some 0), mkN true (Some 0)) [repeat (rms_init mean std) d] (map (fun o => (true, o)) l) = Ok (outs, [rs']) /\ length outs = length l /\
    length rs' = d /\ (l <> [] -> forall j r, nth_error rs' j = Some r -> stats_of j (concat (map rows l)) r) /\
    forall k o, nth_error l k = Some o -> exists rs, length rs = d /\ (forall j r, nth_error rs j = Some r -> stats_of j (concat (map rows (firstn (S k) l))) r) /\
      nth_error outs k = Some (Rows (map (fun row => map (fun x => rms_norm sqrt eps clip (fst x) (snd x)) (combine rs row)) (rows o))).
Proof. exact C207_statistics_lemma. Qed.
Print Assumptions C207_statistics.

(** C207. Without statistics ([set_obs_rms(None)]) observations of any kind pass unchanged. *)
Theorem C207_off : forall (sqrt : Qc -> Qc) (eps : Qc) (clip : option Qc) (u : bool) (h : list (list rms)) (o : raw), norm_call sqrt eps clip (mkN u None) h o = Ok (o, h).
Proof. exact C207_off_lemma. Qed.
Print Assumptions C207_off.

(** C207. The error for tuples says "change it to array or dict space", but dictionaries raise a TypeError as well, from numpy, whether or not the statistics are updated. *)
Theorem C207_dict_refuted : forall (sqrt : Qc -> Qc) (eps : Qc) (clip : option Qc) (u : bool) (a n : nat) (h : list (list rms)), norm_call sqrt eps clip (mkN u (Some a)) h (Dicts n) = Err TypeError.
Proof. exact C207_dict_refuted_lemma. Qed.
Print Assumptions C207_dict_refuted.

(** C208. Training and test wrappers that share statistics: whatever the order of their calls, the test wrapper never changes them, and both normalise with the statistics of
    what the training wrapper has seen so far (the initial ones if that is nothing). *)
Theorem C208_shared : forall (sqrt : Qc -> Qc) (eps : Qc) (clip : option Qc) (mean std : Qc) (d : nat) (l : list (bool * raw)),
  (forall b o, In (b, o) l -> rows_ok d o) ->
  exists outs rs', norm_run sqrt eps clip (mkN true (Some 0), mkN false (Some 0)) [repeat (rms_init mean std) d] l = Ok (outs, [rs']) /\ length outs = length l /\
    length rs' = d /\ (trained l <> [] -> forall j r, nth_error rs' j = Some r -> stats_of j (trained l) r) /\
    forall k b o, nth_error l k = Some (b, o) -> exists rs, length rs = d /\
      (trained (firstn (S k) l) = [] -> rs = repeat (rms_init mean std) d) /\
      (trained (firstn (S k) l) <> [] -> forall j r, nth_error rs j = Some r -> stats_of j (trained (firstn (S k) l)) r) /\
      nth_error outs k = Some (Rows (map (fun row => map (fun x => rms_norm sqrt eps clip (fst x) (snd x)) (combine rs row)) (rows o))).
Proof. exact C208_shared_lemma. Qed.
Print Assumptions C208_shared.

(** C208. Two wrappers that both update shared statistics: a call of either counts. *)
Theorem C208_updating : forall (sqrt : Qc -> Qc) (eps : Qc) (clip : option Qc) (mean std : Qc) (d : nat) (b : bool) (o : raw), rows_ok d o ->
  exists outs rs', norm_run sqrt eps clip (mkN true (Some 0), mkN true (Some 0)) [repeat (rms_init mean std) d] [(b, o)] = Ok (outs, [rs']) /\
    forall j r, nth_error rs' j = Some r -> stats_of j (rows o) r.
Proof. exact C208_updating_lemma. Qed.
Print Assumptions C208_updating.

(** C210. In any number of wrappers: the reserved keys come from the workers, length and [is_async] are those of the environment inside, and methods exist. *)
Theorem C210_forwarded : forall (v : venv) (n : nat) (b : bool), base v = VBase n b ->
  getattr v AReserved = Ok (Workers n) /\ venv_len v = n /\ is_async v = b /\ getattr v AMethod = Ok (Method v) /\ exists f, getattr v AIsAsync = Ok f.
Proof. exact C210_forwarded_lemma. Qed.
Print Assumptions C210_forwarded.

(** C210. It is not "a drop-in replacement": no wrapper has the number of environments, the workers, or the lists of waiting and ready environments. *)
Theorem C210_drop_in_refuted : forall (v : venv) (a : attr), In a [AEnvFns; AWorkers; AWorkerClass; AEnvNum; AWaitNum; ATimeout; AWaitingConn; AWaitingId; AReadyId; AIsClosed] ->
  getattr (VWrap v) a = Err AttributeError /\ exists f, getattr (base v) a = Ok f.
Proof. exact C210_drop_in_refuted_lemma. Qed.
Print Assumptions C210_drop_in_refuted.

(** C210. So an AsyncCollector cannot be reset with a wrapped asynchronous environment, though it can with the one inside. *)
Theorem C210_async_collector_refuted : forall (v : venv), async_reset_env (VWrap v) = Err AttributeError /\ is_ok (async_reset_env (base v)) = true.
Proof. exact C210_async_collector_refuted_lemma. Qed.
Print Assumptions C210_async_collector_refuted.

(** C209. The rewards of a PettingZooEnv: for each agent the one last reported, through any steps and resets, 0 before the first. *)
Theorem C209_rewards : forall (E A O : Type) (z_step : E -> A -> E) (z_reset : E -> E) (z_sel : E -> nat) (z_last : E -> O * option (list Z) * bool * bool)
    (z_rewards : E -> list (nat * Z)) (discrete : option nat) (e : E) (agents : list nat) (l : list zop),
  NoDup agents -> (forall e a r, In (a, r) (z_rewards e) -> In a agents) ->
  exists z es, zoo_run z_step z_reset z_sel z_last z_rewards discrete (zoo_init z_reset e agents) l = Ok (z, es) /\ length (z_rew z) = length agents /\
    forall i a, nth_error agents i = Some a -> nth i (z_rew z) 0%Z = match last_reward a (map z_rewards es) with Some r => r | None => 0%Z end.
Proof. exact C209_rewards_lemma. Qed.
Print Assumptions C209_rewards.

(** C209. So an agent that the environment reports no reward for (one that has left the game) is given its old reward at every step, also in later episodes. *)
Theorem C209_stale_refuted : forall (E A O : Type) (z_step : E -> A -> E) (z_reset : E -> E) (z_sel : E -> nat) (z_last : E -> O * option (list Z) * bool * bool)
    (z_rewards : E -> list (nat * Z)) (discrete : option nat) (z : @zoo E) (l : list zop) (i a : nat),
  NoDup (z_agents z) -> (forall e a r, In (a, r) (z_rewards e) -> In a (z_agents z)) -> length (z_rew z) = length (z_agents z) ->
  nth_error (z_agents z) i = Some a ->
  exists z' es, zoo_run z_step z_reset z_sel z_last z_rewards discrete z (l : list (@zop A)) = Ok (z', es) /\
    ((forall e r, In e es -> ~ In (a, r) (z_rewards e)) -> nth i (z_rew z') 0%Z = nth i (z_rew z) 0%Z).
Proof. exact C209_stale_refuted_lemma. Qed.
Print Assumptions C209_stale_refuted.

(** C209. The agent to act and its mask, after reset and after step: where the environment gives a mask, the actions marked 1; otherwise all of them if they are discrete. *)
Theorem C209_masks : forall (E A O : Type) (z_step : E -> A -> E) (z_reset : E -> E) (z_sel : E -> nat) (z_last : E -> O * option (list Z) * bool * bool)
    (z_rewards : E -> list (nat * Z)) (discrete : option nat) (z z' : @zoo E) (a : A) (o ob : zobs) (rew : list Z) (term trunc : bool),
  snd (zoo_reset z_reset z_sel z_last discrete z) = o ->
  zoo_step z_step z_sel z_last z_rewards discrete z a = Ok (z', (ob, rew, term, trunc)) ->
  forall e x, (e, x) = (z_reset (z_env z), o) \/ (e, x) = (z_env z', ob) ->
  zo_agent x = z_sel e /\ zo_obs x = fst (fst (fst (z_last e))) /\
  match snd (fst (fst (z_last e))) with
  | Some m => exists bs, zo_mask x = Some bs /\ length bs = length m /\ forall i v, nth_error m i = Some v -> (nth i bs false = true <-> v = 1%Z)
  | None => match discrete with Some n => exists bs, zo_mask x = Some bs /\ length bs = n /\ forall i, i < n -> nth i bs false = true | None => zo_mask x = None end end.
Proof. exact C209_masks_lemma. Qed.
Print Assumptions C209_masks.

(** C211. The action bounds of a box: the smallest lower and the largest upper bound, so every action of the box lies between them; those of a discrete space: its first and
    last action. The dimension is the number of components, or of actions. *)
Theorem C211_box : forall (shape : list nat) (low high : list Qc), length low = size shape -> length high = size shape -> size shape <> 0 ->
  exists i, action_from (GBox shape low high) = Ok i /\ In (ai_min i) low /\ In (ai_max i) high /\ shp_dim (ai_shape i) = length low /\
  (forall x, In x low -> (ai_min i <= x)%Qc) /\ (forall x, In x high -> (x <= ai_max i)%Qc) /\
  forall act, length act = length low -> (forall k, k < length act -> (nth k low 0 <= nth k act 0 /\ nth k act 0 <= nth k high 0)%Qc) -> forall x, In x act -> (ai_min i <= x /\ x <= ai_max i)%Qc.
Proof. exact C211_box_lemma. Qed.
Print Assumptions C211_box.

(** C211. *)
Theorem C211_discrete : forall (start : Z) (n : nat), exists i, action_from (GDiscrete start n) = Ok i /\ shp_dim (ai_shape i) = n /\
  forall a, (qz a = ai_min i <-> a = start) /\ ((start <= a < start + Z.of_nat n)%Z <-> (ai_min i <= qz a /\ qz a <= ai_max i)%Qc).
Proof. exact C211_discrete_lemma. Qed.
Print Assumptions C211_discrete.

(** C211. Other spaces are rejected, with a ValueError; so are boxes without components, which numpy cannot take the minimum of. *)
Theorem C211_rejected : action_from GOther = Err ValueError /\ obs_from GOther = Err ValueError /\ (forall shape, action_from (GBox shape [] []) = Err ValueError) /\
  (forall shape low high, obs_from (GBox shape low high) = Ok (ShTuple shape)) /\ forall start n, obs_from (GDiscrete start n) = Ok (ShInt n).
Proof. exact C211_rejected_lemma. Qed.
Print Assumptions C211_rejected.

(** ** Examples *)
Definition cv (a b : dt) (v : Z) : Z := v.
Definition f32 := DFloat 32.
Definition sd : space := SDic [(0, SArr f32 [2]); (1, STup [SArr (DInt 64) []; SArr f32 [1; 2]])].
Definition od (a b c d e : Z) : obs Z := ODict [(1, OTuple [OArr (mkNd (DInt 64) [] [a]); OArr (mkNd f32 [1; 2] [b; c])]); (0, OArr (mkNd f32 [2] [d; e]))].
Lemma od_fits a b c d e : fits sd (od a b c d e).
Proof.
  constructor.
  - repeat constructor; cbn; intuition discriminate.
  - intros k. cbn. tauto.
  - repeat constructor; cbn; intuition discriminate.
  - intros [|[|k]] s; cbn; intros H; try discriminate H; injection H as <-; eexists; (split; [reflexivity|]).
    + constructor. reflexivity.
    + constructor; [reflexivity|]. intros [|[|[|i]]] s o H1 H2; try discriminate H1; injection H1 as <-; injection H2 as <-; constructor; reflexivity.
Qed.
Definition bd : buf Z := BDict [(0, BArr f32 [2] [7; 7]%Z); (1, BTuple [BArr (DInt 64) [] [7%Z]; BArr f32 [1; 2] [7; 7]%Z])].
Lemma bd_is : isbuf sd bd.
Proof.
  constructor; [reflexivity|]. intros [|[|k]] s; cbn; intros H; try discriminate H; injection H as <-; eexists; (split; [reflexivity|]); [constructor|].
  constructor; [reflexivity|]. intros [|[|[|i]]] s b H1 H2; try discriminate H1; injection H1 as <-; injection H2 as <-; constructor.
Qed.
Example C203_ex : fits sd (od 1 2 3 4 5) /\ isbuf sd bd /\ encode cv (od 1 2 3 4 5) bd = Ok (BDict [(0, BArr f32 [2] [4; 5]%Z); (1, BTuple [BArr (DInt 64) [] [1%Z]; BArr f32 [1; 2] [2; 3]%Z])])
  /\ is_ok (setup_buf 0%Z sd) = true /\ setup_buf 0%Z (STup [SArr f32 [2]; SArr DOther []]) = Err KeyError.
Proof. split; [apply od_fits|]. split; [apply bd_is|]. repeat split; reflexivity. Qed.
Example C203_wrong_ex : encode cv (OScalar 3%Z) (BArr (DInt 64) [] [0%Z]) = Ok (BArr (DInt 64) [] [0%Z])
  /\ encode cv (OArr (mkNd f32 [3] [1; 2; 3]%Z)) (BArr f32 [2] [0; 0]%Z) = Err ValueError
  /\ encode cv (OArr (mkNd f32 [2] [1; 2]%Z)) (BArr (DInt 64) [2] [0; 0]%Z) = Err TypeError
  /\ encode cv (OArr (mkNd f32 [2] [1; 2]%Z)) (BArr f32 [2; 2] [0; 0; 0; 0]%Z) = Ok (BArr f32 [2; 2] [1; 2; 1; 2]%Z).
Proof. repeat split; reflexivity. Qed.
(** An environment that counts: its state is a number, as are actions, attribute values and the state of the action space's generator. *)
Definition st (e a : Z) := ((e + a)%Z, (od e a 0 0 1, (e - a)%Z)).
Definition rs (e : Z) (k : option (option Z)) := (match k with Some (Some s) => s | _ => 0%Z end, (od 0 0 0 9 9, e)).
Definition gt (e : Z) (k : nat) := if k =? 3 then Some e else None.
Definition set1 (e : Z) (_ : nat) (v : Z) := v.
Definition sg (s : option Z) (g : Z) := match s with Some s => s | None => 0%Z end.
Definition dr (g : Z) := ((g + 1)%Z, g).
Definition drun := dummy_run (Rg := Z) st rs None None gt set1 sg dr.
Definition prun := proc_run (Rg := Z) cv st rs None None gt set1 sg dr.
Definition ops : list (@wop Z Z) := [WReset (Some (Some 5%Z)); WStep 3%Z; WSample; WGet 3; WGet 4; WRender; WSeed (Some 8%Z); WSample; WSet 3 1%Z; WGet 3].
Example C204_ex : exists p, new_proc 0%Z (Some sd) 0%Z 2%Z = Ok p /\ (forall e a, fits sd (fst (snd (st e a)))) /\ (forall e k, fits sd (fst (snd (rs e k)))) /\
  d_env (fst (drun (new_dummy 0%Z 2%Z) ops)) = 1%Z /\ p_env (fst (prun p ops)) = 1%Z /\
  skipn 2 (snd (drun (new_dummy 0%Z 2%Z) ops)) = [Ok (RAct 5%Z); Ok (RVal 8%Z); Err AttributeError; Err AttributeError; Ok (RSeeds [Some 8%Z]); Ok (RAct 8%Z); Ok RNone; Ok (RVal 1%Z)] /\
  skipn 2 (snd (prun p ops)) = [Ok (RAct 5%Z); Ok (RVal 8%Z); Ok RNone; Ok RNone; Ok RNone; Ok (RAct 8%Z); Ok RNone; Ok (RVal 1%Z)].
Proof. eexists. split; [reflexivity|]. split; [intros; apply od_fits|]. split; [intros; apply od_fits|]. repeat split; reflexivity. Qed.
Example C205_ex : (forall o, In o ops -> seeded_reset o = false) /\ exists p, new_proc 0%Z None 0%Z 2%Z = Ok p /\
  skipn 1 (snd (drun (new_dummy 0%Z 2%Z) [WSendReset (Some (Some 5%Z)); WSample])) = [Ok (RAct 2%Z)] /\
  skipn 1 (snd (prun p [WSendReset (Some (Some 5%Z)); WSample])) = [Ok (RAct 5%Z)].
Proof. split; [intros o H; cbn in H; intuition (subst; reflexivity)|]. eexists. repeat split; reflexivity. Qed.
Definition sa : space := SArr f32 [1].
Definition oa (z : Z) : obs Z := OArr (mkNd f32 [1] [z]).
Definition b1 : buf Z := BArr f32 [1] [0%Z].
Definition sb : space := SDic [(0, sa)].
Definition ob (z : Z) : obs Z := ODict [(0, oa z)].
Definition b2 : buf Z := BDict [(0, b1)].
Example C206_ex : match shm_run cv [b1; b1] [(0, oa 1); (1, oa 2); (0, oa 3)] with Ok (m, rs) => map (read m) rs = [Some (oa 1); Some (oa 2); Some (oa 3)] | Err _ => False end
  /\ match shm_run cv [b2; b2] [(0, ob 1); (1, ob 2); (0, ob 3)] with Ok (m, rs) => map (read m) rs = [Some (ob 3); Some (ob 2); Some (ob 3)] | Err _ => False end
  /\ collect_from cv b1 (oa 1) [(oa 2, None); (oa 3, Some (oa 7)); (oa 8, None)] = Ok [(Some (oa 1), Some (oa 2)); (Some (oa 2), Some (oa 3)); (Some (oa 7), Some (oa 8))]
  /\ collect_from cv b2 (ob 1) [(ob 2, None); (ob 3, Some (ob 7)); (ob 8, None)] = Ok [(Some (ob 2), Some (ob 2)); (Some (ob 3), Some (ob 3)); (Some (ob 8), Some (ob 8))].
Proof. repeat split; reflexivity. Qed.
Example C206_hyps_ex : is_array sa = true /\ is_dict sb = true /\ isbuf sa b1 /\ isbuf sb b2 /\ fits sa (oa 1) /\ fits sb (ob 1) /\ answers (fits sa) [(oa 2, None); (oa 3, Some (oa 7))].
Proof.
  assert (F : forall z, fits sa (oa z)) by (intros; constructor; reflexivity). split; [reflexivity|]. split; [reflexivity|]. split; [constructor|]. split.
  { constructor; [reflexivity|]. intros [|k] s H; [|discriminate H]. injection H as <-. eexists. split; [reflexivity | constructor]. }
  split; [apply F|]. split.
  { constructor; [repeat constructor; intros [] | intros k; reflexivity | repeat constructor; intros [] |]. intros [|k] s H; [|discriminate H]. injection H as <-. eexists. split; [reflexivity | apply F]. }
  intros o again [H | [H | []]]; injection H as <- <-; split; try exact Logic.I; apply F.
Qed.
Definition qi (z : Z) : Qc := Q2Qc (inject_Z z).
Definition show (o : raw) : list (list Q) := match o with Rows l => map (map this) l | Dicts _ => [] end.
Definition stats (r : rms) : Q * Q * nat := (this (r_mean r), this (r_var r), r_count r).
(** In place of the square root: x + 1. *)
Example C207_ex : match norm_run (fun x => x + 1)%Qc 0%Qc (Some 1%Qc) (mkN true (Some 0), mkN true (Some 0)) [repeat (rms_init 0%Qc 1%Qc) 1] (map (fun o => (true, o)) [Rows [[qi 1]; [qi 3]]; Rows [[qi 5]; [qi 7]]]) with
  | Ok (outs, [rs']) => map show outs = [[[-1 # 2]; [1 # 2]]; [[1 # 6]; [1 # 2]]]%Q /\ map stats rs' = [(4%Q, 5%Q, 4)] | _ => False end
  /\ rows_ok 1 (Rows [[qi 1]; [qi 3]]).
Proof. split; [vm_compute; split; reflexivity|]. split; [discriminate|]. intros r [<- | [<- | []]]; reflexivity. Qed.
Example C208_ex : match norm_run (fun x => x + 1)%Qc 0%Qc None (mkN true (Some 0), mkN false (Some 0)) [repeat (rms_init 0%Qc 1%Qc) 1] [(false, Rows [[qi 9]]); (true, Rows [[qi 1]; [qi 3]]); (false, Rows [[qi 9]]); (true, Rows [[qi 2]])] with
  | Ok (outs, [rs']) => map show outs = [[[9 # 2]]; [[-1 # 2]; [1 # 2]]; [[7 # 2]]; [[0]]]%Q /\ map stats rs' = [(2%Q, (2 # 3)%Q, 3)] | _ => False end
  /\ trained [(false, Rows [[qi 9]]); (true, Rows [[qi 1]; [qi 3]])] = [[qi 1]; [qi 3]].
Proof. split; [vm_compute; split; reflexivity | reflexivity]. Qed.
(** A game in which the state is a number; agent 20 is out after state 1. *)
Definition zr (e : Z) : list (nat * Z) := if (e <? 2)%Z then [(20, (e * 10)%Z); (10, 1%Z)] else [(10, e)].
Definition zl (e : Z) : Z * option (list Z) * bool * bool := (e, if (e =? 1)%Z then Some [1; 0; 1]%Z else None, false, false).
Definition zrun := zoo_run Z.add (fun _ => 0%Z) Z.to_nat zl zr (Some 2).
Example C209_ex : match zrun (zoo_init (fun _ => 0%Z) 5%Z [10; 20]) [ZStep 1%Z] with Ok (z, _) => z_rew z = [1; 10]%Z | Err _ => False end
  /\ match zrun (zoo_init (fun _ => 0%Z) 5%Z [10; 20]) [ZStep 1%Z; ZStep 1%Z; ZReset; ZStep 4%Z] with Ok (z, es) => z_rew z = [4; 10]%Z /\ es = [1; 2; 4]%Z | Err _ => False end
  /\ last_reward 20 (map zr [1; 2; 4]%Z) = Some 10%Z /\ (forall e a r, In (a, r) (zr e) -> In a [10; 20]) /\ NoDup [10; 20]
  /\ zo_mask (observe Z.to_nat zl (Some 2) 1%Z) = Some [true; false; true] /\ zo_mask (observe Z.to_nat zl (Some 2) 2%Z) = Some [true; true].
Proof.
  split; [reflexivity|]. split; [split; reflexivity|]. split; [reflexivity|]. split.
  { intros e a r H. unfold zr in H. destruct (e <? 2)%Z; cbn in H; [destruct H as [H | [H | []]] | destruct H as [H | []]]; injection H as <- _; cbn; auto. }
  split; [repeat constructor; cbn; intuition discriminate|]. split; reflexivity.
Qed.
Example C210_ex : getattr (VWrap (VWrap (VBase 4 true))) AReserved = Ok (Workers 4) /\ getattr (VWrap (VBase 4 true)) AWaitingId = Err AttributeError
  /\ getattr (VBase 4 true) AWaitingId = Ok (Field (VBase 4 true)) /\ base (VWrap (VWrap (VBase 4 true))) = VBase 4 true.
Proof. repeat split; reflexivity. Qed.
Example C211_ex : match action_from (GBox [2; 1] [qi (-1); qi (-3)] [qi 2; qi 1]) with Ok i => this (ai_min i) = (-3 # 1)%Q /\ this (ai_max i) = (2 # 1)%Q /\ shp_dim (ai_shape i) = 2 | Err _ => False end
  /\ match action_from (GDiscrete (-1) 3) with Ok i => this (ai_min i) = (-1 # 1)%Q /\ this (ai_max i) = (1 # 1)%Q /\ shp_dim (ai_shape i) = 3 | Err _ => False end.
Proof. split; repeat split; reflexivity. Qed.
