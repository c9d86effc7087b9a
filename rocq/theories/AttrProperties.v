(** * Properties C279-C282: attributes of the environments of a vector environment *)
From Coq Require Import String.
From Verif Require Import AttrModel AttrSpec AttrProofs.
Local Open Scope string_scope.
Local Open Scope list_scope.
Local Open Scope nat_scope.

(** C279. After any calls of set_env_attr, with whatever ids and exceptions, an attribute that no
    wrapper hides has the value last written to that environment, or else the one it had. *)
Theorem C279_history : forall (V : Type) (s : venv V) (ops : list (aop V)) (i : nat) (e : env V) (k : string) (r : option V),
  nth_error (v_envs s) i = Some e -> visible e k -> last_value s i k ops r ->
  exists e', nth_error (v_envs (set_all s ops)) i = Some e' /\
    get_attr e' k = match r with Some v => Some v | None => get_attr e k end.
Proof. exact C279_history_lemma. Qed.
Print Assumptions C279_history.

(** C279. Not so for an attribute that a wrapper has: it keeps its value whatever is set; and a
    private one behind a wrapper stays out of reach. *)
Theorem C279_hidden_refuted : forall (V : Type) (s : venv V) (ops : list (aop V)) (i : nat) (e : env V) (k : string) (w : list (string * V)) (ws1 ws2 : list (list (string * V))) (u : V),
  nth_error (v_envs s) i = Some e -> e_wraps e = ws1 ++ w :: ws2 ->
  (forall w', In w' ws1 -> ~ In k (map fst w')) ->
  exists e', nth_error (v_envs (set_all s ops)) i = Some e' /\
    (private k = false -> look k w = Some u -> get_attr e' k = Some u) /\
    (private k = true -> (forall w', In w' (e_wraps e) -> ~ In k (map fst w')) -> get_attr e' k = None).
Proof. exact C279_hidden_refuted_lemma. Qed.
Print Assumptions C279_hidden_refuted.

(** C279. Reading gives the values of the environments asked for, in the order of the ids. *)
Theorem C279_get : forall (V : Type) (none : V) (s : venv V) (k : string) (id : option (list Z)) (vs : list V),
  admitted s id ->
  Forall2 (fun j v => exists i e, target (length (v_envs s)) j = Some i /\ nth_error (v_envs s) i = Some e /\ get_attr e k = Some v)
    (all_ids (length (v_envs s)) id) vs ->
  get_env_attr none s k id = Ok vs.
Proof. exact C279_get_lemma. Qed.
Print Assumptions C279_get.

(** C280. In synchronous mode a call with an id out of range raises IndexError, and every
    environment named before it has been written to. *)
Theorem C280_written_refuted : forall (V : Type) (s : venv V) (k : string) (v : V) (ids1 ids2 : list Z) (j : Z) (i : nat) (e : env V),
  v_closed s = false -> v_async s = false ->
  (forall j, In j ids1 -> target (length (v_envs s)) j <> None) -> target (length (v_envs s)) j = None ->
  snd (set_env_attr s k v (Some (ids1 ++ j :: ids2))) = Some IndexError /\
  (nth_error (v_envs s) i = Some e -> visible e k ->
   (exists j1, In j1 ids1 /\ target (length (v_envs s)) j1 = Some i) ->
   exists e', nth_error (v_envs (fst (set_env_attr s k v (Some (ids1 ++ j :: ids2))))) i = Some e' /\ get_attr e' k = Some v).
Proof. exact C280_written_refuted_lemma. Qed.
Print Assumptions C280_written_refuted.

(** C280. In asynchronous mode a call with an id that is out of range or stepping, and any call after close, changes nothing. *)
Theorem C280_atomic : forall (V : Type) (s : venv V) (k : string) (v : V) (id : option (list Z)),
  v_closed s = true \/ v_async s = true /\ (exists j, In j (all_ids (length (v_envs s)) id) /\ ~ idle s j) ->
  set_env_attr s k v id = (s, Some AssertionError).
Proof. exact C280_atomic_lemma. Qed.
Print Assumptions C280_atomic.

(** C280. A call that is admitted with all ids in range succeeds. *)
Theorem C280_success : forall (V : Type) (s : venv V) (k : string) (v : V) (id : option (list Z)),
  admitted s id -> (forall j, In j (all_ids (length (v_envs s)) id) -> target (length (v_envs s)) j <> None) ->
  snd (set_env_attr s k v id) = None.
Proof. exact C280_success_lemma. Qed.
Print Assumptions C280_success.

(** C281. An environment in the same process without the attribute: AttributeError. *)
Theorem C281_dummy : forall (V : Type) (none : V) (s : venv V) (k : string) (j : Z) (i : nat) (e : env V),
  admitted s (Some [j]) -> target (length (v_envs s)) j = Some i -> nth_error (v_envs s) i = Some e -> get_attr e k = None ->
  v_kind s = Dummy -> get_env_attr none s k (Some [j]) = Err AttributeError.
Proof. exact C281_dummy_lemma. Qed.
Print Assumptions C281_dummy.

(** C281. In another process: None, as if that were the value. *)
Theorem C281_subproc_refuted : forall (V : Type) (none : V) (s : venv V) (k : string) (j : Z) (i : nat) (e : env V),
  admitted s (Some [j]) -> target (length (v_envs s)) j = Some i -> nth_error (v_envs s) i = Some e -> get_attr e k = None ->
  v_kind s = Subproc -> get_env_attr none s k (Some [j]) = Ok [none].
Proof. exact C281_subproc_refuted_lemma. Qed.
Print Assumptions C281_subproc_refuted.

(** C282. [venv.action_space] and the other reserved attributes are the list of those of the
    environments, when none is stepping. *)
Theorem C282_spaces : forall (V : Type) (none : V) (s : venv V) (k : string) (vs : list V),
  v_closed s = false -> (v_async s = true -> forall i, i < length (v_envs s) -> idle s (Z.of_nat i)) ->
  Forall2 (fun e v => get_attr e k = Some v) (v_envs s) vs ->
  reserved_attr none s k = Ok vs.
Proof. exact C282_spaces_lemma. Qed.
Print Assumptions C282_spaces.

(** C282. Not so while an environment of an asynchronous vector environment is stepping: AssertionError. *)
Theorem C282_stepping_refuted : forall (V : Type) (none : V) (s : venv V) (k : string) (i : nat),
  v_async s = true -> i < length (v_envs s) -> In (Z.of_nat i) (v_waiting s) ->
  reserved_attr none s k = Err AssertionError.
Proof. exact C282_stepping_refuted_lemma. Qed.
Print Assumptions C282_stepping_refuted.

(** ** Non-vacuity: three environments, the last inside two wrappers, one of which has its own gain. *)
Definition e0 : env nat := mkEnv [] [("gain", 1); ("_seed", 7)].
Definition e2 : env nat := mkEnv [[("clip", 9)]; [("gain", 5)]] [("gain", 1); ("_seed", 7)].
Definition vsync : venv nat := mkV Dummy [e0; e0; e2] false [] [] false.
Definition vasync : venv nat := mkV Subproc [e0; e0; e2] true [0; 2]%Z [1]%Z false.
Definition calls : list (aop nat) := [("gain", 2, None); ("gain", 3, Some [0; 5; 1]%Z); ("_seed", 4, Some [-2]%Z)].
Example C279_ex : nth_error (v_envs vsync) 1 = Some e0 /\ visible e0 "gain" /\ last_value vsync 1 "gain" calls (Some 2)
  /\ last_value vsync 0 "gain" calls (Some 3)
  /\ (exists e', nth_error (v_envs (set_all vsync calls)) 1 = Some e' /\ get_attr e' "gain" = Some 2 /\ get_attr e' "_seed" = Some 4)
  /\ get_env_attr 0 (set_all vsync calls) "gain" (Some [1; 0; -1]%Z) = Ok [2; 3; 5]
  /\ get_env_attr 0 (set_all vsync calls) "_seed" (Some [2]%Z) = Err AttributeError.
Proof.
  split; [reflexivity|]. split; [split; [intros w []|reflexivity]|]. split.
  - apply (last_before vsync 1 "gain" [("gain", 2, None); ("gain", 3, Some [0; 5; 1]%Z)]); [left; discriminate|].
    apply (last_before vsync 1 "gain" [("gain", 2, None)]); [right; intros [_ H]; cbn in H; destruct H as [H|[]]; discriminate|].
    apply (last_this vsync 1 "gain" []). split; [split; [reflexivity|discriminate]|right; left; reflexivity].
  - split.
    + apply (last_before vsync 0 "gain" [("gain", 2, None); ("gain", 3, Some [0; 5; 1]%Z)]); [left; discriminate|].
      apply (last_this vsync 0 "gain" [("gain", 2, None)]). split; [split; [reflexivity|discriminate]|left; reflexivity].
    + split; [eexists; split; [reflexivity|split; reflexivity]|]. split; reflexivity.
Qed.
Example C280_ex : target 3 5 = None /\ target 3 (-1) = Some 2 /\ snd (set_env_attr vsync "gain" 3 (Some [0; 5; 1]%Z)) = Some IndexError
  /\ map (fun e => get_attr e "gain") (v_envs (fst (set_env_attr vsync "gain" 3 (Some [0; 5; 1]%Z)))) = [Some 3; Some 1; Some 5]
  /\ set_env_attr vasync "gain" 3 (Some [0; 1]%Z) = (vasync, Some AssertionError)
  /\ snd (set_env_attr vasync "gain" 3 (Some [0; 2]%Z)) = None.
Proof. repeat (split; [reflexivity|]). reflexivity. Qed.
Example C281_ex : admitted vasync (Some [2]%Z) /\ get_attr e2 "speed" = None /\ get_env_attr 0 vasync "speed" (Some [2]%Z) = Ok [0]
  /\ get_env_attr 0 vsync "speed" (Some [2]%Z) = Err AttributeError.
Proof.
  split; [split; [reflexivity|]|repeat (split; [reflexivity|]); reflexivity].
  intros _ j [<-|[]]. split; [right; left; reflexivity|]. intros [H|[]]; discriminate.
Qed.
Example C282_ex : reserved_attr 0 vsync "gain" = Ok [1; 1; 5] /\ reserved_attr 0 vasync "gain" = Err AssertionError /\ In 1%Z (v_waiting vasync).
Proof. split; [reflexivity|]. split; [reflexivity|left; reflexivity]. Qed.
