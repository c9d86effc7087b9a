(** * Properties C22, C23, C59: returns computed from a replay buffer *)
From Verif Require Import Py PyLemmas Num BufferModel BufferSpec BufferMainProofs ManagerModel ManagerSpec.
From Verif Require Import ReturnsModel ReturnsSpec ReturnsMainProofs.
Open Scope nat_scope.

(** C22.  [compute_episodic_return] on a reachable buffer and a batch of whole episodes: every
    return is the TD(lambda) target of its own episode; with given state values the advantages are
    the differences; without, the value of a state is taken from the preceding batch element. *)
Theorem C22_episodic_return_buffer : forall (Ob A Inf : Type) (r0 : Qc) radd (last_frame : Ob -> Ob) o n
    (b : buf Ob A Inf Qc) q rnd idx ps (v : nat -> Qc) v_s_ v_s gamma lam,
  0 < n -> reach r0 radd last_frame o n b q -> q <> [] ->
  sample_indices plain b rnd (Some 0%Z) = Ok idx ->
  (forall p, In p ps -> p < length q) -> whole_episodes (fun _ => q) (map (pair 0) ps) ->
  (v_s_ = Some (map v ps) \/ v_s_ = None /\ lam = 1%Qc /\ forall p, v p = 0%Qc) ->
  (v_s = None \/ exists w, v_s = Some (map w ps) /\ forall p, last_of q p <> p -> w (S p) = next_value q v p) ->
  let at_ p := Z.of_nat (nth p idx 0) in
  let target p := lambda_return gamma lam
                    (map (fun j => (rew_at q j, next_value q v j)) (rest_of_episode q p)) in
  exists adv,
  compute_episodic_return (buf_view b) (map (fun p => (rew_at q p, term_at q p, trunc_at q p)) ps)
    (map at_ ps) v_s_ v_s gamma lam = Ok (map target ps, adv)
  /\ (forall w, v_s = Some (map w ps) -> adv = map (fun p => (target p - w p)%Qc) ps)
  /\ (v_s = None -> forall i p p', nth_error ps i = Some p -> nth_error ps (S i) = Some p' ->
      nth_error adv (S i) = Some (target p' - next_value q v p)%Qc).
Proof. exact C22_episodic_return_buffer_lemma. Qed.
Print Assumptions C22_episodic_return_buffer.

(** C22.  The same for a buffer manager, e.g. a VectorReplayBuffer. *)
Theorem C22_episodic_return_manager : forall (Ob A Inf : Type) (r0 : Qc) radd (last_frame : Ob -> Ob) o ns
    (ops : list (mop Ob A Inf Qc)) m outs xs (v : nat * nat -> Qc) v_s_ v_s gamma lam,
  (forall n, In n ns -> 0 < n) ->
  m_run r0 radd last_frame o (m_init r0 ns) ops = Ok (m, outs) ->
  (exists ids ts, In (MAdd ids ts) ops) ->
  let q k := mqueue last_frame o ns ops k in
  (forall x, In x xs -> snd x < length (q (fst x))) -> whole_episodes q xs ->
  (v_s_ = Some (map v xs) \/ v_s_ = None /\ lam = 1%Qc /\ forall x, v x = 0%Qc) ->
  (v_s = None \/ exists w, v_s = Some (map w xs) /\ forall k p, last_of (q k) p <> p ->
     w (k, S p) = next_value (q k) (fun j => v (k, j)) p) ->
  exists adv,
  compute_episodic_return (mgr_view m)
    (map (fun x => (rew_at (q (fst x)) (snd x), term_at (q (fst x)) (snd x), trunc_at (q (fst x)) (snd x))) xs)
    (map (fun x => Z.of_nat (maddress ns ops x)) xs) v_s_ v_s gamma lam
  = Ok (map (target_of q v gamma lam) xs, adv)
  /\ (forall w, v_s = Some (map w xs) -> adv = map (fun x => (target_of q v gamma lam x - w x)%Qc) xs)
  /\ (v_s = None -> forall i x y, nth_error xs i = Some x -> nth_error xs (S i) = Some y ->
      nth_error adv (S i) = Some (target_of q v gamma lam y
                                  - next_value (q (fst x)) (fun j => v (fst x, j)) (snd x))%Qc).
Proof. exact C22_episodic_return_manager_lemma. Qed.
Print Assumptions C22_episodic_return_manager.

(** C22.  The batch returned by [sample(0)], all stored positions in order, is such a batch. *)
Theorem C22_full_batch : forall (Ob A Inf : Type) (q : nat -> list (slot Ob A Inf Qc)) num,
  whole_episodes q (all_positions q num).
Proof. exact C22_full_batch_lemma. Qed.
Print Assumptions C22_full_batch.

(** C22.  With lambda = 1 the target is the discounted sum of the rewards of the rest of the
    episode plus the discounted value of the state after it. *)
Theorem C22_lambda_one : forall gamma steps, steps <> [] ->
  lambda_return gamma 1 steps
  = (sum_n (length steps) (fun l => (gamma ^ l * fst (nth l steps (0, 0)))%Qc)
     + gamma ^ length steps * snd (last steps (0, 0)))%Qc.
Proof. exact C22_lambda_one_lemma. Qed.
Print Assumptions C22_lambda_one.

(** C23.  [compute_nstep_return] on a reachable buffer: every return sums at most [N] rewards, stops
    at the end of the episode (or at the newest stored step), and bootstraps with the right power of
    gamma from the state after the last step used, unless that step is terminal. *)
Theorem C23_nstep_buffer : forall (Ob A Inf : Type) (r0 : Qc) radd (last_frame : Ob -> Ob) o n
    (b : buf Ob A Inf Qc) q rnd idx ps (target_q_fn : list Z -> list (list Qc)) gamma N,
  0 < n -> reach r0 radd last_frame o n b q -> q <> [] ->
  sample_indices plain b rnd (Some 0%Z) = Ok idx ->
  (forall p, In p ps -> p < length q) -> ps <> [] -> 0 < N ->
  (forall l, length (target_q_fn l) = length l) ->
  let at_ p := Z.of_nat (nth p idx 0) in
  compute_nstep_return (buf_view b) (length ps) (map at_ ps) target_q_fn gamma N false
  = Ok (map (fun y => nstep_target q gamma N (fst y) (snd y))
         (combine ps (target_q_fn (map (fun p => at_ (nstep_reached q N p)) ps)))).
Proof. exact C23_nstep_buffer_lemma. Qed.
Print Assumptions C23_nstep_buffer.

(** C23.  The same for a buffer manager. *)
Theorem C23_nstep_manager : forall (Ob A Inf : Type) (r0 : Qc) radd (last_frame : Ob -> Ob) o ns
    (ops : list (mop Ob A Inf Qc)) m outs xs (target_q_fn : list Z -> list (list Qc)) gamma N,
  (forall n, In n ns -> 0 < n) ->
  m_run r0 radd last_frame o (m_init r0 ns) ops = Ok (m, outs) ->
  let q k := mqueue last_frame o ns ops k in
  let at_ x := Z.of_nat (maddress ns ops x) in
  (forall x, In x xs -> snd x < length (q (fst x))) -> xs <> [] -> 0 < N ->
  (forall l, length (target_q_fn l) = length l) ->
  compute_nstep_return (mgr_view m) (length xs) (map at_ xs) target_q_fn gamma N false
  = Ok (map (fun y => nstep_target (q (fst (fst y))) gamma N (snd (fst y)) (snd y))
         (combine xs (target_q_fn (map (fun x => at_ (fst x, nstep_reached (q (fst x)) N (snd x))) xs)))).
Proof. exact C23_nstep_manager_lemma. Qed.
Print Assumptions C23_nstep_manager.

(** C59.  When the state values are not passed, the advantage of the first step of an episode depends
    on the value estimate of another episode of the batch. *)
Theorem C59_own_episode_refuted : exists n (b : buf nat nat unit Qc) q v v' ret ret' adv adv' idx,
  reach 0%Qc Qcplus (fun x => x) plain n b q /\ length q = 2
  /\ last_of q 0 = 0 /\ last_of q 1 = 1
  /\ sample_indices plain b (fun _ => 0) (Some 0%Z) = Ok idx
  /\ (forall p, p <> 0 -> v p = v' p)
  /\ (let batch := map (fun p => (rew_at q p, term_at q p, trunc_at q p)) [0; 1] in
      compute_episodic_return (buf_view b) batch (map Z.of_nat idx) (Some (map v [0; 1])) None 1 1 = Ok (ret, adv)
      /\ compute_episodic_return (buf_view b) batch (map Z.of_nat idx) (Some (map v' [0; 1])) None 1 1 = Ok (ret', adv'))
  /\ nth_error ret 1 = nth_error ret' 1 /\ nth_error adv 1 <> nth_error adv' 1.
Proof. exact C59_own_episode_refuted_lemma. Qed.
Print Assumptions C59_own_episode_refuted.

(** ** Non-vacuity: a wrapped buffer of 4 with the end of an episode, a whole one and an
    unfinished one. *)
Definition rex_ts := [qt 1 false false; qt 2 false false; qt 3 true false; qt 4 false true; qt 5 false false].
Definition rex := qbuf 4 rex_ts.
Definition rex_q := qqueue 4 rex_ts.
Example C22_ex_reach : reach 0%Qc Qcplus (fun x => x) plain 4 rex rex_q /\ map s_act rex_q = [2; 3; 4; 5].
Proof. split; [apply qbuf_reach; lia|vm_compute; reflexivity]. Qed.
Example C22_ex_idx : sample_indices plain rex (fun _ => 0) (Some 0%Z) = Ok [1; 2; 3; 0].
Proof. vm_compute. reflexivity. Qed.
Example C22_ex_ends : map (last_of rex_q) [0; 1; 2; 3] = [1; 1; 2; 3].
Proof. reflexivity. Qed.
Example C22_ex_whole : whole_episodes (fun _ => rex_q) (map (pair 0) [0; 1; 2; 3])
  /\ whole_episodes (fun _ => rex_q) (map (pair 0) [3; 0; 1]).
Proof. cbn. unfold is_end. cbn. repeat split; auto. Qed.
(** gamma = 1, lambda = 1, next-state values 10: the terminal step does not bootstrap, the
    truncated and the unfinished ones do. *)
Example C22_ex_value : exists adv, compute_episodic_return (buf_view rex)
    (map (fun p => (rew_at rex_q p, term_at rex_q p, trunc_at rex_q p)) [0; 1; 2; 3])
    [1; 2; 3; 0]%Z (Some (map (fun _ => qz 10) [0; 1; 2; 3])) None 1 1 = Ok ([qz 5; qz 3; qz 14; qz 15], adv).
Proof. eexists. vm_compute. reflexivity. Qed.
Example C23_ex_value : compute_nstep_return (buf_view rex) 4 [1; 2; 3; 0]%Z
    (map (fun _ => [qz 10; qz 20])) 1 3 false
  = Ok [[qz 5; qz 5]; [qz 3; qz 3]; [qz 14; qz 24]; [qz 15; qz 25]].
Proof. vm_compute. reflexivity. Qed.
(** A manager with two sub-buffers. *)
Definition rex_ops : list (mop nat nat unit Qc) :=
  [MAdd None [qt 1 false false; qt 11 false false]; MAdd (Some [1]%Z) [qt 12 true false];
   MAdd (Some [-1]%Z) [qt 13 false false]].
Example C23_ex_manager : match m_run 0%Qc Qcplus (fun x => x) plain (m_init 0%Qc [2; 3]) rex_ops with
  | Ok (m, _) => compute_nstep_return (mgr_view m) 4 [0; 2; 3; 4]%Z (map (fun _ => [qz 10])) 1 2 false
                 = Ok [[qz 11]; [qz 23]; [qz 12]; [qz 23]]
  | Err _ => False
  end.
Proof. vm_compute. reflexivity. Qed.
Example C23_ex_positions : all_positions (mqueue (fun x => x) plain [2; 3] rex_ops) 2 = [(0, 0); (1, 0); (1, 1); (1, 2)]
  /\ map (maddress [2; 3] rex_ops) [(0, 0); (1, 0); (1, 1); (1, 2)] = [0; 2; 3; 4].
Proof. vm_compute. auto. Qed.
