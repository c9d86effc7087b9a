(** * Properties C339-C341: special cases in which two components coincide *)
From Verif Require Import Py PyLemmas Num BufferModel BufferSpec ManagerModel TatSpec DqnModel QuantModel OfflineModel ActorModel SpcSpec SpcProofs.
Open Scope nat_scope.

(** C339.  TD3 that is given one critic, without policy noise and with update_actor_freq = 1, makes the
    same updates as DDPG: actor, critic, their targets, priorities and reported losses agree. *)
Theorem C339_td3 : forall (Cfg OS Ob Rnd : Type) (W : @world Cfg OS Ob Rnd) (tau nc : Qc) (a c1 : net) (k : optclass) (g : Cfg) s0 us s outs,
  n_opt c1 = mkO k g g (w_os0 W) -> init W true a c1 None None = Ok s0 ->
  (forall x z mk, In (x, z, mk) us ->
     (forall f h : Ob -> Qc, (forall o, f o = h o) -> mk f = mk h) /\ forall o p, length (z o) = length (w_actor W p o)) ->
  updates_with (ddpg_learn W tau) (fun _ => ddpg_target W) us s0 = Ok (s, outs) ->
  exists t, updates_with (td3_learn W tau 1) (fun z s o => td3_target W 0 nc (z o) s o) us s0 = Ok (t, outs) /\ ddpg_part t = ddpg_part s.
Proof. exact C339_td3_lemma. Qed.
Print Assumptions C339_td3.

(** C340.  FQF whose proposal is uniform has the fractions and the values of QRDQN. *)
Theorem C340_fqf : forall (n : nat) (z : list Qc), 0 < n -> length z = n ->
  tau_hats_of (repeat (1 / qn n)%Qc n) = tau_hat n /\ fqf_q (taus_of (repeat (1 / qn n)%Qc n)) z = qr_q z.
Proof. exact C340_fqf_lemma. Qed.
Print Assumptions C340_fqf.

(** C340.  QRDQN with one quantile has the targets of double DQN, and half the Huber loss. *)
Theorem C340_quantile : forall (use_target is_double : bool) (q_new q_old : list Qc) (c t : Qc),
  qr_target use_target is_double qr_q (map (fun x => [x]) q_new) (map (fun x => [x]) q_old)
  = match nth_error (if use_target then q_old else q_new) (argmax q_new) with Some v => Ok [v] | None => Err IndexError end
  /\ target_q use_target true [q_new] [q_old] None
     = match nth_error (if use_target then q_old else q_new) (argmax q_new) with Some v => Ok [v] | None => Err IndexError end
  /\ tau_hat 1 = [half]
  /\ quantile_row (tau_hat 1) [c] [t] = Ok (half * huber (t - c))%Qc.
Proof. exact C340_quantile_lemma. Qed.
Print Assumptions C340_quantile.

(** C340.  Without a target network double DQN and DQN have the same targets. *)
Theorem C340_target : forall (q q' : list (list Qc)), (forall r, In r q -> r <> []) ->
  target_q false true q q' None = target_q false false q q' None.
Proof. exact C340_target_lemma. Qed.
Print Assumptions C340_target.

(** C340.  Branching DQN with one branch has the targets of DQN, double or not. *)
Theorem C340_branching : forall (Ob : Type) (q_new q_old : Ob -> list (list Qc)) (use_target is_double : bool) (o : Ob) (n t : list Qc),
  q_new o = [n] -> q_old o = [t] -> n <> [] -> length t = length n ->
  target_q use_target is_double [n] [t] None = Ok (bdq_branch_values q_new q_old use_target is_double o).
Proof. exact C340_branching_lemma. Qed.
Print Assumptions C340_branching.

(** C340.  Discrete BCQ with threshold 0 acts like DQN. *)
Theorem C340_bcq : forall (INF : Qc) (q logits : list Qc), length logits = length q ->
  greedy [q] None = Ok [dbcq_act INF None q logits].
Proof. exact C340_bcq_lemma. Qed.
Print Assumptions C340_bcq.

(** C341.  The sub-buffers of VectorReplayBuffer(n, 1): one of capacity n.  Adding transitions one by one and
    resetting is the same for it as for ReplayBuffer(n), with the same returned values and errors. *)
Theorem C341_ops : forall (Ob A Inf R : Type) (r0 : R) (radd : R -> R -> R) (last_frame : Ob -> Ob) (o : opts) (n : nat) (ids : option (list Z)) (ops : list (aop Ob A Inf R)),
  ids = None \/ ids = Some [0%Z] ->
  vec_sizes n 1 = Ok [n] /\
  foldM (mgr_op r0 radd last_frame o ids) ops (m_init r0 [n], []) =
  rmap (fun y => (as_manager (fst y), snd y)) (foldM (buf_op r0 radd last_frame o) ops (buf_init r0 n, [])).
Proof. exact C341_ops_lemma. Qed.
Print Assumptions C341_ops.

(** C341.  And what is read is the same: unfinished episodes, samples of a given size, neighbours and
    rows of stored indices. *)
Theorem C341_reads : forall (Ob A Inf R : Type) (r0 : R) (radd : R -> R -> R) (last_frame : Ob -> Ob) (o : opts) (n : nat) (ops : list (aop Ob A Inf R)) b outs,
  foldM (buf_op r0 radd last_frame o) ops (buf_init r0 n, []) = Ok (b, outs) ->
  m_len (as_manager b) = size (b_st b) /\ m_unfinished_index (as_manager b) = unfinished_index b /\
  (forall rnd_b rnd z, 0 < stack_num o ->
     m_sample_indices o (as_manager b) rnd_b rnd (Some z) = sample_indices o b (if sample_avail o && (1 <? stack_num o) then rnd_b else rnd 0) (Some z)) /\
  forall index, (forall i, In i index -> (0 <= i < Z.of_nat (size (b_st b)))%Z) ->
    m_prev (as_manager b) index = prev b index /\ m_next (as_manager b) index = next b index /\ m_getitem o (as_manager b) index = getitem o b index.
Proof. exact C341_reads_lemma. Qed.
Print Assumptions C341_reads.

(** ** Non-vacuity *)
Definition az (z : Z) : Qc := Q2Qc (inject_Z z).
Definition half2 : Qc := Q2Qc (1 # 2).
(** Gradient descent with learning rate as option and the number of steps as state; linear networks. *)
Definition g0 (g : prm) : Qc := match g with (x :: _) :: _ => x | _ => 0%Qc end.
Definition aW : @world Qc nat Qc unit :=
  mkW 0 (fun _ lr n p g => (S n, map (map (fun x => x - lr * g0 g)%Qc) p)) (fun g => 0%Qc)
    (fun p o => [(g0 p * o)%Qc]) (fun p o a => (g0 p * o + qsum a)%Qc) (fun p o a => [(g0 p * o)%Qc; qsum a])
    (fun p b => match mb_rows b with [] => [[0%Qc]] | r :: _ => [[(g0 p - r_ret r)%Qc]] end)
    (fun pa pc al _ r => (- g0 pa)%Qc) (fun pa pc _ _ r => [[(- fold_right Qcplus 0%Qc (map g0 pc))%Qc]])
    (fun i pa pc _ _ r => [[az 100]]).
Definition an (x : Z) : @net Qc nat := mkN [[az x]] None (mkO SGD (az 1) (az 1) 0).
Definition ex_mk (f : Qc -> Qc) : @mb Qc := mkMB [ActorModel.mkR (az 1) [az 2] (az 3 + half2 * f (az 2))%Qc] None.
Definition ex_us : list (@upd_t Qc unit) := [(tt, (fun _ => [az 5]), ex_mk); (tt, (fun _ => [az (- 7)]), ex_mk)].
Example C339_ex : match init aW true (an 4) (an 8) None None with
  | Ok s0 => match updates_with (ddpg_learn aW half2) (fun _ => ddpg_target aW) ex_us s0, updates_with (td3_learn aW half2 1) (fun z s o => td3_target aW 0 half2 (z o) s o) ex_us s0 with
     | Ok (s, outs), Ok (t, outs') => map (map this) (n_par (s_c1 s)) = [[26]]%Q /\ map (map this) (n_par (s_a s)) = [[45]]%Q /\ map (map this) (n_par (s_c1 t)) = [[26]]%Q /\ map (map this) (n_par (s_a t)) = [[45]]%Q
       /\ map (fun x => this (snd x)) outs = [25; 81]%Q /\ map (fun x => this (snd x)) outs' = [25; 81]%Q /\ s_cnt t <> s_cnt s
     | _, _ => False end
  | Err _ => False end
  /\ (forall f h : Qc -> Qc, (forall o, f o = h o) -> ex_mk f = ex_mk h).
Proof. split; [vm_compute; repeat split; discriminate|]. intros f h H. unfold ex_mk. rewrite H. reflexivity. Qed.
Example C340_ex : map this (taus_of (repeat (1 / sq 4)%Qc 4)) = [0; 1 # 4; 1 # 2; 3 # 4; 1]%Q
  /\ map this (tau_hat 4) = [1 # 8; 3 # 8; 5 # 8; 7 # 8]%Q
  /\ this (qr_q [az 1; az 2; az 3; az 8]) = (7 # 2)%Q.
Proof. vm_compute. repeat split. Qed.
Example C340_ex_target : match target_q true true [[az 1; az 5]] [[az 9; az 2]] None, qr_target true false qr_q [[az 1]; [az 5]] [[az 9]; [az 2]], target_q true false [[az 1; az 5]] [[az 9; az 2]] None with
  | Ok a, Ok b, Ok c => map this a = [2]%Q /\ map this b = [2]%Q /\ map this c = [9]%Q
  | _, _, _ => False end
  /\ match target_q false true [[az 1; az 5]] [[az 9; az 2]] None, target_q false false [[az 1; az 5]] [[az 9; az 2]] None with
     | Ok a, Ok b => map this a = [5]%Q /\ map this b = [5]%Q | _, _ => False end
  /\ map this (bdq_branch_values (fun _ : nat => [[az 1; az 5]]) (fun _ => [[az 9; az 2]]) true true 0) = [2]%Q
  /\ greedy [[az 1; az 5; az 2]] None = Ok [dbcq_act (az 50) None [az 1; az 5; az 2] [az 4; az (- 4); az 3]].
Proof. vm_compute. repeat split. Qed.

Definition ex_o : opts := mkOpts 2 false false true.
Definition ex_t (k : nat) (d : bool) : trans nat nat nat Z := mkTrans k k (Z.of_nat k) d false (S k) 0.
Definition ex_ops : list (aop nat nat nat Z) := [OpAdd (ex_t 1 false); OpReset false; OpAdd (ex_t 2 true); OpAdd (ex_t 3 false); OpAdd (ex_t 4 false); OpAdd (ex_t 5 true); OpAdd (ex_t 6 false)].
Example C341_ex : match foldM (buf_op 0%Z Z.add (fun x => x) ex_o) ex_ops (buf_init 0%Z 4, []), foldM (mgr_op 0%Z Z.add (fun x => x) ex_o (Some [0%Z])) ex_ops (m_init 0%Z [4], []) with
  | Ok (b, outs), Ok (m, outs') => m = as_manager b /\ outs = outs'
      /\ outs = [(0, 0%Z, 0, 0); (0, 2%Z, 1, 0); (1, 0%Z, 0, 1); (2, 0%Z, 0, 1); (3, 12%Z, 3, 1); (0, 0%Z, 0, 0)]
      /\ size (b_st b) = 4 /\ m_unfinished_index m = Ok [0] /\ m_prev m [0; 1; 2; 3]%Z = Ok [0; 1; 1; 2]%Z /\ m_next m [0; 1; 2; 3]%Z = Ok [0; 2; 3; 3]%Z
      /\ m_sample_indices ex_o m (fun k => k) (fun _ _ => 0) (Some 3%Z) = sample_indices ex_o b (fun k => k) (Some 3%Z)
      /\ sample_indices ex_o b (fun k => k) (Some 3%Z) = Ok [2; 3; 2]
  | _, _ => False end.
Proof. vm_compute. repeat split. Qed.
