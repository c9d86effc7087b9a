(** * Properties C345-C347: options that make no difference and targets that coincide *)
From Verif Require Import Py PyLemmas Num BufferModel BufferSpec ManagerModel SegTreeModel PrioModel PrioSpec TatSpec DqnModel ActorModel StatModel OfflineModel IcmModel SpcSpec NeuSpec NeuProofs.
Open Scope nat_scope.

(** C345.  Without entropy term the target of SAC is that of TD3 without noise, at the same action. *)
Theorem C345_sac_td3 : forall (Cfg OS Ob Rnd : Type) (W : @world Cfg OS Ob Rnd) (noise_clip log_prob : Qc) (z : list Qc) (s : @st Cfg OS) (o : Ob),
  length z = length (w_actor W (s_aold s) o) ->
  sac_target W 0 s o (w_actor W (s_aold s) o) log_prob = td3_target W 0 noise_clip z s o.
Proof. exact C345_sac_td3_lemma. Qed.
Print Assumptions C345_sac_td3.

(** C345.  REDQ with two members, both taken, has the target of SAC; with one member taken mean and minimum are the
    same, as they are when all members agree. *)
Theorem C345_redq : forall (alpha log_prob q1 q2 : Qc) (mode : tmode),
  redq_target TMin alpha log_prob [q1; q2] [0; 1] = Ok (Qcminb q1 q2 - alpha * log_prob)%Qc
  /\ redq_target TMin alpha log_prob [q1; q2] [1; 0] = Ok (Qcminb q1 q2 - alpha * log_prob)%Qc
  /\ (forall qs i, nth_error qs i = Some q1 -> redq_target mode alpha log_prob qs [i] = Ok (q1 - alpha * log_prob)%Qc)
  /\ (forall qs idx, idx <> [] -> (forall i, In i idx -> nth_error qs i = Some q1) -> redq_target mode alpha log_prob qs idx = Ok (q1 - alpha * log_prob)%Qc).
Proof. exact C345_redq_lemma. Qed.
Print Assumptions C345_redq.

(** C345.  The one-step target of CQL is built from the target of SAC; that of BCQ with one sampled action and lambda 1 is
    that of CQL without entropy term, at the decoded actions. *)
Theorem C345_offline : forall (Cfg OS Ob Rnd : Type) (W : @world Cfg OS Ob Rnd) (s : @st Cfg OS) (alpha gamma : Qc) (decode : nat -> Ob -> list Qc)
  (batch : list (Qc * bool * Ob)) (acts : list (list Qc * Qc)),
  let tgt o (a : list Qc) := Qcminb (w_critic W (s_c1old s) o a) (w_critic W (s_c2old s) o a) in
  cql_targets alpha gamma (map (fun x : Qc * bool * Ob * (list Qc * Qc) => let '((r, d, o), (a, lp)) := x in (r, d, tgt o a, lp)) (combine batch acts))
  = map (fun x : Qc * bool * Ob * (list Qc * Qc) => let '((r, d, o), (a, lp)) := x in (r + (if d then 0 else 1) * gamma * sac_target W alpha s o a lp)%Qc) (combine batch acts)
  /\ bcq_targets (w_critic W (s_c1old s)) (w_critic W (s_c2old s)) decode 1 1 gamma batch
  = cql_targets 0 gamma (map (fun x : nat * (Qc * bool * Ob) => let '(k, (r, d, o)) := x in (r, d, tgt o (decode k o), 0%Qc)) (combine (seq 0 (length batch)) batch)).
Proof. exact C345_offline_lemma. Qed.
Print Assumptions C345_offline.

(** C345.  With a policy that always takes one action, discrete SAC has the clipped double estimate of that action as target,
    and discrete CRR the value of that action. *)
Theorem C345_discrete : forall (alpha gamma : Qc) (i : nat) (logp q1 q2 : list Qc) (r : Qc) (d : bool),
  i < length q1 -> length q2 = length q1 -> length logp = length q1 -> nth i logp 0%Qc = 0%Qc ->
  dsac_target alpha (one_hot (length q1) i) logp q1 q2 = Qcminb (nth i q1 0%Qc) (nth i q2 0%Qc)
  /\ crr_targets gamma [(r, d, (q1, one_hot (length q1) i))] = [(r + gamma * (if d then 0 else nth i q1 0))%Qc].
Proof. exact C345_discrete_lemma. Qed.
Print Assumptions C345_discrete.

(** C346.  Adding transitions one by one and setting weights is the same for PrioritizedVectorReplayBuffer(n, 1) as for
    PrioritizedReplayBuffer(n), with the same returned values and errors. *)
Theorem C346_ops : forall (Ob A Inf R : Type) (pw : Qc -> Qc) (eps : Qc) (r0 : R) (radd : R -> R -> R) (last_frame : Ob -> Ob) (o : opts) (n : nat) (ids : option (list Z)) (ops : list (wop Ob A Inf R)),
  ids = None \/ ids = Some [0%Z] ->
  vec_sizes n 1 = Ok [n] /\
  foldM (pmgr_op pw eps r0 radd last_frame o ids) ops (pm_init r0 [n], []) =
  rmap (fun y => (as_pmgr (fst y), snd y)) (foldM (pbuf_op pw eps r0 radd last_frame o) ops (pb_init r0 n, [])).
Proof. exact C346_ops_lemma. Qed.
Print Assumptions C346_ops.

(** C346.  And samples of a given size are the same. *)
Theorem C346_sample : forall (Ob A Inf R : Type) (pw : Qc -> Qc) (eps : Qc) (r0 : R) (radd : R -> R -> R) (last_frame : Ob -> Ob) (o : opts) (n : nat) (ops : list (wop Ob A Inf R)) b outs rnd_b rnd draw z,
  0 < stack_num o -> foldM (pbuf_op pw eps r0 radd last_frame o) ops (pb_init r0 n, []) = Ok (b, outs) ->
  pm_sample_indices o (as_pmgr b) rnd_b rnd draw (Some z) = pb_sample_indices o b (if sample_avail o && (1 <? stack_num o) then rnd_b else rnd 0) draw (Some z).
Proof. exact C346_sample_lemma. Qed.
Print Assumptions C346_sample.

(** C347.  A mask that allows everything changes neither the actions nor the targets of DQN. *)
Theorem C347_mask : forall (logits q_old : list (list Qc)) (use_target is_double : bool), concat logits <> [] ->
  greedy logits (Some (all_true logits)) = greedy logits None /\
  target_q use_target is_double logits q_old (Some (all_true logits)) = target_q use_target is_double logits q_old None.
Proof. exact C347_mask_lemma. Qed.
Print Assumptions C347_mask.

(** C347.  Nor the exploration; and with eps 0 nothing is explored, whether or not the early return is taken. *)
Theorem C347_exploration : forall (near0 : bool) (eps : Qc) (n : option nat) (u : list Qc) (q : list (list Qc)) (mask : option (list (list bool))) (act : list nat),
  exploration_noise near0 eps n u q (Some (all_true q)) act = exploration_noise near0 eps n u q None act /\
  (n <> None -> length u = length act -> length q = length act -> (forall rows, mask = Some rows -> length rows = length q) -> (forall x, In x u -> (0 <= x)%Qc) ->
   exploration_noise near0 0 n u q mask act = Ok act).
Proof. exact C347_exploration_lemma. Qed.
Print Assumptions C347_exploration.

(** C347.  A curiosity module with reward_scale 0 around a policy: the updates are those of the policy alone. *)
Theorem C347_icm : forall (Ob A W S X : Type) (mse : W -> orow Ob A -> Qc) (inner_process : S -> list (orow Ob A) -> res (S * X)) (inner_learn : S -> X -> res S) (w : W) (s : S) (h : heap) (rows : list (orow Ob A)),
  rmap (fun y => fst (fst y)) (icm_update mse 0 inner_process inner_learn w s h rows) =
  (let* sx := inner_process s rows in let* s' := inner_learn (fst sx) (snd sx) in Ok (s', snd sx)).
Proof. exact C347_icm_lemma. Qed.
Print Assumptions C347_icm.

(** ** Non-vacuity *)
Definition nz (z : Z) : Qc := Q2Qc (inject_Z z).
Definition nq (a : Z) (b : positive) : Qc := Q2Qc (a # b).
Definition nW : @world unit unit Qc unit :=
  mkW tt (fun _ _ n p _ => (n, p)) (fun _ => 0%Qc)
    (fun p o => [(o * nz 3)%Qc]) (fun p o a => match p with [[x]] => (x * o + x * x * qsum a)%Qc | _ => 0%Qc end) (fun _ _ _ => [])
    (fun _ _ => []) (fun _ _ _ _ _ => 0%Qc) (fun _ _ _ _ _ => []) (fun _ _ _ _ _ _ => []).
Definition nn (x : Z) : @net unit unit := mkN [[nz x]] None (ActorModel.mkO SGD tt tt tt).
Definition ns : @st unit unit := mkS (nn 1) [[nz 1]] (nn 2) [[nz 2]] (nn (- 3)) [[nz (- 3)]] 0 0%Qc.
Example C345_ex : map this [sac_target nW 0 ns (nz 1) (w_actor nW (s_aold ns) (nz 1)) (nz 7); td3_target nW 0 (nq 1 2) [nz 9] ns (nz 1);
    sac_target nW (nq 1 2) ns (nz 1) [nz (- 1)] (nz 4); sac_target nW (nq 1 2) ns (nz 1) [nz 1] (nz 4)] = [14; 14; - 14; 4]%Q.
Proof. vm_compute. reflexivity. Qed.
Example C345_ex_redq : match redq_target TMin (nq 1 2) (nz 4) [nz 5; nz 3] [1; 0], redq_target TMean (nq 1 2) (nz 4) [nz 5; nz 3] [1; 0], redq_target TMean (nq 1 2) (nz 4) [nz 5; nz 3; nz 5] [2; 0] with
  | Ok a, Ok b, Ok c => map this [a; b; c] = [1; 2; 3]%Q | _, _, _ => False end.
Proof. vm_compute. reflexivity. Qed.
Example C345_ex_offline : map this (cql_targets (nq 1 2) (nq 1 2) [(nz 1, false, nz 6, nz 4); (nz 1, true, nz 6, nz 4)]) = [3; 1]%Q
  /\ map this (bcq_targets (w_critic nW [[nz 2]]) (w_critic nW [[nz (- 3)]]) (fun k o => [(o + qn k)%Qc]) 1 1 (nq 1 2) [(nz 1, false, nz 1); (nz 2, true, nz 1); (nz 0, false, nz 1)]) = [4; 2; 7]%Q.
Proof. vm_compute. split; reflexivity. Qed.
Example C345_ex_discrete : map this (one_hot 3 1) = [0; 1; 0]%Q
  /\ this (dsac_target (nq 1 2) (one_hot 3 1) [nz (- 5); nz 0; nz (- 9)] [nz 1; nz 4; nz 9] [nz 0; nz 7; nz 0]) = 4%Q
  /\ map this (crr_targets (nq 1 2) [(nz 1, false, ([nz 1; nz 4; nz 9], one_hot 3 1))]) = [3]%Q.
Proof. vm_compute. repeat split. Qed.

Definition nopts : opts := mkOpts 1 true false false.
Definition nt (k : nat) (d : bool) : trans nat nat nat Z := mkTrans k k (Z.of_nat k) d false (S k) 0.
Definition nops : list (wop nat nat nat Z) := [WAdd (nt 1 false); WAdd (nt 2 true); WSet [1; 0]%Z [nz (- 3); nz 1]; WAdd (nt 3 false)].
Example C346_ex : match foldM (pmgr_op (fun x => x) 0%Qc 0%Z Z.add (fun x : nat => x) nopts None) nops (pm_init 0%Z [4], []),
    foldM (pbuf_op (fun x => x) 0%Qc 0%Z Z.add (fun x : nat => x) nopts) nops (pb_init 0%Z 4, []) with
  | Ok (m, o1), Ok (b, o2) => o1 = o2 /\ map (fun r => fst (fst (fst r))) o1 = [0; 1; 2]
      /\ pm_sample_indices nopts m (fun _ => 0) (fun _ _ => 0) (fun j => nq (Z.of_nat j) 4) (Some 4%Z) = Ok [0; 1; 1; 2]
      /\ pb_sample_indices nopts b (fun _ => 0) (fun j => nq (Z.of_nat j) 4) (Some 4%Z) = Ok [0; 1; 1; 2]
  | _, _ => False end.
Proof. vm_compute. repeat split. Qed.

Example C347_ex : greedy [[nz 1; nz 5]; [nz 4; nz 2]] (Some (all_true [[nz 1; nz 5]; [nz 4; nz 2]])) = Ok [1; 0]
  /\ greedy [[nz 1; nz 5]; [nz 4; nz 2]] (Some [[true; false]; [false; true]]) = Ok [0; 1]
  /\ exploration_noise false (nq 1 2) (Some 2) [nq 1 4; nq 3 4] [[nz 0; nq 1 2]; [nz 0; nq 1 2]] (Some (all_true [[nz 0; nq 1 2]; [nz 0; nq 1 2]])) [0; 0] = Ok [1; 0]
  /\ exploration_noise false 0 (Some 2) [nz 0; nq 3 4] [[nz 0; nq 1 2]; [nz 0; nq 1 2]] None [0; 0] = Ok [0; 0].
Proof. vm_compute. repeat split. Qed.
Example C347_ex_icm : let rows := [OnpolModel.mkO 1 2 0 (nz 3) false false; OnpolModel.mkO 2 3 1 (nz 4) true false] in
  let run scale := icm_update (fun (_ : unit) _ => nz 2) scale (fun (s : Qc) l => Ok (s, qsum (map o_rew l))) (fun s x => Ok (s + x)%Qc) tt (nz 1) [] rows in
  match run 0%Qc, run 1%Qc with Ok y, Ok z => this (fst (fst (fst y))) = 8%Q /\ this (fst (fst (fst z))) = 12%Q | _, _ => False end.
Proof. vm_compute. split; reflexivity. Qed.
