(** * Properties C352-C354: what does not depend on other environments, on the unit of priorities and on the order of rows *)
From Verif Require Import Py PyLemmas Num BufferModel BufferSpec ManagerModel ManagerSpec CollectModel CollectSpec SegTreeModel PrioModel
  DqnModel StatModel TatSpec QuantModel ActorModel OfflineModel OnpolModel DistModel SepSpec InvSpec InvProofs.
Open Scope nat_scope.

(** C352.  Two sequences of n_step collections, from vector environments of any sizes, with the same environment among them at any
    place, and policies that act row by row and treat the two places alike: if as many rounds are collected, the environment ends in
    the same state with the same observation, and its sub-buffers are the same. *)
Theorem C352_data : forall (Ob A B Inf R H ES PS H1 PS1 : Type) (r0 : R) (radd : R -> R -> R) (last_frame : Ob -> Ob) (o : opts)
  (estep estep1 : nat -> ES -> B -> ES * sres Ob Inf R) (ereset ereset1 : nat -> ES -> ES * (Ob * Inf))
  (act_fn : PS -> list nat -> list Ob -> list Inf -> option (list H) -> PS * (list (A * B) * option (list H)))
  (act_fn1 : PS1 -> list nat -> list Ob -> list Inf -> option (list H1) -> PS1 * (list (A * B) * option (list H1)))
  (hreset : list nat -> list H -> list H) (hreset1 : list nat -> list H1 -> list H1) (hook hook1 : list (row_out Ob A Inf R) -> bool)
  (f f1 : nat -> Ob -> A * B) ns ops (c c' : coll Ob A Inf R H ES PS) ls fuel e ns1 ops1 (c1 c1' : coll Ob A Inf R H1 ES PS1) ls1 fuel1 e1 n js js1 ks,
  by_rows f act_fn -> by_rows f1 act_fn1 -> estep1 e1 = estep e -> ereset1 e1 = ereset e -> f1 e1 = f e ->
  coll_ok r0 radd last_frame o ns ops c -> coll_ok r0 radd last_frame o ns1 ops1 c1 -> same_envs ns ops c e ns1 ops1 c1 e1 n ->
  Forall2 (fun j k => length (c_envs c) * k < S j <= length (c_envs c) * S k) js ks ->
  Forall2 (fun j k => length (c_envs c1) * k < S j <= length (c_envs c1) * S k) js1 ks ->
  collects (fun a b => collect r0 radd last_frame o estep ereset act_fn hreset hook fuel a b false) (map Steps js) c = Ok (c', ls) ->
  collects (fun a b => collect r0 radd last_frame o estep1 ereset1 act_fn1 hreset1 hook1 fuel1 a b false) (map Steps js1) c1 = Ok (c1', ls1) ->
  nth_error (c_envs c') e = nth_error (c_envs c1') e1 /\ pre_obs c' e = pre_obs c1' e1
  /\ nth_error (m_bufs (c_mgr c')) e = nth_error (m_bufs (c_mgr c1')) e1
  /\ slice (off ns e) n (meta_rows (list_sum ns) (m_meta (c_mgr c'))) = slice (off ns1 e1) n (meta_rows (list_sum ns1) (m_meta (c_mgr c1'))).
Proof. exact C352_data_lemma. Qed.
Print Assumptions C352_data.

(** C353.  Scaling all entries of a segment tree scales its sums, and the search for scaled values finds the same entries. *)
Theorem C353_tree : forall (k : Qc) (s : segtree), (0 < k)%Qc ->
  (forall idx vals, st_setitem (scale_tree k s) idx (map (fun x => k * x)%Qc vals) = rmap (scale_tree k) (st_setitem s idx vals))
  /\ (forall i, st_getitem (scale_tree k s) i = rmap (fun x => k * x)%Qc (st_getitem s i))
  /\ (forall start e, st_reduce (scale_tree k s) start e = rmap (fun x => k * x)%Qc (st_reduce s start e))
  /\ (forall vals, st_prefix (scale_tree k s) (map (fun x => k * x)%Qc vals) = st_prefix s vals).
Proof. exact C353_tree_lemma. Qed.
Print Assumptions C353_tree.

(** C353.  A prioritized buffer whose weights, with eps, are measured in another unit: new weights and weights of new transitions
    are the same in that unit, the same indices are drawn, and the normalised importance weights are the same. *)
Theorem C353_prio : forall (pw ipw : Qc -> Qc) (eps k k' m : Qc) (p : prio), (0 < k)%Qc -> (0 < k')%Qc -> (0 < m)%Qc ->
  (forall x, pw (k * x)%Qc = (k' * pw x)%Qc) -> (forall x, ipw (k' / k * x)%Qc = (m * ipw x)%Qc) ->
  (forall index, init_weight pw (scale_prio k k' p) index = rmap (scale_prio k k') (init_weight pw p index))
  /\ (forall index new_weight, update_weight pw (k * eps)%Qc (scale_prio k k' p) index (map (fun x => k * x)%Qc new_weight)
        = rmap (scale_prio k k') (update_weight pw eps p index new_weight))
  /\ (forall draws, prio_draw (scale_prio k k' p) draws = prio_draw p draws)
  /\ (forall index, batch_weight ipw true (scale_prio k k' p) index = batch_weight ipw true p index).
Proof. exact C353_prio_lemma. Qed.
Print Assumptions C353_prio.

(** C354.  The losses of PPO, of the quantile learners, of branching DQN, discrete BCQ, discrete CQL and TD3+BC do not depend on
    the order of the rows of the minibatch. *)
Theorem C354_losses :   (forall eps_clip dual_clip (rows rows' : list (Qc * Qc)), Permutation rows rows' -> ppo_clip_loss eps_clip dual_clip rows = ppo_clip_loss eps_clip dual_clip rows')
  /\ (forall rows rows' : list (list Qc * list Qc * list Qc * Qc), Permutation rows rows' -> quantile_loss rows = quantile_loss rows')
  /\ (forall (w w' : list Qc) (td td' : list (list Qc)), Permutation (combine w td) (combine w' td') -> bdq_loss w td = bdq_loss w' td')
  /\ (forall lsm (rows rows' : list dbcq_row), Permutation rows rows' ->
        dbcq_q_loss rows = dbcq_q_loss rows' /\ dbcq_i_loss lsm rows = dbcq_i_loss lsm rows' /\ dbcq_reg rows = dbcq_reg rows')
  /\ (forall lse (rows rows' : list (list Qc * nat)), Permutation rows rows' -> cql_min_q_loss lse rows = cql_min_q_loss lse rows')
  /\ (forall alpha (q q' : list Qc), Permutation q q' -> td3bc_term alpha q = td3bc_term alpha q').
Proof. exact C354_losses_lemma. Qed.
Print Assumptions C354_losses.

(** C354.  The critics of DDPG, TD3 and SAC: if rows and weights change places together, the errors, which become the new priorities, change
    places with them and the loss stays. *)
Theorem C354_critic : forall (Cfg OS Ob Rnd : Type) (W : @world Cfg OS Ob Rnd) (p : prm) (rows rows' : list (@ActorModel.row Ob)) (w w' : list Qc),
  length w = length rows -> length w' = length rows' -> Permutation (combine rows w) (combine rows' w') ->
  let e := td W p (mkMB rows (Some w)) in let e' := td W p (mkMB rows' (Some w')) in
  Permutation (combine rows e) (combine rows' e') /\ np_mean (weighted (Some w) e) = np_mean (weighted (Some w') e').
Proof. exact C354_critic_lemma. Qed.
Print Assumptions C354_critic.

(** C354.  Normalised advantages belong to their rows: in another order of rows they are the same numbers in that order. *)
Theorem C354_advantages : forall (sqrt : Qc -> Qc) (eps : Qc) (adv adv' : list Qc), Permutation adv adv' ->
  match norm_adv sqrt eps adv, norm_adv sqrt eps adv' with
  | Some l, Some l' => Permutation (combine adv l) (combine adv' l')
  | None, None => True
  | _, _ => False
  end.
Proof. exact C354_advantages_lemma. Qed.
Print Assumptions C354_advantages.

(** ** Non-vacuity *)
(** The environment with episodes of 3, 1 and 2 steps is the second of two and the first of three. *)
Definition of_two := demo_coll [5; 4] [[2; 1; 3; 2]; [3; 1; 2; 2]].
Definition of_three := demo_coll [4; 6; 2] [[3; 1; 2; 2]; [1; 1; 1; 1; 1]; [5; 5]].
Example C352_ex_same : same_envs [5; 4] [] of_two 1 [4; 6; 2] [] of_three 0 4.
Proof. repeat split; cbn; auto; lia. Qed.
Example C352_ex : match collects (fun a b => demo_collect HArray 20 a b false) (map Steps [4; 2]) of_two, collects (fun a b => demo_collect HArray 20 a b false) (map Steps [8; 3]) of_three with
  | Ok (c, _), Ok (c1, _) => nth_error (m_bufs (c_mgr c)) 1 = nth_error (m_bufs (c_mgr c1)) 0 /\ nth_error (c_envs c) 1 = nth_error (c_envs c1) 0
      /\ map (option_map (@s_obs _ _ _ _)) (slice 5 4 (meta_rows 9 (m_meta (c_mgr c)))) = [Some 0; Some 1; Some 2; Some 0]
      /\ map (option_map (@s_obs _ _ _ _)) (slice 0 4 (meta_rows 12 (m_meta (c_mgr c1)))) = [Some 0; Some 1; Some 2; Some 0]
  | _, _ => False end.
Proof. vm_compute. repeat split. Qed.

Definition vz (z : Z) : Qc := Q2Qc (inject_Z z).
Definition vq (a : Z) (b : positive) : Qc := Q2Qc (a # b).
(** Exponents alpha = 2, beta = 1: scaling weights by 3 scales their powers by 9 and divides importance weights by 3. *)
Definition vpw (x : Qc) : Qc := (x * x)%Qc.
Definition vipw (x : Qc) : Qc := (/ x)%Qc.
Example C353_ex_pw : (forall x, vpw (vz 3 * x)%Qc = (vz 9 * vpw x)%Qc) /\ (forall x, vipw (vz 9 / vz 3 * x)%Qc = (vq 1 3 * vipw x)%Qc).
Proof.
  split; intros x.
  - unfold vpw. replace (vz 9) with (vz 3 * vz 3)%Qc by (apply Qc_is_canon; vm_compute; reflexivity). ring.
  - unfold vipw. replace (vz 9 / vz 3)%Qc with (vz 3) by (apply Qc_is_canon; vm_compute; reflexivity).
    replace (vq 1 3) with (/ vz 3)%Qc by (apply Qc_is_canon; vm_compute; reflexivity).
    assert (vz 3 <> 0%Qc) by (intro H; apply (f_equal this) in H; vm_compute in H; discriminate H).
    destruct (Qceqb_spec x 0) as [E|E]; [rewrite E, Qcmult_0_r; change (/ 0)%Qc with 0%Qc; ring|field; auto].
Qed.
Definition vrun (k k' eps : Qc) : res prio :=
  let* p := init_weight vpw (scale_prio k k' (prio_init 4)) [0%Z; 1%Z; 2%Z] in
  let* p := update_weight vpw (k * eps)%Qc p [1%Z; 2%Z] (map (fun x => k * x)%Qc [vz (- 2); vz 0]) in
  init_weight vpw p [3%Z].
Definition vsee (k k' : Qc) := match vrun k k' (vz 1) with
  | Ok p => match prio_draw p [vq 0 1; vq 1 20; vq 1 3; vq 9 10], batch_weight vipw true p [0%Z; 1%Z; 2%Z] with
            | Ok i, Ok w => Some (map this (map (tget (st_value (p_tree p))) [1; 4; 5; 6; 7]), i, map this w) | _, _ => None end
  | Err _ => None end.
Example C353_ex : vsee 1 1 = Some ([20; 1; 9; 1; 9]%Q, [0; 0; 1; 3], [1; 1 # 9; 1]%Q) /\ vsee (vz 3) (vz 9) = Some ([180; 9; 81; 9; 81]%Q, [0; 0; 1; 3], [1; 1 # 9; 1]%Q).
Proof. vm_compute. split; reflexivity. Qed.

Example C354_ex : map this [ppo_clip_loss (vq 1 5) None [(vz 1, vz 2); (vz 2, vz 1); (vz 2, vz (- 1))]; ppo_clip_loss (vq 1 5) None [(vz 2, vz (- 1)); (vz 1, vz 2); (vz 2, vz 1)]]
  = [- 2 # 5; - 2 # 5]%Q
  /\ match quantile_loss [([vq 1 2], [vz 1], [vz 3], vz 1); ([vq 1 2], [vz 1], [vz 1], vz 2)], quantile_loss [([vq 1 2], [vz 1], [vz 1], vz 2); ([vq 1 2], [vz 1], [vz 3], vz 1)] with
     | Ok a, Ok b => map this [a; b] = [3 # 8; 3 # 8]%Q | _, _ => False end
  /\ map this [bdq_loss [vz 1; vz 2] [[vz 1; vz 3]; [vz 2; vz 2]]; bdq_loss [vz 2; vz 1] [[vz 2; vz 2]; [vz 1; vz 3]]] = [13 # 2; 13 # 2]%Q.
Proof. vm_compute. repeat split. Qed.
Definition vW : @world unit unit Qc unit :=
  mkW tt (fun _ _ n p _ => (n, p)) (fun _ => 0%Qc)
    (fun p o => [(o * vz 3)%Qc]) (fun p o a => match p with [[x]] => (x * o + x * x * qsum a)%Qc | _ => 0%Qc end) (fun _ _ _ => [])
    (fun _ _ => []) (fun _ _ _ _ _ => 0%Qc) (fun _ _ _ _ _ => []) (fun _ _ _ _ _ _ => []).
Definition vr (a b : Z) : @ActorModel.row Qc := ActorModel.mkR (vz a) [vz 1] (vz b).
Example C354_ex_critic : map this (td vW [[vz 2]] (mkMB [vr 1 5; vr 0 1] (Some [vz 2; vz 1]))) = [1; 3]%Q
  /\ map this (td vW [[vz 2]] (mkMB [vr 0 1; vr 1 5] (Some [vz 1; vz 2]))) = [3; 1]%Q
  /\ this (np_mean (weighted (Some [vz 2; vz 1]) (td vW [[vz 2]] (mkMB [vr 1 5; vr 0 1] (Some [vz 2; vz 1]))))) = (11 # 2)%Q.
Proof. vm_compute. repeat split. Qed.
Example C354_ex_adv : option_map (map this) (norm_adv (fun _ => vz 1) (vz 1) [vz 1; vz 2; vz 6]) = Some [- 1; - 1 # 2; 3 # 2]%Q
  /\ option_map (map this) (norm_adv (fun _ => vz 1) (vz 1) [vz 6; vz 1; vz 2]) = Some [3 # 2; - 1; - 1 # 2]%Q.
Proof. vm_compute. split; reflexivity. Qed.
