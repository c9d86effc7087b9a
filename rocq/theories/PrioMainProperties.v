(** * Properties C16, C60-C65: prioritized replay *)
From Verif Require Import Py PyLemmas Num SegTreeModel SegTreeSpec BufferModel BufferSpec BufferMainProofs
  ManagerModel ManagerSpec PrioModel PrioSpec PrioMainProofs.
Open Scope nat_scope.

(** C16.  After any legal calls the weight tree holds the specification's array: new rows get
    [pw] of the largest priority seen, updated rows get [pw (|w| + eps)], nothing else changes;
    [max_prio]/[min_prio] are the extremes seen; exactly the stored indices have weight > 0. *)
Theorem C16_weights : forall pw eps (Ob A Inf R : Type) (r0 : R) radd (last_frame : Ob -> Ob) o n
    (ops : list (pop Ob A Inf R)),
  (forall x, (0 < x)%Qc -> (0 < pw x)%Qc) -> (0 < eps)%Qc -> 0 < n ->
  pops_ok pw eps r0 radd last_frame o n (ps_init n) ops ->
  let s := ps_run pw eps n ops in
  exists b, p_run pw eps r0 radd last_frame o (pb_init r0 n) ops = Ok b
    /\ length (ps_arr s) = n
    /\ (forall i, i < n -> st_getitem (p_tree (pb_prio b)) (Z.of_nat i) = Ok (nth i (ps_arr s) 0%Qc))
    /\ p_max (pb_prio b) = highest (ps_seen s) /\ p_min (pb_prio b) = lowest (ps_seen s)
    /\ size (b_st (pb_buf b)) = Nat.min (ps_cnt s) n
    /\ (forall i, i < n -> (i < size (b_st (pb_buf b)) -> (0 < nth i (ps_arr s) 0)%Qc)
                        /\ (size (b_st (pb_buf b)) <= i -> nth i (ps_arr s) 0%Qc = 0%Qc)).
Proof. exact C16_weights_lemma. Qed.
Print Assumptions C16_weights.

(** C16.  What was seen: [highest]/[lowest] are attained and bound everything seen. *)
Theorem C16_extremes : forall l : list Qc,
  In (highest l) (1%Qc :: l) /\ In (lowest l) (1%Qc :: l)
  /\ forall x, In x (1%Qc :: l) -> (x <= highest l)%Qc /\ (lowest l <= x)%Qc.
Proof. exact C16_extremes_lemma. Qed.
Print Assumptions C16_extremes.

(** C16.  With draws in [0,1) a prioritized sample has the requested length, contains only
    stored indices, and each index obeys the proportional law [draw_law]. *)
Theorem C16_sampling : forall pw eps (Ob A Inf R : Type) (r0 : R) radd (last_frame : Ob -> Ob) o n
    (ops : list (pop Ob A Inf R)) b rnd draw z,
  (forall x, (0 < x)%Qc -> (0 < pw x)%Qc) -> (0 < eps)%Qc -> 0 < n ->
  pops_ok pw eps r0 radd last_frame o n (ps_init n) ops ->
  p_run pw eps r0 radd last_frame o (pb_init r0 n) ops = Ok b ->
  let s := ps_run pw eps n ops in
  0 < ps_cnt s -> (0 < z)%Z -> (forall j, (0 <= draw j)%Qc /\ (draw j < 1)%Qc) ->
  exists l, pb_sample_indices o b rnd draw (Some z) = Ok l /\ length l = Z.to_nat z
    /\ forall k j, nth_error l k = Some j -> j < size (b_st (pb_buf b)) /\ draw_law (ps_arr s) (draw k) j.
Proof. exact C16_sampling_lemma. Qed.
Print Assumptions C16_sampling.

(** C16.  The normalised importance weights of a batch of stored indices are in (0, 1] and one
    of them is 1. *)
Theorem C16_normalised_weights : forall pw ipw eps (Ob A Inf R : Type) (r0 : R) radd (last_frame : Ob -> Ob) o n
    (ops : list (pop Ob A Inf R)) b index,
  (forall x, (0 < x)%Qc -> (0 < pw x)%Qc) -> (forall x, (0 < x)%Qc -> (0 < ipw x)%Qc) -> (0 < eps)%Qc -> 0 < n ->
  pops_ok pw eps r0 radd last_frame o n (ps_init n) ops ->
  p_run pw eps r0 radd last_frame o (pb_init r0 n) ops = Ok b ->
  index <> [] -> (forall i, In i index -> i < size (b_st (pb_buf b))) ->
  let s := ps_run pw eps n ops in
  let raw := map (fun i => ipw (nth i (ps_arr s) 0 / lowest (ps_seen s))%Qc) index in
  batch_weight ipw false (pb_prio b) (map Z.of_nat index) = Ok raw
  /\ exists top ws, In top raw /\ (forall x, In x raw -> (0 < x)%Qc /\ (x <= top)%Qc)
    /\ batch_weight ipw true (pb_prio b) (map Z.of_nat index) = Ok ws
    /\ ws = map (fun x => (x / top)%Qc) raw
    /\ (forall w, In w ws -> (0 < w)%Qc /\ (w <= 1)%Qc) /\ In 1%Qc ws.
Proof. exact C16_normalised_weights_lemma. Qed.
Print Assumptions C16_normalised_weights.

(** C16, for the manager / vector buffer: exactly the stored indices have weight > 0 and, for
    positive draws, only stored indices are sampled. *)
Theorem C16_manager : forall pw eps (Ob A Inf R : Type) (r0 : R) radd (last_frame : Ob -> Ob) o ns
    (ops : list (pmop Ob A Inf R)) rnd_b rnd draw z,
  (forall x, (0 < x)%Qc -> (0 < pw x)%Qc) -> (0 < eps)%Qc -> (forall n, In n ns -> 0 < n) ->
  pmops_ok last_frame o ns [] ops ->
  exists m arr outs, pm_run pw eps r0 radd last_frame o (pm_init r0 ns) ops = Ok m
    /\ m_run r0 radd last_frame o (m_init r0 ns) (adds_of ops) = Ok (pm_mgr m, outs)
    /\ length arr = list_sum ns
    /\ (forall i, i < list_sum ns ->
          st_getitem (p_tree (pm_prio m)) (Z.of_nat i) = Ok (nth i arr 0%Qc)
          /\ (holds_row last_frame o ns (adds_of ops) i -> (0 < nth i arr 0)%Qc)
          /\ (~ holds_row last_frame o ns (adds_of ops) i -> nth i arr 0%Qc = 0%Qc))
    /\ ((exists i, holds_row last_frame o ns (adds_of ops) i) -> (0 < z)%Z ->
        (forall j, (0 < draw j)%Qc /\ (draw j < 1)%Qc) ->
        exists l, pm_sample_indices o m rnd_b rnd draw (Some z) = Ok l /\ length l = Z.to_nat z
          /\ Forall2 (fun k j => holds_row last_frame o ns (adds_of ops) j /\ draw_law arr (draw k) j)
               (seq 0 (Z.to_nat z)) l).
Proof. exact C16_manager_lemma. Qed.
Print Assumptions C16_manager.

(** C16.  One [add] on the manager: the reported indices get [pw max_prio], the others keep
    their weight. *)
Theorem C16_manager_add : forall pw eps (Ob A Inf R : Type) (r0 : R) radd (last_frame : Ob -> Ob) o ns
    (ops : list (pmop Ob A Inf R)) m ids ts,
  (forall x, (0 < x)%Qc -> (0 < pw x)%Qc) -> (0 < eps)%Qc -> (forall n, In n ns -> 0 < n) ->
  pmops_ok last_frame o ns [] ops -> pm_run pw eps r0 radd last_frame o (pm_init r0 ns) ops = Ok m ->
  mop_ok (length ns) (MAdd ids ts) ->
  exists m' rs, pm_add pw r0 radd last_frame o m ids ts = Ok (m', rs)
    /\ m_add r0 radd last_frame o (pm_mgr m) ids ts = Ok (pm_mgr m', rs)
    /\ p_max (pm_prio m') = p_max (pm_prio m) /\ p_min (pm_prio m') = p_min (pm_prio m)
    /\ forall i, i < list_sum ns ->
         st_getitem (p_tree (pm_prio m')) (Z.of_nat i)
         = if existsb (Nat.eqb i) (map (fun r => fst (fst (fst r))) rs)
           then Ok (pw (p_max (pm_prio m))) else st_getitem (p_tree (pm_prio m)) (Z.of_nat i).
Proof. exact C16_manager_add_lemma. Qed.
Print Assumptions C16_manager_add.

(** C60.  [get_weight] divides the stored weight [p^alpha] by the un-exponentiated [min_prio]:
    with alpha = 2, beta = 1 the least likely transition, which should have weight 1 in the
    formula quoted in the comment, gets weight 2 without [weight_norm]. *)
Theorem C60_weight_above_one_refuted : exists (b : pbuf nat nat unit Z) w0 w1,
  prun plain (pb_init 0%Z 3) [PAdd (zt 1 false); PAdd (zt 2 false); PWeights [0%Z] [qq 3 8]] = Ok b
  /\ get_weight (fun x => (/ x)%Qc) (pb_prio b) [0; 1]%Z = Ok [w0; w1]
  /\ w0 = qq 2 1 /\ (1 < w0)%Qc.
Proof. exact C60_weight_above_one_refuted_lemma. Qed.
Print Assumptions C60_weight_above_one_refuted.

(** C61.  [reset] keeps the weights: a later sample returns an index that is no longer stored. *)
Theorem C61_reset_stale_refuted : exists (b b' : pbuf nat nat unit Z),
  prun plain (pb_init 0%Z 3) [PAdd (zt 1 false); PAdd (zt 2 false); PAdd (zt 3 true)] = Ok b
  /\ prun plain (pb_reset 0%Z false b) [PAdd (zt 4 false)] = Ok b'
  /\ size (b_st (pb_buf b')) = 1
  /\ pb_sample_indices plain b' (fun _ => 0) (fun _ => qq 1 2) (Some 1%Z) = Ok [1].
Proof. exact C61_reset_stale_refuted_lemma. Qed.
Print Assumptions C61_reset_stale_refuted.

(** C62.  [sample_avail] is ignored: with stack_num = 2 the first step of an episode is sampled
    although [sample_indices(0)] leaves it out. *)
Theorem C62_sample_avail_refuted : exists (b : pbuf nat nat unit Z),
  let o := mkOpts 2 true false true in
  prun o (pb_init 0%Z 3) [PAdd (zt 1 false); PAdd (zt 2 false)] = Ok b
  /\ pb_sample_indices o b (fun _ => 0) (fun _ => 0%Qc) (Some 0%Z) = Ok [1]
  /\ pb_sample_indices o b (fun _ => 0) (fun _ => 0%Qc) (Some 1%Z) = Ok [0].
Proof. exact C62_sample_avail_refuted_lemma. Qed.
Print Assumptions C62_sample_avail_refuted.

(** C63.  [PrioritizedVectorReplayBuffer.set_beta] does not change the weights it returns. *)
Theorem C63_set_beta_refuted : forall p beta n beta' m index,
  vec_get_weight p (vec_set_beta (betas_init beta n) beta') m index = vec_get_weight p (betas_init beta n) m index.
Proof. exact C63_set_beta_refuted_lemma. Qed.
Print Assumptions C63_set_beta_refuted.

(** C64.  [update] from an empty buffer, a no-op for ReplayBuffer, reads [index[0]] of an empty
    array in a prioritized buffer. *)
Theorem C64_update_empty_refuted : forall n n2 (b : pbuf nat nat unit Z), 0 < n ->
  b = pb_init 0%Z n ->
  update (pb_buf b) (buf_init 0%Z n2) = Ok (pb_buf b, [])
  /\ pb_update (fun x => x) b (buf_init 0%Z n2) = Err IndexError.
Proof. exact C64_update_empty_refuted_lemma. Qed.
Print Assumptions C64_update_empty_refuted.

(** C65.  In a manager whose first sub-buffer is empty, a draw of exactly 0 returns index 0,
    which holds no transition. *)
Theorem C65_manager_draw_zero_refuted : exists (m : pmgr nat nat unit Z),
  pm_run (fun x => x) (qq 1 8) 0%Z Z.add (fun x : nat => x) plain (pm_init 0%Z [2; 2])
    [PMAdd (Some [1%Z]) [zt 1 false]] = Ok m
  /\ m_lens (pm_mgr m) = [0; 1]
  /\ pm_sample_indices plain m (fun _ => 0) (fun _ _ => 0) (fun _ => 0%Qc) (Some 1%Z) = Ok [0].
Proof. exact C65_manager_draw_zero_refuted_lemma. Qed.
Print Assumptions C65_manager_draw_zero_refuted.

(** C60.  For an exponent alpha in [0, 1] (then [x ** alpha >= min x 1]) the un-normalised weight of
    every stored transition is at most 1. *)
Theorem C60_small_alpha_partial : forall pw ipw eps (Ob A Inf R : Type) (r0 : R) radd (last_frame : Ob -> Ob) o n
    (ops : list (pop Ob A Inf R)) b index,
  (forall x, (0 < x)%Qc -> (x <= pw x \/ 1 <= pw x)%Qc) -> (forall x, (1 <= x)%Qc -> (ipw x <= 1)%Qc) -> (0 < eps)%Qc -> 0 < n ->
  pops_ok pw eps r0 radd last_frame o n (ps_init n) ops ->
  p_run pw eps r0 radd last_frame o (pb_init r0 n) ops = Ok b ->
  (forall i, In i index -> i < size (b_st (pb_buf b))) ->
  exists ws, get_weight ipw (pb_prio b) (map Z.of_nat index) = Ok ws /\ length ws = length index /\ forall w, In w ws -> (w <= 1)%Qc.
Proof. exact C60_small_alpha_partial_lemma. Qed.
Print Assumptions C60_small_alpha_partial.

(** C61.  After reset() and at least as many adds as there were rows before (or as fit into the
    buffer), only stored indices are sampled again. *)
Theorem C61_refilled_partial : forall pw eps (Ob A Inf R : Type) (r0 : R) radd (last_frame : Ob -> Ob) o n
    (ops : list (pop Ob A Inf R)) b keep ts b' rnd draw z,
  (forall x, (0 < x)%Qc -> (0 < pw x)%Qc) -> (0 < eps)%Qc -> 0 < n ->
  pops_ok pw eps r0 radd last_frame o n (ps_init n) ops ->
  p_run pw eps r0 radd last_frame o (pb_init r0 n) ops = Ok b ->
  p_run pw eps r0 radd last_frame o (pb_reset r0 keep b) (map PAdd ts) = Ok b' ->
  0 < length ts -> size (b_st (pb_buf b)) <= length ts -> (0 < z)%Z -> (forall j, (0 <= draw j)%Qc /\ (draw j < 1)%Qc) ->
  exists l, pb_sample_indices o b' rnd draw (Some z) = Ok l /\ length l = Z.to_nat z /\ forall j, In j l -> j < size (b_st (pb_buf b')).
Proof. exact C61_refilled_partial_lemma. Qed.
Print Assumptions C61_refilled_partial.

(** ** Non-vacuity: squares as [pw], eps = 1/8, capacity 3, four adds (wrap-around), two weight
    updates with a negative TD error, and an update from another buffer. *)
Definition pex_src : buf nat nat unit Z :=
  match zrun plain (buf_init 0%Z 2) [OpAdd (zt 7 false)] with Ok (b, _) => b | Err _ => buf_init 0%Z 2 end.
Definition pex_ops : list (pop nat nat unit Z) :=
  [PAdd (zt 1 false); PAdd (zt 2 true); PWeights [1; 0]%Z [qq (-15) 8; qq 3 8];
   PAdd (zt 3 false); PAdd (zt 4 false); PUpdate pex_src].
Definition psq (x : Qc) := (x * x)%Qc.
Lemma psq_pos x : (0 < x)%Qc -> (0 < psq x)%Qc.
Proof. unfold psq. intros. qcnra. Qed.
Example C16_ex_ok : pops_ok psq (qq 1 8) 0%Z Z.add (fun x => x) plain 3 (ps_init 3) pex_ops.
Proof.
  cbn [pops_ok pex_ops pop_ok]. split; [exact Logic.I|]. split; [exact Logic.I|].
  split; [|split; [exact Logic.I|split; [exact Logic.I|split; [|exact Logic.I]]]].
  - split; [discriminate|]. split; [reflexivity|].
    intros i [<-|[<-|[]]]; vm_compute; split; (discriminate || reflexivity).
  - exists 2, [kept (fun x => x) plain (zt 7 false)]. split; [lia|]. split; [|discriminate].
    apply (run_reach plain 2 [zt 7 false] (buf_init 0%Z 2) [] pex_src [(0, 0%Z, 0, 0)]); [constructor|vm_compute; reflexivity].
Qed.
(** max_prio became 2, so rows 2 (third add), 0 (fourth) and 1 (moved) got weight 4. *)
Example C16_ex_arr : map this (ps_arr (ps_run psq (qq 1 8) 3 pex_ops)) = [4 # 1; 4 # 1; 4 # 1]%Q
  /\ map this (ps_arr (ps_run psq (qq 1 8) 3 (firstn 3 pex_ops))) = [1 # 4; 4 # 1; 0]%Q.
Proof. vm_compute. auto. Qed.
Example C16_ex_seen : this (highest (ps_seen (ps_run psq (qq 1 8) 3 pex_ops))) = (2 # 1)%Q
  /\ this (lowest (ps_seen (ps_run psq (qq 1 8) 3 pex_ops))) = (1 # 2)%Q.
Proof. vm_compute. auto. Qed.
(** Weights 1/4, 4, 0: a draw below 1/17 of the total gives index 0, the others index 1. *)
Example C16_ex_sample : match p_run psq (qq 1 8) 0%Z Z.add (fun x : nat => x) plain (pb_init 0%Z 3) (firstn 3 pex_ops) with
  | Ok b => pb_sample_indices plain b (fun _ => 0) (fun j => qq (Z.of_nat j) 40) (Some 4%Z) = Ok [0; 0; 0; 1]
  | Err _ => False end.
Proof. vm_compute. reflexivity. Qed.
Example C16_ex_manager_ok : pmops_ok (fun x : nat => x) plain [2; 2] []
   [PMAdd (Some [1%Z]) [zt 1 false]; PMWeights [2%Z] [qq 3 8]; PMAdd None [zt 2 false; zt 3 true]].
Proof.
  cbn [pmops_ok]. split; [|split; [|split; [|exact Logic.I]]].
  - split; [reflexivity|]. split; [discriminate|]. intros i [<-|[]]. cbn. lia.
  - split; [discriminate|]. split; [reflexivity|]. intros i [<-|[]]. split; [lia|].
    exists 1. vm_compute. lia.
  - cbn. lia.
Qed.
(** The identity as [pw] and the inverse as [ipw] (alpha = beta = 1) meet the hypotheses of C60. *)
Example C60_ex_pw : (forall x, (0 < x)%Qc -> (x <= id x \/ 1 <= id x)%Qc) /\ (forall x, (1 <= x)%Qc -> (/ x <= 1)%Qc).
Proof.
  split; [intros x _; left; apply Qcle_refl|]. intros x Hx.
  assert (H : (0 < x)%Qc) by (apply Qclt_le_trans with 1%Qc; [reflexivity|exact Hx]).
  assert (N : x <> 0%Qc) by (intros E; rewrite E in H; discriminate H).
  assert (P : (0 < / x)%Qc).
  { destruct (Qclt_le_dec 0 (/ x)) as [G|G]; [exact G|]. exfalso.
    assert (X : (x * / x)%Qc = 1%Qc) by (apply Qcmult_inv_r; exact N). 
    assert (Y : (/ x * x <= 0 * x)%Qc) by (apply Qcmult_le_compat_r; [exact G|apply Qclt_le_weak; exact H]).
    rewrite (Qcmult_comm (/ x) x), X in Y. apply Y. reflexivity. }
  assert (Y : (1 * / x <= x * / x)%Qc) by (apply Qcmult_le_compat_r; [exact Hx|apply Qclt_le_weak; exact P]).
  rewrite Qcmult_inv_r in Y by exact N. rewrite Qcmult_1_l in Y. exact Y.
Qed.
Example C60_ex_ok : pops_ok id (qq 1 8) 0%Z Z.add (fun x => x) plain 3 (ps_init 3) (firstn 5 pex_ops).
Proof.
  cbn [pops_ok pex_ops pop_ok firstn]. split; [exact Logic.I|]. split; [exact Logic.I|].
  split; [|split; [exact Logic.I|split; [exact Logic.I|exact Logic.I]]].
  split; [discriminate|]. split; [reflexivity|].
  intros i [<-|[<-|[]]]; vm_compute; split; (discriminate || reflexivity).
Qed.
(** Weights 2, 2, 2 at the end; after the third operation 1/2 and 2: the un-normalised weights are 1 and 1/4. *)
Example C60_ex : match p_run id (qq 1 8) 0%Z Z.add (fun x : nat => x) plain (pb_init 0%Z 3) (firstn 3 pex_ops) with
  | Ok b => size (b_st (pb_buf b)) = 2
            /\ match get_weight Qcinv (pb_prio b) [0; 1]%Z with Ok ws => map this ws = [1; 1 # 4]%Q | Err _ => False end
  | Err _ => False end.
Proof. vm_compute. auto. Qed.
(** Two rows stored, reset, two adds: sampling gives stored indices. *)
Example C61_ex : match p_run id (qq 1 8) 0%Z Z.add (fun x : nat => x) plain (pb_init 0%Z 3) (firstn 3 pex_ops) with
  | Ok b => match p_run id (qq 1 8) 0%Z Z.add (fun x : nat => x) plain (pb_reset 0%Z false b) (map PAdd [zt 5 false; zt 6 true]) with
            | Ok b' => size (b_st (pb_buf b)) = 2 /\ size (b_st (pb_buf b')) = 2
                /\ pb_sample_indices plain b' (fun _ => 0) (fun j => qq (Z.of_nat j) 4) (Some 4%Z) = Ok [0; 0; 0; 1]
            | Err _ => False end
  | Err _ => False end.
Proof. vm_compute. auto. Qed.
