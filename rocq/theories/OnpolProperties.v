(** * Properties C135-C142: the on-policy learners *)
From Verif Require Import Py PyLemmas Num SplitModel StatModel BufferModel ReturnsModel OnpolModel OnpolProofs.
From Coq Require Import Permutation.
Open Scope nat_scope.

(** C135.  Without dual clipping, one entry of the objective is the advantage times the ratio clipped
    from one side only: from above for a non-negative, from below for a negative advantage. *)
Theorem C135_clip : forall eps r a, (0 <= eps)%Qc ->
  ((0 <= a)%Qc -> ppo_objective eps None r a = (a * Qcminb r (1 + eps))%Qc)
  /\ ((a < 0)%Qc -> ppo_objective eps None r a = (a * Qcmaxb r (1 - eps))%Qc).
Proof. exact C135_clip_lemma. Qed.
Print Assumptions C135_clip.

(** C135.  With dual clipping, for a negative advantage the ratio is clipped from above as well, by
    the constant [c]; a non-negative advantage is treated as before. *)
Theorem C135_dual : forall eps c r a, (0 <= eps)%Qc -> (1 < c)%Qc ->
  ((0 <= a)%Qc -> ppo_objective eps (Some c) r a = (a * Qcminb r (1 + eps))%Qc)
  /\ ((a < 0)%Qc -> ppo_objective eps (Some c) r a = (a * Qcminb c (Qcmaxb r (1 - eps)))%Qc).
Proof. exact C135_dual_lemma. Qed.
Print Assumptions C135_dual.

(** C135.  The objective is a lower bound of ratio * advantage unless the dual clip acts; at ratio 1
    (the weights with which the data were processed) it is the advantage itself; between 1 - eps and
    1 + eps (with dual clipping also at most [c]) it is ratio * advantage; for non-negative ratios
    dual clipping bounds it from below by [c] times a negative advantage. *)
Theorem C135_bounds : forall eps dual r a, (0 <= eps)%Qc -> (forall c, dual = Some c -> (1 < c)%Qc) ->
  (dual = None \/ (0 <= a)%Qc -> (ppo_objective eps dual r a <= r * a)%Qc)
  /\ ppo_objective eps dual 1 a = a
  /\ ((1 - eps <= r)%Qc -> (r <= 1 + eps)%Qc -> (forall c, dual = Some c -> (r <= c)%Qc) -> ppo_objective eps dual r a = (r * a)%Qc)
  /\ (forall c, dual = Some c -> (a < 0)%Qc -> (c * a <= ppo_objective eps dual r a)%Qc).
Proof. exact C135_bounds_lemma. Qed.
Print Assumptions C135_bounds.

(** C135.  The loss is minus the mean of the objectives of the rows: minimising it maximises them.
    At ratio 1 in every row it is minus the mean advantage. *)
Theorem C135_loss : forall eps dual rows, rows <> [] ->
  (ppo_clip_loss eps dual rows * sq (length rows) + qsum (map (fun x => ppo_objective eps dual (fst x) (snd x)) rows) = 0)%Qc
  /\ ((0 <= eps)%Qc -> (forall c, dual = Some c -> (1 < c)%Qc) -> (forall x, In x rows -> fst x = 1%Qc) ->
     (ppo_clip_loss eps dual rows * sq (length rows) + qsum (map snd rows) = 0)%Qc).
Proof. exact C135_loss_lemma. Qed.
Print Assumptions C135_loss.

(** C135.  Refuted for dual clipping in general: the constructor only asks for [c > 1], and when
    [c < 1 + eps] the dual clip already acts inside the interval of the ordinary clipping. *)
Theorem C135_inside_refuted : exists eps c r a, (0 < eps)%Qc /\ (1 < c)%Qc /\ (1 - eps <= r)%Qc /\ (r <= 1 + eps)%Qc
  /\ ppo_objective eps None r a = (r * a)%Qc /\ ppo_objective eps (Some c) r a <> (r * a)%Qc.
Proof. exact C135_inside_refuted_lemma. Qed.
Print Assumptions C135_inside_refuted.

(** C136.  Value clipping: the clipped value is within [eps_clip] of the old one; the loss is never
    smaller than without clipping, and it is the same as long as the value has moved by at most
    [eps_clip]. *)
Theorem C136_value : forall eps v_old ret value, (0 <= eps)%Qc ->
  (- eps <= v_clip eps v_old value - v_old)%Qc /\ (v_clip eps v_old value - v_old <= eps)%Qc
  /\ (ppo_vf false eps v_old ret value <= ppo_vf true eps v_old ret value)%Qc
  /\ ((- eps <= value - v_old)%Qc -> (value - v_old <= eps)%Qc ->
      ppo_vf true eps v_old ret value = ppo_vf false eps v_old ret value).
Proof. exact C136_value_lemma. Qed.
Print Assumptions C136_value.

(** C137.  Normalised advantages (of at least two rows) sum to zero, keep their order, and do not
    change when the same number is added to all advantages. *)
Theorem C137_normalised : forall sqrt eps adv, (forall x, 0 <= sqrt x)%Qc -> (0 < eps)%Qc -> 2 <= length adv ->
  exists l, norm_adv sqrt eps adv = Some l /\ length l = length adv /\ qsum l = 0%Qc
    /\ (forall i j a b x y, nth_error adv i = Some a -> nth_error adv j = Some b ->
          nth_error l i = Some x -> nth_error l j = Some y -> ((a < b)%Qc <-> (x < y)%Qc))
    /\ (forall k, norm_adv sqrt eps (map (fun a => (a + k)%Qc) adv) = Some l).
Proof. exact C137_normalised_lemma. Qed.
Print Assumptions C137_normalised.

(** C137.  With at least two rows and a batch size of at least two (or none given), no minibatch has
    less than two rows, so normalised advantages are always defined. *)
Theorem C137_rows : forall sqrt eps (adv : list Qc) batch_size perm cs, 2 <= length adv ->
  (forall n, batch_size = Some n -> (2 <= n)%Z) -> Permutation perm (seq 0 (length adv)) ->
  SplitModel.split (length adv) (split_size batch_size) (Some perm) true = Ok cs ->
  forall c, In c cs -> norm_adv sqrt eps (pick adv c) <> None.
Proof. exact C137_rows_lemma. Qed.
Print Assumptions C137_rows.

(** C137.  Refuted in general: with a batch size of 1, or if a single row was collected, the
    normalised advantages are NaN. *)
Theorem C137_nan_refuted : forall sqrt eps (adv : list Qc) perm, Permutation perm (seq 0 (length adv)) ->
  (exists cs, SplitModel.split (length adv) 1 (Some perm) true = Ok cs /\ length cs = length adv
     /\ forall c, In c cs -> norm_adv sqrt eps (pick adv c) = None)
  /\ (length adv = 1 -> exists cs, SplitModel.split 1 (split_size None) (Some perm) true = Ok cs
     /\ forall c, In c cs -> norm_adv sqrt eps (pick adv c) = None).
Proof. exact C137_nan_refuted_lemma. Qed.
Print Assumptions C137_nan_refuted.

(** C138.  Without recomputation, [learn] makes exactly repeat * max(1, n / batch_size) gradient steps
    (a missing batch size or 0 means one step per repetition); in each repetition every row of the
    batch is in exactly one minibatch, none of them has less than min(n, batch_size) rows, and the
    weights are those of the optimizer run over these minibatches in order. *)
Theorem C138_steps : forall (Ob A Inf W : Type) sqrt critic (opt : W -> list (mrow Ob A) -> W) c (b : ibuf Ob A Inf) ix
    batch_size perms p rows, c_recompute c = false -> rows <> [] ->
  (forall n, batch_size = Some n -> (0 <= n)%Z) ->
  Forall (fun perm => Permutation perm (seq 0 (length rows))) perms ->
  let n := length rows in
  let size := match batch_size with Some z => if (z =? 0)%Z then n else Z.to_nat z | None => n end in
  exists groups, ppo_learn sqrt critic opt c b ix batch_size perms p rows
      = Ok (mkPol (fold_left opt (concat groups) (p_w p)) (p_rms p), concat groups)
    /\ length (concat groups) = length perms * Nat.max 1 (n / size)
    /\ Forall (fun g => Permutation (concat g) rows /\ length g = Nat.max 1 (n / size)
                        /\ Forall (fun mb => Nat.min n size <= length mb) g) groups
    /\ length groups = length perms.
Proof. exact C138_steps_lemma. Qed.
Print Assumptions C138_steps.

(** C139.  [max_batchsize] only limits how many rows a network sees at once: values, returns,
    advantages, log probabilities and running statistics do not depend on it, and v_s is the critic's
    value of each observation. *)
Theorem C139_max_batch : forall (Ob A Inf W : Type) sqrt critic log_prob c c' (p : pol W) (b : ibuf Ob A Inf) rows ix,
  rows <> [] -> (1 <= c_max_batch c)%Z -> (1 <= c_max_batch c')%Z ->
  (c_rew_norm c, c_gamma c, c_lam c, c_eps c) = (c_rew_norm c', c_gamma c', c_lam c', c_eps c') ->
  ppo_process sqrt critic log_prob c p b rows ix = ppo_process sqrt critic log_prob c' p b rows ix
  /\ (forall p' x, compute_returns sqrt critic c p b rows ix = Ok (p', x) ->
        fst (fst x) = map (fun r => critic (p_w p) (o_obs r)) rows /\ p_w p' = p_w p).
Proof. exact C139_max_batch_lemma. Qed.
Print Assumptions C139_max_batch.

(** C140.  After [process_fn] the returns of every row are its advantage plus its value; with reward
    normalisation (where values and returns are kept divided by the running standard deviation, but
    advantages are not) this holds in units of rewards.  The running statistics are updated with the
    unnormalised returns, the scale is the one before the update. *)
Theorem C140_returns : forall (Ob A Inf W : Type) sqrt critic log_prob c (p p' : pol W) (b : ibuf Ob A Inf) rows ix rows',
  (forall x, 0 < x -> 0 < sqrt x)%Qc -> (0 < c_eps c)%Qc -> (0 <= r_var (p_rms p))%Qc ->
  ppo_process sqrt critic log_prob c p b rows ix = Ok (p', rows') ->
  let scale := if c_rew_norm c then sqrt (r_var (p_rms p) + c_eps c)%Qc else 1%Qc in
  Forall (fun r => m_ret r * scale = m_adv r + m_v r * scale)%Qc rows'
  /\ p_w p' = p_w p
  /\ (if c_rew_norm c then rms_update (p_rms p) (map (fun r => (m_ret r * scale)%Qc) rows') = Ok (p_rms p') else p_rms p' = p_rms p).
Proof. exact C140_returns_lemma. Qed.
Print Assumptions C140_returns.

(** C141.  With reward normalisation and without recomputation, every collected row enters the running
    statistics exactly once, over any sequence of updates. *)
Theorem C141_once : forall (Ob A Inf W : Type) sqrt critic log_prob opt c (b : ibuf Ob A Inf) bs us (p p' : pol W),
  c_rew_norm c = true -> c_recompute c = false ->
  foldM (fun q u => let* r := ppo_update sqrt critic log_prob opt c b bs u q in Ok (fst r)) us p = Ok p' ->
  r_count (p_rms p') = r_count (p_rms p) + list_sum (map (fun u => length (fst (fst u))) us).
Proof. exact C141_once_lemma. Qed.
Print Assumptions C141_once.

(** C141.  Refuted with [recompute_advantage]: the returns are recomputed at the start of each further
    repetition and enter the statistics again, so that n rows count as repeat * n samples. *)
Theorem C141_repeat_refuted : forall (Ob A Inf W : Type) sqrt critic log_prob opt c (b : ibuf Ob A Inf) bs rows ix perms (p p' : pol W) mbs,
  c_rew_norm c = true -> c_recompute c = true -> perms <> [] ->
  ppo_update sqrt critic log_prob opt c b bs (rows, ix, perms) p = Ok (p', mbs) ->
  r_count (p_rms p') = r_count (p_rms p) + length perms * length rows.
Proof. exact C141_repeat_refuted_lemma. Qed.
Print Assumptions C141_repeat_refuted.

(** C142.  The Monte Carlo returns of [PGPolicy]: with reward normalisation they are standardised with
    the statistics before the update, which are then updated with the raw returns; every row counts
    once.  Without it they are the raw returns. *)
Theorem C142_pg : forall (Ob A Inf W : Type) sqrt c (p p' : pol W) (b : ibuf Ob A Inf) rows ix returns,
  (forall x, 0 < x -> 0 < sqrt x)%Qc -> (0 < c_eps c)%Qc -> (0 <= r_var (p_rms p))%Qc ->
  pg_process sqrt c p b rows ix = Ok (p', returns) ->
  exists raw adv, compute_episodic_return b (map (fun r => (o_rew r, o_term r, o_trunc r)) rows) ix
      (Some (map (fun _ => r_mean (p_rms p)) ix)) None (c_gamma c) 1%Qc = Ok (raw, adv)
    /\ (c_rew_norm c = false -> returns = raw /\ p' = p)
    /\ (c_rew_norm c = true ->
         map (fun x => (x * sqrt (r_var (p_rms p) + c_eps c) + r_mean (p_rms p))%Qc) returns = raw
         /\ rms_update (p_rms p) raw = Ok (p_rms p') /\ r_count (p_rms p') = r_count (p_rms p) + length raw).
Proof. exact C142_pg_lemma. Qed.
Print Assumptions C142_pg.

Definition qz (z : Z) : Qc := Q2Qc (inject_Z z).
Example C135_ex : let e := Q2Qc (1#5) in let ob d r (a : Z) := this (ppo_objective e d (Q2Qc r) (qz a)) in
  map (fun r => ob None r 2%Z) [1#2; 1#1; 11#10; 2#1]%Q = [1#1; 2#1; 11#5; 12#5]%Q
  /\ map (fun r => ob None r (-1)%Z) [1#2; 1#1; 11#10; 5#1]%Q = [-4#5; -1#1; -11#10; -5#1]%Q
  /\ map (fun r => ob (Some (qz 2)) r (-1)%Z) [1#2; 1#1; 11#10; 5#1]%Q = [-4#5; -1#1; -11#10; -2#1]%Q.
Proof. repeat split; vm_compute; reflexivity. Qed.
Example C135_ex_hyp : (0 <= Q2Qc (1#5))%Qc /\ (1 < qz 2)%Qc.
Proof. split; vm_compute; congruence. Qed.
Example C135_ex_loss : this (ppo_clip_loss (Q2Qc (1#5)) None [(1%Qc, qz 3); (1%Qc, qz (-1))]) = (-1#1)%Q
  /\ this (ppo_clip_loss (Q2Qc (1#5)) None [(qz 2, qz 3); (Q2Qc (1#2), qz (-1))]) = (-7#5)%Q.
Proof. split; vm_compute; reflexivity. Qed.
Example C136_ex : this (v_clip (Q2Qc (1#5)) (qz 1) (qz 3)) = (6#5)%Q
  /\ this (ppo_vf true (Q2Qc (1#5)) (qz 1) (qz 3) (qz 3)) = (81#25)%Q /\ this (ppo_vf false (Q2Qc (1#5)) (qz 1) (qz 3) (qz 3)) = 0%Q.
Proof. repeat split; vm_compute; reflexivity. Qed.
(** The number 1 in place of a square root. *)
Example C137_ex : option_map (map this) (norm_adv (fun _ => 1%Qc) (qz 1) [qz 1; qz 2; qz 6]) = Some [-1#1; -1#2; 3#2]%Q
  /\ norm_adv (fun _ => 1%Qc) (qz 1) [qz 5] = None.
Proof. split; vm_compute; reflexivity. Qed.
Example C137_ex_rows : SplitModel.split 5 (split_size (Some 2%Z)) (Some [3; 0; 4; 1; 2]) true = Ok [[3; 0]; [4; 1; 2]]
  /\ SplitModel.split 5 (split_size (Some 0%Z)) (Some [3; 0; 4; 1; 2]) true = Ok [[3; 0; 4; 1; 2]].
Proof. split; vm_compute; reflexivity. Qed.

(** Weights: the list of the minibatches so far (as observations); the critic counts them. *)
Definition W0 := list (list nat).
Definition opt0 (w : W0) (mb : list (mrow nat nat)) : W0 := w ++ [map (fun r => o_obs (m_row r)) mb].
Definition critic0 (w : W0) (o : nat) : Qc := qz (Z.of_nat (o + length w)).
Definition row0 (i : nat) (r : Z) (term : bool) : orow nat nat := mkO i (S i) i (qz r) term false.
Definition rows0 := [row0 0 1 false; row0 1 2 false; row0 2 3 true; row0 3 4 false].
Definition slot0 (r : orow nat nat) : slot nat nat unit Qc :=
  mkSlot (o_obs r) (o_act r) (o_rew r) (o_term r) (o_trunc r) (o_term r || o_trunc r) (Some (o_next r)) tt.
Definition buf0 : ibuf nat nat unit := mkI (Some (map (fun r => Some (slot0 r)) rows0)) (fun l => Ok l) (Ok [3]).
Definition cf (norm recompute : bool) (m : Z) := mkCfg m norm 1%Qc 1%Qc 1%Qc recompute.
Definition pol0 : pol W0 := mkPol [] (rms_init 0 0).
Definition sqrt0 (x : Qc) : Qc := if Qcltb 0 x then qz 2 else 0%Qc.
Definition upd0 norm re m perms := ppo_update sqrt0 critic0 (fun _ _ _ => 0%Qc) opt0 (cf norm re m) buf0 (Some 2%Z) (rows0, [0; 1; 2; 3]%Z, perms) pol0.
Example C138_ex : exists p mbs, upd0 false false 3%Z [[3; 1; 0; 2]; [0; 1; 2; 3]] = Ok (p, mbs)
  /\ p_w p = [[3; 1]; [0; 2]; [0; 1]; [2; 3]] /\ length mbs = 4.
Proof. eexists _, _. split; [vm_compute; reflexivity|]. split; vm_compute; reflexivity. Qed.
Example C138_ex_hyp : Permutation [3; 1; 0; 2] (seq 0 (length rows0)).
Proof. apply Permutation_sym, NoDup_Permutation_bis; [apply seq_NoDup | cbn; lia |]. intros x Hx. cbn in Hx |- *. intuition. Qed.
Example C139_ex : exists p rows, ppo_process sqrt0 critic0 (fun _ _ _ => 0%Qc) (cf true false 1%Z) pol0 buf0 rows0 [0; 1; 2; 3]%Z = Ok (p, rows)
  /\ ppo_process sqrt0 critic0 (fun _ _ _ => 0%Qc) (cf true false 256%Z) pol0 buf0 rows0 [0; 1; 2; 3]%Z = Ok (p, rows)
  /\ map (fun r => this (m_v r)) rows = [0; 1; 2; 3]%Q
  /\ map (fun r => this (m_ret r)) rows = [3; 5#2; 3#2; 6]%Q
  /\ map (fun r => this (m_adv r)) rows = [6; 3; -1; 6]%Q /\ r_count (p_rms p) = 4.
Proof. eexists _, _. repeat split; vm_compute; reflexivity. Qed.
Example C140_ex_hyp : (forall x, 0 < x -> 0 < sqrt0 x)%Qc /\ (0 < c_eps (cf true false 1))%Qc /\ (0 <= r_var (p_rms pol0))%Qc.
Proof.
  split; [|split; vm_compute; congruence]. intros x Hx. unfold sqrt0. destruct (Qcltb_spec 0 x) as [_ | H].
  - vm_compute. reflexivity.
  - exfalso. exact (Qclt_not_le _ _ Hx H).
Qed.
Example C141_ex : exists p mbs, upd0 true false 3%Z [[3; 1; 0; 2]; [0; 1; 2; 3]] = Ok (p, mbs) /\ r_count (p_rms p) = 4.
Proof. eexists _, _. split; vm_compute; reflexivity. Qed.
Example C141_ex_recompute : exists p mbs, upd0 true true 3%Z [[3; 1; 0; 2]; [0; 1; 2; 3]] = Ok (p, mbs) /\ r_count (p_rms p) = 8.
Proof. eexists _, _. split; vm_compute; reflexivity. Qed.
(** The last row is unfinished: its successor is worth the running mean, 10. *)
Example C142_ex : exists p ret, pg_process sqrt0 (cf true false 1%Z) (mkPol ([] : W0) (mkR (qz 10) (qz 1) 5)) buf0 rows0 [0; 1; 2; 3]%Z = Ok (p, ret)
  /\ map this ret = [-2; -5#2; -7#2; 2]%Q /\ r_count (p_rms p) = 9.
Proof. eexists _, _. repeat split; vm_compute; reflexivity. Qed.
