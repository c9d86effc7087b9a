(** * Properties C157-C165: quantile learners and branching DQN *)
From Verif Require Import Py PyLemmas Num DqnModel DqnProofs StatModel StatProofs OfflineModel OfflineProofs QuantModel QuantProofs.
Open Scope nat_scope.

(** C157.  The fractions of QRDQN: n numbers strictly between 0 and 1, equally spaced and symmetric around 1/2. *)
Theorem C157_midpoints : forall n, 0 < n -> length (tau_hat n) = n
  /\ (forall i, i < n -> exists t, nth_error (tau_hat n) i = Some t /\ (0 < t)%Qc /\ (t < 1)%Qc /\ nth_error (tau_hat n) (n - 1 - i) = Some (1 - t)%Qc)
  /\ forall i t t', nth_error (tau_hat n) i = Some t -> nth_error (tau_hat n) (S i) = Some t' -> (t' - t = 1 / sq n)%Qc.
Proof. exact C157_midpoints_lemma. Qed.
Print Assumptions C157_midpoints.

(** C157.  The proposed fractions of FQF run from 0 to 1 (the sum of the probabilities) and never decrease; the midpoints lie
    between their neighbours, strictly if the probability is positive. *)
Theorem C157_proposed : forall probs, (forall p, In p probs -> (0 <= p)%Qc) -> qsum probs = 1%Qc ->
  length (taus_of probs) = S (length probs) /\ nth 0 (taus_of probs) 0%Qc = 0%Qc /\ nth (length probs) (taus_of probs) 0%Qc = 1%Qc
  /\ length (tau_hats_of probs) = length probs
  /\ forall i p, nth_error probs i = Some p -> exists h, nth_error (tau_hats_of probs) i = Some h
       /\ (0 <= nth i (taus_of probs) 0%Qc)%Qc /\ nth (S i) (taus_of probs) 0%Qc = (nth i (taus_of probs) 0%Qc + p)%Qc /\ (nth (S i) (taus_of probs) 0%Qc <= 1)%Qc
       /\ (h = nth i (taus_of probs) 0%Qc + half * p)%Qc.
Proof. exact C157_proposed_lemma. Qed.
Print Assumptions C157_proposed.

(** C157.  The value of an action in FQF is the mean of its quantile values under the proposed probabilities, so it lies between
    their smallest and largest one. *)
Theorem C157_value : forall probs z lo hi, length z = length probs -> (forall p, In p probs -> (0 <= p)%Qc) -> qsum probs = 1%Qc ->
  (forall x, In x z -> (lo <= x)%Qc /\ (x <= hi)%Qc) ->
  fqf_q (taus_of probs) z = qdot probs z /\ (lo <= fqf_q (taus_of probs) z)%Qc /\ (fqf_q (taus_of probs) z <= hi)%Qc.
Proof. exact C157_value_lemma. Qed.
Print Assumptions C157_value.

(** C158.  The loss of a row is never negative, and zero exactly if every current quantile value equals every target; it only depends
    on differences.  The same holds for the priority, which ignores the fractions. *)
Theorem C158_zero : forall taus curr targets, length taus = length curr -> curr <> [] -> targets <> [] ->
  Forall (fun t => (0 < t)%Qc /\ (t < 1)%Qc) taus ->
  exists l, quantile_row taus curr targets = Ok l /\ (0 <= l)%Qc /\ (0 <= quantile_priority curr targets)%Qc
    /\ (l = 0%Qc <-> forall c t, In c curr -> In t targets -> t = c)
    /\ (quantile_priority curr targets = 0%Qc <-> forall c t, In c curr -> In t targets -> t = c)
    /\ forall k, quantile_row taus (map (fun c => (c + k)%Qc) curr) (map (fun c => (c + k)%Qc) targets) = Ok l.
Proof. exact C158_zero_lemma. Qed.
Print Assumptions C158_zero.

(** C158.  The loss of a batch is the mean of the rows' losses, each multiplied by the weight of its row. *)
Theorem C158_batch : forall (rows : list (list Qc * list Qc * list Qc * Qc)), rows <> [] ->
  (forall x, In x rows -> length (fst (fst (fst x))) = length (snd (fst (fst x)))) ->
  exists l losses, quantile_loss rows = Ok l /\ length losses = length rows
    /\ (forall i taus curr targets w, nth_error rows i = Some (taus, curr, targets, w) -> exists r, quantile_row taus curr targets = Ok r /\ nth_error losses i = Some (w * r)%Qc)
    /\ (l * sq (length rows))%Qc = qsum losses.
Proof. exact C158_batch_lemma. Qed.
Print Assumptions C158_batch.

(** C158.  The fractions and the quantile values have to be equally many. *)
Theorem C158_shapes : forall taus curr targets, length taus <> length curr -> quantile_row taus curr targets = Err RuntimeError.
Proof. exact C158_shapes_lemma. Qed.
Print Assumptions C158_shapes.

(** C159.  Quantiles that minimise their loss do not cross: a larger fraction never has a smaller minimiser. *)
Theorem C159_no_crossing : forall tau tau' targets c c', targets <> [] -> (0 <= tau)%Qc -> (tau < tau')%Qc -> (tau' <= 1)%Qc ->
  (forall x, (quantile_term tau targets c <= quantile_term tau targets x)%Qc) ->
  (forall x, (quantile_term tau' targets c' <= quantile_term tau' targets x)%Qc) -> (c <= c')%Qc.
Proof. exact C159_no_crossing_lemma. Qed.
Print Assumptions C159_no_crossing.

(** C159.  A minimiser lies between the smallest and the largest target. *)
Theorem C159_between : forall tau targets c lo hi, targets <> [] -> (0 < tau)%Qc -> (tau < 1)%Qc ->
  (forall t, In t targets -> (lo <= t)%Qc /\ (t <= hi)%Qc) ->
  (forall x, (quantile_term tau targets c <= quantile_term tau targets x)%Qc) -> (lo <= c)%Qc /\ (c <= hi)%Qc.
Proof. exact C159_between_lemma. Qed.
Print Assumptions C159_between.

(** C160.  If the quantile values increase with the fraction, the gradient of fraction i is 2 q_i - z_i - z_(i+1). *)
Theorem C160_gradient : forall hats qs, length hats = S (length qs) ->
  (forall i q, nth_error qs i = Some q -> (nth i (firstn 1 hats ++ removelast qs) 0 < q)%Qc /\ (q < nth i (tl qs ++ skipn (length qs) hats) 0)%Qc) ->
  length (fraction_gradient hats qs) = length qs
  /\ forall i q h h', nth_error qs i = Some q -> nth_error hats i = Some h -> nth_error hats (S i) = Some h' ->
       nth_error (fraction_gradient hats qs) i = Some ((q - h) + (q - h'))%Qc.
Proof. exact C160_gradient_lemma. Qed.
Print Assumptions C160_gradient.

(** C161.  With [is_double = True], or without a target network, the target is the documented one. *)
Theorem C161_double : forall use_target is_double value z_new z_old, length z_new = length z_old -> z_new <> [] ->
  is_double = true \/ use_target = false ->
  exists z, qr_target use_target is_double value z_new z_old = Ok z /\ spec_qr_target use_target is_double value z_new z_old = Some z.
Proof. exact C161_double_lemma. Qed.
Print Assumptions C161_double.

(** C161.  [is_double = False] changes nothing: the online network always chooses the action. *)
Theorem C161_ignored_refuted : (forall use_target value z_new z_old, qr_target use_target false value z_new z_old = qr_target use_target true value z_new z_old)
  /\ exists value z_new z_old z, length z_new = length z_old /\ qr_target true false value z_new z_old = Ok z /\ spec_qr_target true false value z_new z_old <> Some z.
Proof. exact C161_ignored_refuted_lemma. Qed.
Print Assumptions C161_ignored_refuted.

(** C162.  The value of a branch: that of the evaluating network for an action that is best in this branch according to the online network
    ([is_double]) or to the evaluating network. *)
Theorem C162_branch : forall (Ob : Type) (q_new q_old : Ob -> list (list Qc)) use_target is_double o k row_new row_eval,
  nth_error (q_new o) k = Some row_new -> nth_error (if use_target : bool then q_old o else q_new o) k = Some row_eval -> length row_new = length row_eval -> row_new <> [] ->
  exists a v, nth_error (bdq_branch_values q_new q_old use_target is_double o) k = Some v /\ nth_error row_eval a = Some v /\
    exists m, nth_error (if is_double : bool then row_new else row_eval) a = Some m /\ forall x, In x (if is_double : bool then row_new else row_eval) -> (x <= m)%Qc.
Proof. exact C162_branch_lemma. Qed.
Print Assumptions C162_branch.

(** C162.  With more than one row, or one branch, every row's target is its reward plus, unless it ended, 0.99 times the mean over the
    branches of the value of the chosen action. *)
Theorem C162_targets : forall (Ob : Type) (q_new q_old : Ob -> list (list Qc)) nb discount use_target is_double batch,
  (forall o, length (q_new o) = nb) -> (forall o, length (q_old o) = nb) -> 0 < nb -> 2 <= length batch \/ (nb = 1 /\ batch <> []) ->
  exists l, bdq_returns q_new q_old discount use_target is_double batch = Ok l /\ length l = length batch
    /\ forall i r, nth_error batch i = Some r ->
         nth_error l i = Some (spec_target (w_rew r) (w_done r || w_unfinished r) (Q2Qc (99 # 100)) (np_mean (bdq_branch_values q_new q_old use_target is_double (w_next r)))).
Proof. exact C162_targets_lemma. Qed.
Print Assumptions C162_targets.

(** C162.  The discount factor of the policy is not used. *)
Theorem C162_discount_refuted : (forall (Ob : Type) (q_new q_old : Ob -> list (list Qc)) d d' use_target is_double batch,
    bdq_returns q_new q_old d use_target is_double batch = bdq_returns q_new q_old d' use_target is_double batch)
  /\ exists (q : unit -> list (list Qc)) batch l r, bdq_returns q q 0%Qc false true batch = Ok l /\ nth_error batch 0 = Some r
     /\ nth_error l 0 <> Some (spec_target (w_rew r) (w_done r || w_unfinished r) 0%Qc (np_mean (bdq_branch_values q q false true tt))).
Proof. exact C162_discount_refuted_lemma. Qed.
Print Assumptions C162_discount_refuted.

(** C162.  The last stored step of an episode that goes on is treated as terminal. *)
Theorem C162_unfinished_refuted : forall (Ob : Type) (q_new q_old : Ob -> list (list Qc)) nb discount use_target is_double batch i r,
  (forall o, length (q_new o) = nb) -> (forall o, length (q_old o) = nb) -> 0 < nb -> 2 <= length batch ->
  nth_error batch i = Some r -> w_done r = false -> w_unfinished r = true ->
  exists l, bdq_returns q_new q_old discount use_target is_double batch = Ok l /\ nth_error l i = Some (w_rew r).
Proof. exact C162_unfinished_refuted_lemma. Qed.
Print Assumptions C162_unfinished_refuted.

(** C162.  With a single row and several branches the targets are those of the branches, one each, not their mean, along the axis of
    the rows: the errors are a square, and there are as many priorities as branches for one transition. *)
Theorem C162_single_row_refuted : forall (Ob : Type) (q_new q_old : Ob -> list (list Qc)) nb discount use_target is_double r row,
  (forall o, length (q_new o) = nb) -> (forall o, length (q_old o) = nb) -> 2 <= nb -> length row = nb ->
  exists l td, bdq_returns q_new q_old discount use_target is_double [r] = Ok l /\ length l = nb
    /\ (forall k v, nth_error (bdq_branch_values q_new q_old use_target is_double (w_next r)) k = Some v ->
          nth_error l k = Some (spec_target (w_rew r) (w_done r || w_unfinished r) (Q2Qc (99 # 100)) v))
    /\ bdq_td l [row] = Ok td /\ length td = nb /\ length (bdq_priority td) = nb.
Proof. exact C162_single_row_refuted_lemma. Qed.
Print Assumptions C162_single_row_refuted.

(** C163.  The loss of a batch with positive weights is zero exactly if every branch of every row meets its target. *)
Theorem C163_loss : forall weight td, length weight = length td -> td <> [] -> Forall (fun w => (0 < w)%Qc) weight -> Forall (fun r => r <> []) td ->
  (0 <= bdq_loss weight td)%Qc /\ (bdq_loss weight td = 0%Qc <-> forall r d, In r td -> In d r -> d = 0%Qc).
Proof. exact C163_loss_lemma. Qed.
Print Assumptions C163_loss.

(** C163.  The priority is the sum of the errors, so errors of opposite sign in different branches cancel: a transition with arbitrarily large
    errors can get the priority of a perfectly predicted one. *)
Theorem C163_cancel_refuted : forall x, bdq_priority [[x; (- x)%Qc]] = bdq_priority [[0%Qc; 0%Qc]] /\ (x <> 0%Qc -> bdq_loss [1%Qc] [[x; (- x)%Qc]] <> 0%Qc).
Proof. exact C163_cancel_refuted_lemma. Qed.
Print Assumptions C163_cancel_refuted.

(** C163.  With one branch the priority is its error. *)
Theorem C163_one_branch : forall l, bdq_priority (map (fun d => [d]) l) = l.
Proof. exact C163_one_branch_lemma. Qed.
Print Assumptions C163_one_branch.

(** C164.  Without a mask exploration keeps every branch's action in range. *)
Theorem C164_range : forall near0 eps u rand act n, Forall (Forall (fun a => (0 <= a < n)%Z)) rand -> Forall (Forall (fun a => (0 <= a < n)%Z)) act ->
  Forall (Forall (fun a => (0 <= a < n)%Z)) (bdq_explore near0 eps u rand None act)
  /\ (near0 = true -> bdq_explore near0 eps u rand None act = act).
Proof. exact C164_range_lemma. Qed.
Print Assumptions C164_range.

(** C164.  With a mask (True: allowed) the mask is added to the random action: for any number of actions, an allowed last action becomes one
    that does not exist. *)
Theorem C164_mask_refuted : forall n eps, (0 < n)%Z -> (0 < eps)%Qc -> bdq_explore false eps [0%Qc] [[(n - 1)%Z]] (Some [[1%Z]]) [[0%Z]] = [[n]].
Proof. exact C164_mask_refuted_lemma. Qed.
Print Assumptions C164_mask_refuted.

(** C165.  The conservative term of discrete CQL is never negative, for every function that is at least the maximum. *)
Theorem C165_nonneg : forall lse rows, (forall l x, In x l -> (x <= lse l)%Qc) -> rows <> [] -> Forall (fun r => snd r < length (fst r)) rows ->
  (0 <= cql_min_q_loss lse rows)%Qc
  /\ (forall k, (forall l, lse (map (fun x => (x + k)%Qc) l) = (lse l + k)%Qc) ->
        cql_min_q_loss lse (map (fun r => (map (fun x => (x + k)%Qc) (fst r), snd r)) rows) = cql_min_q_loss lse rows).
Proof. exact C165_nonneg_lemma. Qed.
Print Assumptions C165_nonneg.

(** C159. The Huber loss is even, nowhere negative and lies between the absolute value less one half and half the square: it has no
    jump where the two branches meet. *)
Theorem C159_huber : forall d : Qc,
  huber (- d) = huber d /\ (0 <= huber d)%Qc /\ (qabs d - half <= huber d)%Qc /\ (huber d <= half * (d * d))%Qc /\ (huber d <= qabs d)%Qc.
Proof. exact C159_huber_lemma. Qed.
Print Assumptions C159_huber.

Definition uz (z : Z) : Qc := Q2Qc (inject_Z z).
Example C157_ex : map this (tau_hat 4) = [1 # 8; 3 # 8; 5 # 8; 7 # 8]%Q
  /\ map this (taus_of [Q2Qc (1#2); Q2Qc (1#4); Q2Qc (1#4)]) = [0; 1 # 2; 3 # 4; 1]%Q
  /\ map this (tau_hats_of [Q2Qc (1#2); Q2Qc (1#4); Q2Qc (1#4)]) = [1 # 4; 5 # 8; 7 # 8]%Q
  /\ this (fqf_q (taus_of [Q2Qc (1#2); Q2Qc (1#4); Q2Qc (1#4)]) [uz 0; uz 4; uz 8]) = 3%Q.
Proof. repeat split; vm_compute; reflexivity. Qed.
(** Targets 3 and 3; quantiles 3 (no loss) and 1 (distance 2, Huber loss 3/2, fraction 3/4). *)
Example C158_ex : match quantile_row (tau_hat 2) [uz 3; uz 1] [uz 3; uz 3] with Ok l => this l = (9 # 8)%Q | Err _ => False end
  /\ this (quantile_priority [uz 3; uz 1] [uz 3; uz 3]) = (3 # 2)%Q /\ quantile_row (tau_hat 2) [uz 3] [uz 3] = Err RuntimeError
  /\ Forall (fun t => (0 < t)%Qc /\ (t < 1)%Qc) (tau_hat 2).
Proof. split; [vm_compute; reflexivity|]. split; [vm_compute; reflexivity|]. split; [reflexivity|]. repeat constructor; vm_compute; reflexivity. Qed.
(** One target: the minimiser of every fraction is the target. *)
Example C159_ex : forall tau, (0 < tau)%Qc -> (tau < 1)%Qc -> forall x, (quantile_term tau [uz 3] (uz 3) <= quantile_term tau [uz 3] x)%Qc.
Proof.
  intros tau H0 H1 x. destruct (term_nonneg tau (uz 3) (uz 3) H0 H1) as [_ [_ Z]]. unfold quantile_term. cbn [map qsum]. rewrite (Z eq_refl).
  destruct (term_nonneg tau (uz 3) x H0 H1) as [N _]. qclra.
Qed.
Example C160_ex : map this (fraction_gradient [uz 0; uz 2; uz 5] [uz 1; uz 4]) = [0; 1]%Q
  /\ map this (fraction_gradient [uz 0; uz 2; uz 5] [uz 4; uz 1]) = [2; -3]%Q.
Proof. split; vm_compute; reflexivity. Qed.
Example C161_ex : qr_target true true qr_q [[uz 1; uz 3]; [uz 0; uz 1]] [[uz 7; uz 8]; [uz 9; uz 10]] = Ok [uz 7; uz 8].
Proof. vm_compute. reflexivity. Qed.
Example C162_ex : match bdq_returns (fun o : Z => [[uz o; 0%Qc]; [0%Qc; uz 3]]) (fun _ => [[0%Qc]; [0%Qc]]) (uz 5) false true
    [mkB (uz 1) false false 5%Z; mkB (uz 1) true false 5%Z; mkB (uz 1) false true 5%Z] with Ok l => map this l = [124 # 25; 1; 1]%Q | Err _ => False end
  /\ match bdq_returns (fun o : Z => [[uz o; 0%Qc]; [0%Qc; uz 3]]) (fun _ => [[0%Qc]; [0%Qc]]) (uz 5) false true [mkB (uz 1) false false 5%Z] with
     Ok l => map this l = [119 # 20; 397 # 100]%Q | Err _ => False end.
Proof. split; vm_compute; reflexivity. Qed.
Example C163_ex : this (bdq_loss [1%Qc; uz 2] [[uz 1; uz 3]; [uz 0; uz 2]]) = (9 # 2)%Q /\ map this (bdq_priority [[uz 1; uz 3]; [uz 5; - uz 5]%Qc]) = [4; 0]%Q.
Proof. split; vm_compute; reflexivity. Qed.
Example C164_ex : bdq_explore false (Q2Qc (1#2)) [Q2Qc (1#4); Q2Qc (3#4)] [[2; 0]; [1; 1]]%Z None [[0; 1]; [2; 2]]%Z = [[2; 0]; [2; 2]]%Z.
Proof. vm_compute. reflexivity. Qed.
(** The maximum plus one is such a function on lists of non-negative numbers; here the values. *)
Example C165_ex : this (cql_min_q_loss (fun l => fold_right Qcmaxb 0%Qc l) [([uz 1; uz 3], 0); ([uz 2; uz 2], 1)]) = 1%Q.
Proof. vm_compute. reflexivity. Qed.
