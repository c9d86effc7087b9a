(** * Properties C148-C156: offline learners *)
From Verif Require Import Py PyLemmas Num BufferModel BufferSpec BufferProofs BufferMainProofs ManagerModel ManagerSpec ReturnsModel ReturnsSpec
  ReturnsProofs ReturnsMainProofs DqnModel DqnProofs StatModel StatProofs OfflineModel OfflineProofs.
From Coq Require Import Permutation.
Open Scope nat_scope.

(** C148.  process_buffer gives the storage row of the [p]-th oldest transition, row [idx[p]], the return-to-go of
    another one: the [idx[p]]-th oldest. *)
Theorem C148_column : forall (Ob A Inf : Type) (r0 : Qc) radd (last_frame : Ob -> Ob) o n (b : buf Ob A Inf Qc) q rnd idx gamma,
  0 < n -> reach r0 radd last_frame o n b q -> q <> [] -> sample_indices plain b rnd (Some 0%Z) = Ok idx ->
  exists col, process_buffer true (buf_view b) idx gamma None = Ok (Some col) /\ length col = length q
    /\ forall p, p < length q -> calibration_of col (nth p idx 0) = Ok (return_to_go q gamma (nth p idx 0)).
Proof. exact C148_column_lemma. Qed.
Print Assumptions C148_column.

(** C148.  So in a buffer that is not full, or whose next write goes to row 0, every row gets its own
    return-to-go. *)
Theorem C148_not_wrapped : forall (Ob A Inf : Type) (r0 : Qc) radd (last_frame : Ob -> Ob) o n (b : buf Ob A Inf Qc) q rnd idx gamma,
  0 < n -> reach r0 radd last_frame o n b q -> q <> [] -> sample_indices plain b rnd (Some 0%Z) = Ok idx ->
  size (b_st b) < n \/ ins (b_st b) = 0 ->
  exists col, process_buffer true (buf_view b) idx gamma None = Ok (Some col)
    /\ forall p, p < length q -> nth p idx 0 = p /\ calibration_of col p = Ok (return_to_go q gamma p).
Proof. exact C148_not_wrapped_lemma. Qed.
Print Assumptions C148_not_wrapped.

(** C148.  Once the buffer has wrapped around, rows get the returns of other rows. *)
Theorem C148_wrapped_refuted : exists n (b : buf nat nat unit Qc) q idx col p, reach 0%Qc Qcplus (fun x => x) plain n b q
  /\ sample_indices plain b (fun _ => 0) (Some 0%Z) = Ok idx /\ process_buffer true (buf_view b) idx 1%Qc None = Ok (Some col)
  /\ p < length q /\ calibration_of col (nth p idx 0) <> Ok (return_to_go q 1%Qc p).
Proof. exact C148_wrapped_refuted_lemma. Qed.
Print Assumptions C148_wrapped_refuted.

(** C148.  In a vector buffer with a sub-buffer that is not full, a stored row gets the return of a row of
    another sub-buffer, and sampling another one raises. *)
Theorem C148_vector_refuted : exists (m : mgr nat nat unit Qc) outs idx col, 
  m_run 0%Qc Qcplus (fun x => x) plain (m_init 0%Qc [2; 2]) [MAdd None [qt 1 true false; qt 5 true false]; MAdd (Some [1%Z]) [qt 7 true false]] = Ok (m, outs)
  /\ m_sample_indices plain m (fun _ => 0) (fun _ _ => 0) (Some 0%Z) = Ok idx /\ idx = [0; 2; 3]
  /\ process_buffer true (mgr_view m) idx 1%Qc None = Ok (Some col)
  /\ calibration_of col 2 = Ok (qz 7) /\ calibration_of col 3 = Err IndexError.
Proof. exact C148_vector_refuted_lemma. Qed.
Print Assumptions C148_vector_refuted.

(** C148.  A second trainer on the same buffer raises: the key exists already. *)
Theorem C148_twice_refuted : forall (Ob A Inf : Type) (b : ibuf Ob A Inf) idx gamma col,
  process_buffer true b idx gamma None = Ok (Some col) -> process_buffer true b idx gamma (Some col) = Err TypeError.
Proof. exact C148_twice_refuted_lemma. Qed.
Print Assumptions C148_twice_refuted.

(** C149.  CQL and discrete CRR: without truncation ([done] = [terminated]) the targets bootstrap exactly
    from the next states that are not terminal; a row's target depends on that row only. *)
Theorem C149_targets : forall alpha gamma,
  (forall batch i r d q lp, nth_error batch i = Some (r, d, q, lp) ->
     nth_error (cql_targets alpha gamma batch) i = Some (spec_target r d gamma (q - alpha * lp)%Qc))
  /\ (forall batch i r d q p, nth_error batch i = Some (r, d, (q, p)) ->
     nth_error (crr_targets gamma batch) i = Some (spec_target r d gamma (qdot q p))).
Proof. exact C149_targets_lemma. Qed.
Print Assumptions C149_targets.

(** C149.  They use [done], so a step that was only truncated (time limit) gets its reward as target,
    whatever its next state is worth; likewise in BCQ (C150_targets). *)
Theorem C149_truncated_refuted : forall alpha gamma (r q lp : Qc) (qs ps : list Qc) (term trunc : bool),
  term = false -> trunc = true ->
  cql_targets alpha gamma [(r, term || trunc, q, lp)] = [r] /\ crr_targets gamma [(r, term || trunc, (qs, ps))] = [r]
  /\ ((gamma * (q - alpha * lp))%Qc <> 0%Qc -> cql_targets alpha gamma [(r, term || trunc, q, lp)] <> [spec_target r term gamma (q - alpha * lp)%Qc])
  /\ ((gamma * qdot qs ps)%Qc <> 0%Qc -> crr_targets gamma [(r, term || trunc, (qs, ps))] <> [spec_target r term gamma (qdot qs ps)]).
Proof. exact C149_truncated_refuted_lemma. Qed.
Print Assumptions C149_truncated_refuted.

(** C150.  The target of every row: its reward plus, unless it is done, the discounted maximum over the
    actions sampled for its own next observation. *)
Theorem C150_targets : forall (Ob A : Type) (q1 q2 : Ob -> A -> Qc) (decode : nat -> Ob -> A) num lmbda gamma batch i r d s,
  nth_error batch i = Some (r, d, s) ->
  nth_error (bcq_targets q1 q2 decode num lmbda gamma batch) i
  = Some (spec_target r d gamma (maxl (map (fun j => let a := decode (i * num + j) s in clipped lmbda (q1 s a) (q2 s a)) (seq 0 num)))).
Proof. exact C150_targets_lemma. Qed.
Print Assumptions C150_targets.

(** C150.  Soft clipped double Q-learning: for [lmbda] in [0, 1] the value is between the smaller and the
    larger one, and the smaller one for [lmbda = 1]. *)
Theorem C150_clipped : forall lmbda x y, (0 <= lmbda)%Qc -> (lmbda <= 1)%Qc ->
  (Qcminb x y <= clipped lmbda x y)%Qc /\ (clipped lmbda x y <= Qcmaxb x y)%Qc /\ clipped lmbda x y = clipped lmbda y x /\ clipped 1 x y = Qcminb x y.
Proof. exact C150_clipped_lemma. Qed.
Print Assumptions C150_clipped.

(** C150.  [forward] returns one of the candidate actions, with the highest value. *)
Theorem C150_forward : forall (Ob A : Type) (q : Ob -> A -> Qc) s acts d, acts <> [] ->
  In (bcq_forward q s acts d) acts /\ forall a, In a acts -> (q s a <= q s (bcq_forward q s acts d))%Qc.
Proof. exact C150_forward_lemma. Qed.
Print Assumptions C150_forward.

(** C151.  With calibration every value of row [i] is replaced by its maximum with the return of row [i]. *)
Theorem C151_rows : forall n rets random current next i k r x y z,
  nth_error rets i = Some r -> k < n ->
  nth_error random (i * n + k) = Some x -> nth_error current (i * n + k) = Some y -> nth_error next (i * n + k) = Some z ->
  nth_error (cat_q n (Some rets) random current next) (i * n + k) = Some [Qcmaxb x r; Qcmaxb y r; Qcmaxb z r]
  /\ nth_error (cat_q n None random current next) (i * n + k) = Some [x; y; z].
Proof. exact C151_rows_lemma. Qed.
Print Assumptions C151_rows.

(** C151.  The comment "shape: (batch_size, 3 * num_repeat, 1)": the log-sum-exp of a row should run over all its
    [3 n] values.  The result of [reshape] is dropped, so it runs over three values at a time; with
    [n >= 2] repetitions the term is strictly smaller for every batch, for any log-sum-exp that is
    symmetric and grows with every further value. *)
Theorem C151_reshape_refuted : forall (lse : list Qc -> Qc) temp weight n (rows : list (list (Qc * Qc * Qc))) current_q,
  (forall l l', Permutation l l' -> lse l = lse l') -> (forall l m, m <> [] -> (lse l < lse (l ++ m))%Qc) ->
  (0 < temp)%Qc -> (0 < weight)%Qc -> 2 <= n -> rows <> [] -> Forall (fun row => length row = n) rows ->
  let t := concat rows in
  (cql_term lse temp weight n None (map (fun t => fst (fst t)) t) (map (fun t => snd (fst t)) t) (map snd t) current_q
   < np_mean (map (fun row => lse (map (fun x => x / temp) (row_values row))) rows) * weight * temp - np_mean current_q * weight)%Qc.
Proof. exact C151_reshape_refuted_lemma. Qed.
Print Assumptions C151_reshape_refuted.

(** C151.  With a single repetition they agree. *)
Theorem C151_single : forall (lse : list Qc -> Qc) temp weight (rows : list (Qc * Qc * Qc)) current_q,
  cql_term lse temp weight 1 None (map (fun t => fst (fst t)) rows) (map (fun t => snd (fst t)) rows) (map snd rows) current_q
  = (np_mean (map (fun row => lse (map (fun x => x / temp) (row_values [row]))) rows) * weight * temp - np_mean current_q * weight)%Qc.
Proof. exact C151_single_lemma. Qed.
Print Assumptions C151_single.

(** C151.  The multiplier stays between its bounds. *)
Theorem C151_alpha : forall e lo hi, (lo <= hi)%Qc -> (lo <= cql_alpha e lo hi)%Qc /\ (cql_alpha e lo hi <= hi)%Qc
  /\ ((lo <= e)%Qc -> (e <= hi)%Qc -> cql_alpha e lo hi = e).
Proof. exact C151_alpha_lemma. Qed.
Print Assumptions C151_alpha.

(** C152.  The random actions: an error if [-min > max], otherwise between [-min] and [max]. *)
Theorem C152_range : forall lo hi u, Forall (fun x => (0 <= x)%Qc /\ (x < 1)%Qc) u ->
  ((hi < - lo)%Qc -> cql_random_actions lo hi u = Err RuntimeError)
  /\ ((- lo <= hi)%Qc -> exists l, cql_random_actions lo hi u = Ok l /\ length l = length u /\ Forall (fun x => (- lo <= x)%Qc /\ (x <= hi)%Qc) l).
Proof. exact C152_range_lemma. Qed.
Print Assumptions C152_range.

(** C152.  For every symmetric range (the default is [-1, 1]) all "random" actions are the largest one,
    whatever is drawn. *)
Theorem C152_constant_refuted : forall hi u, cql_random_actions (- hi)%Qc hi u = Ok (map (fun _ => hi) u).
Proof. exact C152_constant_refuted_lemma. Qed.
Print Assumptions C152_constant_refuted.

(** C153.  If no two values differ by INF or more, the chosen action is likely for the imitator and has the
    highest value among the likely ones; such actions exist for every threshold below 1. *)
Theorem C153_likely : forall INF t q logits, length q = length logits -> q <> [] -> (t <= 0)%Qc ->
  (forall x y, In x q -> In y q -> (x - y < INF)%Qc) ->
  let likely i := exists x, nth_error logits i = Some x /\ (t <= x - maxl logits)%Qc in
  let a := dbcq_act INF (Some t) q logits in
  (exists i, likely i) /\ a < length q /\ likely a /\ forall i x, likely i -> nth_error q i = Some x -> exists y, nth_error q a = Some y /\ (x <= y)%Qc.
Proof. exact C153_likely_lemma. Qed.
Print Assumptions C153_likely.

(** C153.  Without the bound on the values an unlikely action can be chosen. *)
Theorem C153_large_values_refuted : forall INF, (0 <= INF)%Qc -> exists q logits t, (t <= 0)%Qc /\ length q = length logits /\
  exists x, nth_error logits (dbcq_act INF (Some t) q logits) = Some x /\ (x - maxl logits < t)%Qc.
Proof. exact C153_large_values_refuted_lemma. Qed.
Print Assumptions C153_large_values_refuted.

(** C154.  The normalised value term of TD3+BC lies in [-alpha, alpha], does not depend on the scale of the
    critic, and is undefined (NaN) exactly when the critic is 0 on the whole batch. *)
Theorem C154_bounded : forall alpha q, (0 <= alpha)%Qc -> q <> [] ->
  (td3bc_term alpha q = None <-> Forall (fun x => x = 0%Qc) q)
  /\ forall v, td3bc_term alpha q = Some v -> (- alpha <= v)%Qc /\ (v <= alpha)%Qc
       /\ forall c, (0 < c)%Qc -> td3bc_term alpha (map (fun x => (c * x)%Qc) q) = Some v.
Proof. exact C154_bounded_lemma. Qed.
Print Assumptions C154_bounded.

(** C155.  The advantages of the actions average to zero under the policy. *)
Theorem C155_centred : forall q probs, length q = length probs -> qsum probs = 1%Qc ->
  qdot (map (crr_advantage q probs) (seq 0 (length q))) probs = 0%Qc.
Proof. exact C155_centred_lemma. Qed.
Print Assumptions C155_centred.

(** C155.  The weights are between 0 and the bound and never decrease with the advantage. *)
Theorem C155_weights : forall exp beta bound m adv adv', (forall x y, (x <= y)%Qc -> (exp x <= exp y)%Qc) -> (0 < beta)%Qc -> (1 <= bound)%Qc ->
  (0 <= crr_coef exp beta bound m adv)%Qc /\ (crr_coef exp beta bound m adv <= bound)%Qc
  /\ ((adv <= adv')%Qc -> (crr_coef exp beta bound m adv <= crr_coef exp beta bound m adv')%Qc)
  /\ (m = CrrBinary -> crr_coef exp beta bound m adv = 1%Qc <-> (0 < adv)%Qc).
Proof. exact C155_weights_lemma. Qed.
Print Assumptions C155_weights.

(** C156.  In the modes "binary" and "exp" the actor loss is the mean of the weights times the mean of the
    negated log probabilities: the weight of one transition multiplies the log probabilities of all of them. *)
Theorem C156_product_refuted : forall logp coef, logp <> [] -> coef <> [] ->
  crr_actor_loss logp (Some coef) = (np_mean coef * np_mean (map Qcopp logp))%Qc
  /\ forall coef', Permutation coef coef' -> crr_actor_loss logp (Some coef') = crr_actor_loss logp (Some coef).
Proof. exact C156_product_refuted_lemma. Qed.
Print Assumptions C156_product_refuted.

(** C156.  The documented loss weighs every transition by its own weight; here the action with weight 0 is pulled
    up exactly as much as the one with weight 1. *)
Theorem C156_example_refuted : exists logp coef, length logp = length coef
  /\ crr_actor_loss logp (Some coef) <> np_mean (map (fun x => (- fst x * snd x)%Qc) (combine logp coef)).
Proof. exact C156_example_refuted_lemma. Qed.
Print Assumptions C156_example_refuted.

(** C156.  It is the documented one if all weights are equal, as in the mode "all", or for a single transition. *)
Theorem C156_equal_weights : forall logp w, logp <> [] ->
  crr_actor_loss logp (Some (map (fun _ => w) logp)) = np_mean (map (fun lp => (- lp * w)%Qc) logp)
  /\ crr_actor_loss logp None = np_mean (map Qcopp logp).
Proof. exact C156_equal_weights_lemma. Qed.
Print Assumptions C156_equal_weights.

Definition fz (z : Z) : Qc := Q2Qc (inject_Z z).
Definition fts := [qt 1 false false; qt 2 true false; qt 3 false false].
(** A buffer of capacity 4 with three transitions: rewards 1, 2 (end of episode), 3. *)
Example C148_ex : reach 0%Qc Qcplus (fun x => x) plain 4 (qbuf 4 fts) (qqueue 4 fts) /\ size (b_st (qbuf 4 fts)) < 4
  /\ exists idx col, sample_indices plain (qbuf 4 fts) (fun _ => 0) (Some 0%Z) = Ok idx
    /\ process_buffer true (buf_view (qbuf 4 fts)) idx 1%Qc None = Ok (Some col) /\ map this col = [3; 2; 3]%Q.
Proof. split; [apply qbuf_reach; lia|]. split; [vm_compute; lia|]. do 2 eexists. split; [vm_compute; reflexivity|]. split; vm_compute; reflexivity. Qed.
Example C149_ex : map this (cql_targets 1 (fz 2) [(fz 1, false, fz 5, fz 2); (fz 1, true, fz 5, fz 2)]) = [7; 1]%Q
  /\ map this (crr_targets (fz 2) [(fz 1, false, ([fz 4; fz 8], [Q2Qc (1#2); Q2Qc (1#2)])); (fz 1, true, ([fz 4; fz 8], [1%Qc; 0%Qc]))]) = [13; 1]%Q
  /\ (fz 2 * (fz 5 - 1 * fz 2))%Qc <> 0%Qc.
Proof. split; [vm_compute; reflexivity|]. split; [vm_compute; reflexivity|]. intro H. apply (f_equal this) in H. vm_compute in H. discriminate H. Qed.
(** Two rows, two sampled actions each: the second action of each row is the better one. *)
Example C150_ex : map this (bcq_targets (fun o a => fz (Z.of_nat (o + a))) (fun o a => fz (Z.of_nat (o + 2 * a))) (fun k _ => k) 2 (Q2Qc (1#2)) (fz 2)
    [(fz 1, false, 10); (fz 1, true, 20); (fz 0, false, 0)]) = [24; 1; 15]%Q.
Proof. vm_compute. reflexivity. Qed.
Example C150_ex_forward : bcq_forward (fun (o a : nat) => fz (Z.of_nat (a * (5 - a)))) 0 [0; 1; 3; 5] 7 = 3.
Proof. vm_compute. reflexivity. Qed.
(** A function with the two properties of log-sum-exp that are used: the number of values. *)
Example C151_ex : let lse := fun l : list Qc => fz (Z.of_nat (length l)) in
  (forall l l', Permutation l l' -> lse l = lse l') /\ (forall l m, m <> [] -> (lse l < lse (l ++ m))%Qc)
  /\ let rows := [[(fz 1, fz 2, fz 3); (fz 4, fz 5, fz 6)]; [(fz 1, fz 2, fz 3); (fz 4, fz 5, fz 6)]] in
     let t := concat rows in
     this (cql_term lse 1 1 2 None (map (fun t => fst (fst t)) t) (map (fun t => snd (fst t)) t) (map snd t) [fz 1; fz 1]) = (2 # 1)%Q
     /\ this (np_mean (map (fun row => lse (map (fun x => x / 1)%Qc (row_values row))) rows) * 1 * 1 - np_mean [fz 1; fz 1] * 1)%Qc = (5 # 1)%Q.
Proof.
  split; [|split].
  - intros l l' P. rewrite (Permutation_length P). reflexivity.
  - intros l m H. destruct m as [|x m]; [contradiction|]. unfold fz, Qclt, Q2Qc. cbn [this]. rewrite !Qred_correct. unfold inject_Z, Qlt. cbn [Qnum Qden].
    rewrite app_length. cbn [length]. lia.
  - split; vm_compute; reflexivity.
Qed.
Example C151_ex_rows : map (map this) (cat_q 2 (Some [fz 4; fz 0]) [fz 1; fz 2; fz 3; fz 4] [fz 5; fz 6; fz 7; fz 8] [fz 9; fz 1; fz 2; fz 3])
  = [[4; 5; 9]; [4; 6; 4]; [3; 7; 2]; [4; 8; 3]]%Q.
Proof. vm_compute. reflexivity. Qed.
Example C152_ex : match cql_random_actions 0%Qc (fz 2) [Q2Qc (1#4); Q2Qc (1#2)] with Ok l => map this l = [1 # 2; 1]%Q | Err _ => False end
  /\ cql_random_actions (- fz 3)%Qc (fz 2) [Q2Qc (1#4)] = Err RuntimeError.
Proof. split; vm_compute; reflexivity. Qed.
Example C153_ex : let q := [fz 3; fz 9; fz 5] in let logits := [fz 0; - fz 4; - fz 1]%Qc in
  dbcq_act (fz 100) (Some (- fz 2)%Qc) q logits = 2 /\ dbcq_act (fz 100) None q logits = 1.
Proof. split; vm_compute; reflexivity. Qed.
Example C154_ex : td3bc_term (fz 3) [fz 1; - fz 5]%Qc = Some (fz 2) /\ td3bc_term (fz 3) [fz 10; - fz 50]%Qc = Some (fz 2) /\ td3bc_term (fz 3) [0%Qc; 0%Qc] = None.
Proof. repeat split; vm_compute; try reflexivity; f_equal; apply Qc_is_canon; vm_compute; reflexivity. Qed.
Example C155_ex : let q := [fz 1; fz 5] in let p := [Q2Qc (1#4); Q2Qc (3#4)] in
  map this (map (crr_advantage q p) [0; 1]) = [-3; 1]%Q /\ this (crr_coef (fun x => (x + 1)%Qc) 1 (fz 2) CrrExp (fz 4)) = 2%Q
  /\ this (crr_coef (fun x => (x + 1)%Qc) 1 (fz 2) CrrBinary (fz 4)) = 1%Q.
Proof. repeat split; vm_compute; reflexivity. Qed.
(** Weights 1 and 0: the loss is half the sum of the two negated log probabilities, (1 + 3) / 2 * 1 / 2 = 1. *)
Example C156_ex : this (crr_actor_loss [- fz 1; - fz 3]%Qc (Some [fz 1; fz 0])) = 1%Q
  /\ this (crr_actor_loss [- fz 1; - fz 3]%Qc (Some [fz 0; fz 1])) = 1%Q /\ this (crr_actor_loss [- fz 1; - fz 3]%Qc None) = 2%Q.
Proof. repeat split; vm_compute; reflexivity. Qed.
