(** * Forward passes of the distributional learners and of discrete BCQ: properties *)
From Verif Require Import Py PyLemmas Num DqnModel StatModel OfflineModel QuantModel DistModel DistSpec DistProofs.
Open Scope nat_scope.

(** C234.  The forward pass of IQN: as many fractions per observation as the constructor says for this network and mode; entry (action k,
    sample j) is the network's value of k at fraction j of this observation; the action has the highest mean among the available ones. *)
Theorem C234_forward : forall (Ob F : Type) (pre : netname -> Ob -> F) (last : netname -> F -> Qc -> list Qc) a ss online target training rnd m obs mask,
  0 < a -> (forall m f t, length (last m f t) = a) -> obs <> [] -> mask_fits mask (length obs) a ->
  exists logits taus act, iqn_forward pre last a ss online target training rnd m obs mask = Ok (logits, taus, act)
    /\ length logits = length obs /\ length taus = length obs /\ length act = length obs
    /\ forall i o, nth_error obs i = Some o -> exists q ts, nth_error logits i = Some q /\ nth_error taus i = Some ts
         /\ length ts = match m, training with Old, _ => target | Online, true => online | Online, false => ss end
         /\ length q = a
         /\ (forall k row, nth_error q k = Some row -> length row = length ts /\ forall j t, nth_error ts j = Some t -> nth_error row j = nth_error (last m (pre m o) t) k)
         /\ forall k0, k0 < a -> allowed mask i k0 -> exists k, nth_error act i = Some k /\ best mask a i k (fun k => np_mean (nth k q [])).
Proof. exact C234_forward_lemma. Qed.
Print Assumptions C234_forward.

(** C234.  The target distribution of IQN: the values of the evaluating network, at its own fractions, of an action that is best for the online
    network; as many as [target_sample_size] if there is a target network. *)
Theorem C234_target : forall (Ob F : Type) (pre : netname -> Ob -> F) (last : netname -> F -> Qc -> list Qc) a use_target ss online target training rnd rnd' obs mask,
  0 < a -> (forall m f t, length (last m f t) = a) -> obs <> [] -> mask_fits mask (length obs) a -> (forall i, i < length obs -> exists k, k < a /\ allowed mask i k) ->
  let n := if training : bool then online else ss in
  exists l, iqn_target pre last a use_target ss online target training rnd rnd' obs mask = Ok l /\ length l = length obs
    /\ forall i o, nth_error obs i = Some o -> exists k, best mask a i k (fun k => np_mean (map (fun j => nth k (last Online (pre Online o) (rnd i j)) 0%Qc) (seq 0 n)))
         /\ nth_error l i = Some (if use_target : bool then map (fun j => nth k (last Old (pre Old o) (rnd' i j)) 0%Qc) (seq 0 target)
                                  else map (fun j => nth k (last Online (pre Online o) (rnd i j)) 0%Qc) (seq 0 n)).
Proof. exact C234_target_lemma. Qed.
Print Assumptions C234_target.

(** C235.  The target distribution of FQF: both networks are evaluated at the fractions proposed for the online network; the action is best for
    the online network in expectation under the proposed probabilities. *)
Theorem C235_target : forall (Ob F : Type) (pre : netname -> Ob -> F) (last : netname -> F -> Qc -> list Qc) a probs n use_target training old_training obs mask,
  0 < a -> (forall m f t, length (last m f t) = a) -> (forall f, length (probs f) = n) -> obs <> [] -> mask_fits mask (length obs) a ->
  (forall i, i < length obs -> exists k, k < a /\ allowed mask i k) ->
  exists l, fqf_target pre last a probs use_target n training old_training obs mask = Ok l /\ length l = length obs
    /\ forall i o, nth_error obs i = Some o ->
         let p := probs (pre Online o) in
         let net := if use_target : bool then Old else Online in
         exists k, best mask a i k (fun k => expectation p (fun j => nth k (last Online (pre Online o) (nth j (tau_hats_of p) 0)) 0)%Qc)
           /\ nth_error l i = Some (map (fun h => nth k (last net (pre net o) h) 0%Qc) (tau_hats_of p)).
Proof. exact C235_target_lemma. Qed.
Print Assumptions C235_target.

(** C235.  The gradients of the fractions can only be computed in training mode.  If the quantile function of the taken action increases, inner
    fraction j+1 has the gradient 2 z(tau_{j+1}) - z(hat_j) - z(hat_{j+1}). *)
Theorem C235_gradients : forall (Ob F : Type) (pre : netname -> Ob -> F) (last : netname -> F -> Qc -> list Qc) a probs n obs acts,
  0 < a -> 0 < n -> (forall m f t, length (last m f t) = a) -> (forall f, length (probs f) = n /\ (forall p, In p (probs f) -> (0 < p)%Qc) /\ qsum (probs f) = 1%Qc) ->
  obs <> [] -> length acts = length obs -> (forall k, In k acts -> k < a) ->
  fqf_gradients pre last a probs n false obs acts = Err TypeError
  /\ exists g, fqf_gradients pre last a probs n true obs acts = Ok g /\ length g = length obs
    /\ forall i o k, nth_error obs i = Some o -> nth_error acts i = Some k ->
         let p := probs (pre Online o) in let z := fun t => nth k (last Online (pre Online o) t) 0%Qc in
         (forall t t', (t < t')%Qc -> (z t < z t')%Qc) ->
         exists row, nth_error g i = Some row /\ length row = n - 1
           /\ forall j, j < n - 1 -> nth_error row j = Some ((z (nth (S j) (taus_of p) 0) - z (nth j (tau_hats_of p) 0)) + (z (nth (S j) (taus_of p) 0) - z (nth (S j) (tau_hats_of p) 0)))%Qc.
Proof. exact C235_gradients_lemma. Qed.
Print Assumptions C235_gradients.

(** C236.  The three losses of discrete BCQ are non-negative; the first is zero exactly if the current values of the actions are the targets, the
    penalty exactly if all logits are zero; shifting the logits of a row changes the penalty only. *)
Theorem C236_loss : forall lsm penalty rows, rows <> [] -> (0 <= penalty)%Qc -> (forall l, length (lsm l) = length l) -> (forall l x, In x (lsm l) -> (x <= 0)%Qc) ->
  (forall r, In r rows -> d_act r < length (d_q r) /\ d_act r < length (d_logits r)) ->
  (0 <= dbcq_q_loss rows)%Qc /\ (0 <= dbcq_i_loss lsm rows)%Qc /\ (0 <= dbcq_reg rows)%Qc
  /\ dbcq_loss lsm penalty rows = (dbcq_q_loss rows + dbcq_i_loss lsm rows + penalty * dbcq_reg rows)%Qc /\ (0 <= dbcq_loss lsm penalty rows)%Qc
  /\ (dbcq_q_loss rows = 0%Qc <-> forall r, In r rows -> nth_error (d_q r) (d_act r) = Some (d_target r))
  /\ (dbcq_reg rows = 0%Qc <-> forall r x, In r rows -> In x (d_logits r) -> x = 0%Qc)
  /\ (forall k, (forall l, lsm (map (fun x => (x + k)%Qc) l) = lsm l) ->
        let rows' := map (fun r => mkD (d_q r) (map (fun x => (x + k)%Qc) (d_logits r)) (d_act r) (d_target r)) rows in
        dbcq_q_loss rows' = dbcq_q_loss rows /\ dbcq_i_loss lsm rows' = dbcq_i_loss lsm rows).
Proof. exact C236_loss_lemma. Qed.
Print Assumptions C236_loss.

(** C236.  The imitator is given the state that the Q-network returned for the same observation, not the one from before: for all networks. *)
Theorem C236_imitator_state_refuted : (forall (Ob H : Type) (q_net imitator : Ob -> option H -> list Qc * H) o s,
    snd (fst (dbcq_outputs q_net imitator o s)) = fst (imitator o (Some (snd (q_net o s)))))
  /\ exists (q_net imitator : nat -> option nat -> list Qc * nat) o s, snd (fst (dbcq_outputs q_net imitator o (Some s))) <> fst (imitator o (Some s)).
Proof. exact C236_imitator_state_refuted_lemma. Qed.
Print Assumptions C236_imitator_state_refuted.

(** C236.  With a Q-network whose state stays the same, or an imitator without state, both see the same. *)
Theorem C236_stateless_partial : forall (Ob H : Type) (q_net imitator : Ob -> option H -> list Qc * H) o s,
  snd (q_net o (Some s)) = s \/ (forall s s', imitator o s = imitator o s') ->
  dbcq_outputs q_net imitator o (Some s) = (fst (q_net o (Some s)), fst (imitator o (Some s)), snd (q_net o (Some s))).
Proof. exact C236_stateless_partial_lemma. Qed.
Print Assumptions C236_stateless_partial.

(** C237.  The greedy action of every branch of branching DQN has the highest value of this branch. *)
Theorem C237_greedy_partial : forall q mask i rows k row, nth_error q i = Some rows -> nth_error rows k = Some row -> row <> [] ->
  exists acts a v, nth_error (bdq_greedy q mask) i = Some acts /\ nth_error acts k = Some a /\ nth_error row a = Some v /\ forall x, In x row -> (x <= v)%Qc.
Proof. exact C237_greedy_partial_lemma. Qed.
Print Assumptions C237_greedy_partial.

(** C237.  A mask is not looked at: the greedy actions are the same for all masks, so a forbidden one can be taken. *)
Theorem C237_mask_refuted : (forall q mask, bdq_greedy q mask = bdq_greedy q None)
  /\ exists q mask acts a, bdq_greedy q (Some mask) = [acts] /\ nth_error acts 0 = Some a /\ mask = [[true; false]] /\ nth_error [true; false] a = Some false.
Proof. exact C237_mask_refuted_lemma. Qed.
Print Assumptions C237_mask_refuted.

(** C238.  The value of a row is computed from the state after its earlier frames, started at zero, from its last frame and its action; rows do
    not influence each other, and what happened before the first frame plays no role. *)
Theorem C238_value : forall (X H : Type) (cell : X -> H -> list Qc * H) zero fc2 rows acts, (forall r, In r rows -> r <> []) -> length acts = length rows ->
  exists vs ws, rec_critic cell zero fc2 (inr rows) None = Ok vs /\ rec_critic cell zero fc2 (inr rows) (Some acts) = Ok ws /\ length vs = length rows /\ length ws = length rows
    /\ forall i frames x a, nth_error rows i = Some (frames ++ [x]) -> nth_error acts i = Some a ->
         let o := fst (cell x (fold_left (fun s x => snd (cell x s)) frames zero)) in
         nth_error vs i = Some (fc2 o) /\ nth_error ws i = Some (fc2 (o ++ a)).
Proof. exact C238_value_lemma. Qed.
Print Assumptions C238_value.

(** C238.  Single frames, which the recurrent actors accept, are refused. *)
Theorem C238_single_frame_refuted : forall (X H : Type) (cell : X -> H -> list Qc * H) zero fc2 obs act, rec_critic cell zero fc2 (inl obs) act = Err AssertionError.
Proof. exact C238_single_frame_refuted_lemma. Qed.
Print Assumptions C238_single_frame_refuted.

(** ** Examples *)
(** Two actions; the value of action 0 at fraction t is o * t, that of action 1 is 1 - t (online) or 2 - t (target network). *)
Definition ex_pre (m : netname) (o : nat) : nat := o.
Definition ex_last (m : netname) (f : nat) (t : Qc) : list Qc := [(qn f * t)%Qc; ((match m with Online => 1 | Old => 1 + 1 end) - t)%Qc].
Definition ex_rnd (i j : nat) : Qc := Q2Qc (Z.of_nat (1 + j) # 4).
Definition ex_mask : option (list (list bool)) := Some [[true; true]; [false; true]].
Example C234_ex : mask_fits ex_mask 2 2 /\ (forall m f t, length (ex_last m f t) = 2) /\
  match iqn_forward ex_pre ex_last 2 4 2 3 true ex_rnd Online [4; 4] ex_mask with
  | Ok (logits, taus, act) => map (map (map this)) logits = [[[1; 2]; [3 # 4; 1 # 2]]; [[1; 2]; [3 # 4; 1 # 2]]]%Q /\ map (map this) taus = [[1 # 4; 1 # 2]; [1 # 4; 1 # 2]]%Q /\ act = [0; 1]
  | Err _ => False end /\
  match iqn_target ex_pre ex_last 2 true 4 2 3 true ex_rnd ex_rnd [4; 4] ex_mask with
  | Ok l => map (map this) l = [[1; 2; 3]; [7 # 4; 3 # 2; 5 # 4]]%Q | Err _ => False end.
Proof. split; [split; [reflexivity | intros r [<- | [<- | []]]; reflexivity]|]. split; [reflexivity|]. vm_compute. auto. Qed.
Definition ex_probs (f : nat) : list Qc := [Q2Qc (1#2); Q2Qc (1#4); Q2Qc (1#4)].
Example C235_ex : match fqf_target ex_pre ex_last 2 ex_probs true 3 true false [4; 1] ex_mask with
  | Ok l => map (map this) l = [[1; 5 # 2; 7 # 2]; [7 # 4; 11 # 8; 9 # 8]]%Q | Err _ => False end /\
  match fqf_gradients ex_pre ex_last 2 ex_probs 3 true [4; 1] [0; 0] with Ok l => map (map this) l = [[1 # 2; 0]; [1 # 8; 0]]%Q | Err _ => False end /\
  (forall f, length (ex_probs f) = 3 /\ (forall p, In p (ex_probs f) -> (0 < p)%Qc) /\ qsum (ex_probs f) = 1%Qc) /\
  (forall t t', (t < t')%Qc -> (nth 0 (ex_last Online (ex_pre Online 4) t) 0 < nth 0 (ex_last Online (ex_pre Online 4) t') 0)%Qc).
Proof.
  split; [vm_compute; reflexivity|]. split; [vm_compute; reflexivity|]. split.
  - intro f. split; [reflexivity|]. split; [intros p [<- | [<- | [<- | []]]]; reflexivity | apply Qc_is_canon; vm_compute; reflexivity].
  - intros t t' H. unfold ex_last, ex_pre. cbn [nth]. rewrite (Qcmult_comm _ t), (Qcmult_comm _ t'). apply Qcmult_lt_compat_r; [reflexivity | exact H].
Qed.
(** Subtracting the largest logit and 1 is a function as demanded of [log_softmax]. *)
Definition ex_lsm (l : list Qc) : list Qc := map (fun x => (x - fold_right Qcmaxb 0 l - 1)%Qc) l.
Definition ex_rows : list dbcq_row := [mkD [1%Qc; 0%Qc] [0%Qc; (1 + 1)%Qc] 0 (1 + 1)%Qc; mkD [1%Qc; 0%Qc] [0%Qc; 0%Qc] 1 0%Qc].
Lemma ex_max l x : In x l -> (x <= fold_right Qcmaxb 0 l)%Qc.
Proof.
  induction l as [|y l IH]; [intros []|]. cbn [fold_right]. set (m := fold_right Qcmaxb 0%Qc l) in *. clearbody m.
  intros [<- | Hx]; [|specialize (IH Hx)]; unfold Qcmaxb; destruct (Qcleb_spec y m); qclra.
Qed.
Example C236_ex : (forall l, length (ex_lsm l) = length l) /\ (forall l x, In x (ex_lsm l) -> (x <= 0)%Qc) /\
  (forall r, In r ex_rows -> d_act r < length (d_q r) /\ d_act r < length (d_logits r)) /\
  this (dbcq_q_loss ex_rows) = (1 # 4)%Q /\ this (dbcq_i_loss ex_lsm ex_rows) = (2 # 1)%Q /\ this (dbcq_reg ex_rows) = (1 # 1)%Q.
Proof.
  split; [intro l; apply map_length|]. split.
  - intros l x H. apply in_map_iff in H. destruct H as (y & <- & Hy). assert (G := ex_max l y Hy). qclra.
  - split; [intros r [<- | [<- | []]]; cbn; lia|]. vm_compute. auto.
Qed.
Example C237_ex : bdq_greedy [[[0%Qc; 1%Qc]; [1%Qc; 0%Qc]]] None = [[1; 0]].
Proof. vm_compute. reflexivity. Qed.
(** The state is the sum of the frames. *)
Example C238_ex : match rec_critic (fun (x s : Qc) => ([(x + s)%Qc], (x + s)%Qc)) 0%Qc qsum (inr [[1%Qc; 1%Qc]; [1%Qc]]) (Some [[1%Qc]; [0%Qc]]) with
  | Ok l => map this l = [3; 1]%Q | Err _ => False end.
Proof. vm_compute. reflexivity. Qed.
