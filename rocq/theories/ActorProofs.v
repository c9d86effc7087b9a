(** * Proofs about the off-policy actor-critic learners *)
From Verif Require Import Py PyLemmas Num PolicyModel PolicyProofs DqnModel DqnProofs StatModel StatProofs ReturnsSpec ReturnsProofs
  OnpolProofs IcmProofs OfflineModel OfflineProofs QuantProofs ActorModel.
Open Scope nat_scope.

(** ** Specifications *)
(** Numbers of elements of the parameter tensors. *)
Definition shape (p : prm) : list nat := map (@length Qc) p.
Arguments shape : simpl never.
Definition keeps_shape {Cfg OS Ob Rnd} (W : @world Cfg OS Ob Rnd) : Prop :=
  forall c g o p d, shape (snd (w_ostep W c g o p d)) = shape p.
(** [p] is the exponential moving average of [new 0, .., new (n - 1)] started at [p0]. *)
Definition ema (tau : Qc) (p0 : prm) (new : nat -> prm) (n : nat) (p : prm) : Prop :=
  shape p = shape p0 /\
  forall i j t, entry p0 i j = Some t ->
    exists u : nat -> Qc, (forall k, k < n -> entry (new k) i j = Some (u k))
      /\ entry p i j = Some (Qcpower (1 - tau) n * t + sum_n n (fun k => tau * Qcpower (1 - tau) (n - 1 - k) * u k))%Qc.
(** What an optimizer step with gradient [d] makes of a module: state of the optimizer and parameters. *)
Definition descend {Cfg OS Ob Rnd} (W : @world Cfg OS Ob Rnd) (n : @net Cfg OS) (d : prm) : OS * prm :=
  w_ostep W (o_cls (n_opt n)) (o_groups (n_opt n)) (o_st (n_opt n)) (n_par n) d.
Definition view {Cfg OS} (n : @net Cfg OS) : OS * prm := (o_st (n_opt n), n_par n).
Definition options {Cfg OS} (n : @net Cfg OS) := (o_cls (n_opt n), o_groups (n_opt n), o_defaults (n_opt n)).
(** The state before call [k] of a trace. *)
Definition at_call {Cfg OS} (s : @st Cfg OS) (l : list (st * list Qc * stats)) (k : nat) : st :=
  match k with 0 => s | S k => nth k (map (fun r => fst (fst r)) l) s end.
Definition well_shaped {Cfg OS} (s : @st Cfg OS) : Prop :=
  shape (s_aold s) = shape (n_par (s_a s)) /\ shape (s_c1old s) = shape (n_par (s_c1 s)) /\ shape (s_c2old s) = shape (n_par (s_c2 s)).

(** ** Moving averages *)
Lemma shape_entry p q i j t : shape p = shape q -> entry p i j = Some t -> exists u, entry q i j = Some u.
Proof.
  intros Hs E. unfold entry in *. destruct (nth_error p i) as [r|] eqn:Ep; [|discriminate].
  assert (L : nth_error (shape q) i = Some (length r)) by (rewrite <- Hs; unfold shape; rewrite nth_error_map, Ep; reflexivity).
  unfold shape in L. rewrite nth_error_map in L. destruct (nth_error q i) as [r'|] eqn:Eq; [|discriminate]. cbn in L. injection L as L.
  destruct (nth_error r' j) as [u|] eqn:E'; [now exists u|]. apply nth_error_None in E'.
  assert (j < length r) by (apply nth_error_Some; congruence). lia.
Qed.
Lemma shape_rows (p q : prm) : shape p = shape q -> length p = length q
  /\ forall i t s, nth_error p i = Some t -> nth_error q i = Some s -> length t = length s.
Proof.
  intros H. split.
  - apply (f_equal (@length nat)) in H. unfold shape in H. rewrite !map_length in H. exact H.
  - intros i t s E1 E2. apply (f_equal (fun l => nth_error l i)) in H. unfold shape in H.
    rewrite !nth_error_map, E1, E2 in H. cbn in H. congruence.
Qed.
Lemma rows_shape (p q : prm) : length p = length q ->
  (forall i t s, nth_error p i = Some t -> nth_error q i = Some s -> length t = length s) -> shape p = shape q.
Proof.
  revert q. induction p as [|r p IH]; intros [|r' q] Hl H; try discriminate; [reflexivity|]. unfold shape. cbn [map]. f_equal.
  - apply (H 0 r r' eq_refl eq_refl).
  - apply IH; [cbn in Hl; lia|]. intros i t s. apply (H (S i)).
Qed.
Lemma sync_ok tau old new : shape old = shape new -> exists p, sync tau old new = Ok p /\ shape p = shape old
  /\ forall i j t u, entry old i j = Some t -> entry new i j = Some u -> entry p i j = Some (tau * u + (1 - tau) * t)%Qc.
Proof.
  intros H. destruct (shape_rows _ _ H) as [Hl Hr]. destruct (soft_ok tau old new Hl Hr) as (p & E & L & R & En).
  exists p. unfold sync. rewrite E. split; [reflexivity|]. split.
  - rewrite H. apply rows_shape; [lia|exact R].
  - intros i j t u E1 E2. rewrite En, E1, E2. reflexivity.
Qed.
Lemma sync_inv tau old new p : shape old = shape new -> sync tau old new = Ok p -> shape p = shape old
  /\ forall i j t u, entry old i j = Some t -> entry new i j = Some u -> entry p i j = Some (tau * u + (1 - tau) * t)%Qc.
Proof. intros H E. destruct (sync_ok tau old new H) as (q & E' & R). rewrite E in E'. injection E' as ->. exact R. Qed.

Lemma sum_n_last n f : sum_n (S n) f = (sum_n n f + f n)%Qc.
Proof. unfold sum_n. rewrite seq_S, map_app, qsum_app. cbn. ring. Qed.
Lemma ema_0 tau p new : ema tau p new 0 p.
Proof.
  split; [reflexivity|]. intros i j t E. exists (fun _ => 0%Qc). split; [lia|]. rewrite E. f_equal. unfold sum_n. cbn. ring.
Qed.
Lemma ema_S tau p0 new n p p' : ema tau p0 new n p -> shape p = shape (new n) -> sync tau p (new n) = Ok p' -> ema tau p0 new (S n) p'.
Proof.
  intros [Hs H] Hn E. destruct (sync_inv _ _ _ _ Hn E) as [Hs' Hen]. split; [congruence|]. intros i j t Et.
  destruct (H i j t Et) as (u & Hu & Ep). destruct (shape_entry _ _ _ _ _ Hn Ep) as [v Ev].
  exists (fun k => if k =? n then v else u k). split.
  - intros k Hk. destruct (Nat.eqb_spec k n) as [->|N]; [exact Ev|apply Hu; lia].
  - rewrite (Hen _ _ _ _ Ep Ev). f_equal. rewrite sum_n_last, Nat.eqb_refl.
    replace (S n - 1 - n) with 0 by lia. cbn [Qcpower].
    rewrite (sum_n_ext n (fun k => tau * Qcpower (1 - tau) (S n - 1 - k) * (if k =? n then v else u k))%Qc (fun k => (1 - tau) * (tau * Qcpower (1 - tau) (n - 1 - k) * u k))%Qc).
    + rewrite sum_n_scale. set (a := sum_n n _). set (b := Qcpower (1 - tau) n). clearbody a b.  ring.
    + intros k Hk. destruct (Nat.eqb_spec k n) as [|N]; [lia|]. replace (S n - 1 - k) with (S (n - 1 - k)) by lia. cbn [Qcpower]. ring.
Qed.
Lemma ema_ext tau p0 new new' n p : (forall k, k < n -> new k = new' k) -> ema tau p0 new n p -> ema tau p0 new' n p.
Proof.
  intros H [Hs G]. split; [exact Hs|]. intros i j t E. destruct (G i j t E) as (u & Hu & Ep). exists u. split; [|exact Ep].
  intros k Hk. rewrite <- H by exact Hk. apply Hu, Hk.
Qed.
(** A target that is updated at every call [k]. *)
Lemma ema_every tau (old new : nat -> prm) n :
  (forall k, k < n -> shape (old k) = shape (new k) /\ sync tau (old k) (new k) = Ok (old (S k))) -> ema tau (old 0) new n (old n).
Proof.
  induction n as [|n IH]; intros H; [apply ema_0|]. destruct (H n ltac:(lia)) as [Hs E].
  eapply ema_S; [apply IH; intros k Hk; apply H; lia|exact Hs|exact E].
Qed.
(** A target that is updated at the calls divisible by [f]. *)
Lemma div_up_step n f : 0 < f -> (S n + f - 1) / f = (n + f - 1) / f + (if n mod f =? 0 then 1 else 0).
Proof.
  intros Hf. pose proof (Nat.div_mod n f ltac:(lia)) as D. pose proof (Nat.mod_upper_bound n f ltac:(lia)) as U.
  set (q := n / f) in *. set (r := n mod f) in *. clearbody q r. subst n.
  destruct (Nat.eqb_spec r 0) as [->|N].
  - replace (S (f * q + 0) + f - 1) with (0 + (q + 1) * f) by nia. rewrite Nat.div_add, Nat.div_0_l by lia.
    replace (f * q + 0 + f - 1) with ((f - 1) + q * f) by nia. rewrite Nat.div_add, Nat.div_small by lia. lia.
  - replace (S (f * q + r) + f - 1) with (r + (q + 1) * f) by nia. rewrite Nat.div_add, Nat.div_small by lia.
    replace (f * q + r + f - 1) with ((r - 1) + (q + 1) * f) by nia. rewrite Nat.div_add, Nat.div_small by lia. lia.
Qed.
Lemma div_up_mult n f : 0 < f -> n mod f = 0 -> (n + f - 1) / f * f = n.
Proof.
  intros Hf H. pose proof (Nat.div_mod n f ltac:(lia)) as D. rewrite H in D. set (q := n / f) in *. clearbody q. subst n.
  replace (f * q + 0 + f - 1) with ((f - 1) + q * f) by nia. rewrite Nat.div_add, Nat.div_small by lia. lia.
Qed.
Lemma ema_delayed tau f (old new : nat -> prm) n : 0 < f ->
  (forall k, k < n -> if k mod f =? 0 then shape (old k) = shape (new k) /\ sync tau (old k) (new k) = Ok (old (S k)) else old (S k) = old k) ->
  ema tau (old 0) (fun k => new (k * f)) ((n + f - 1) / f) (old n).
Proof.
  intros Hf. induction n as [|n IH]; intros H.
  - rewrite Nat.div_small by lia. apply ema_0.
  - rewrite div_up_step by exact Hf. specialize (IH ltac:(intros k Hk; apply H; lia)). specialize (H n ltac:(lia)).
    destruct (Nat.eqb_spec (n mod f) 0) as [E|N].
    + destruct H as [Hs E']. rewrite Nat.add_1_r. eapply ema_S; [exact IH| |]; rewrite div_up_mult by assumption; assumption.
    + rewrite Nat.add_0_r, H. exact IH.
Qed.

(** ** Traces *)
Section Tr.
Context {Cfg OS Ob Rnd : Type}.
Local Notation St := (@st Cfg OS).
Lemma trace_ok (learn : Rnd -> @mb Ob -> St -> res (St * list Qc * stats)) (I : St -> Prop) :
  (forall x b s, I s -> exists r, learn x b s = Ok r /\ I (fst (fst r))) ->
  forall cs s, I s -> exists l, trace learn cs s = Ok l /\ length l = length cs.
Proof.
  intros H cs. induction cs as [|[x b] cs IH]; intros s Hs; cbn [trace]; [exists []; auto|].
  destruct (H x b s Hs) as (r & E & Hr). rewrite E. cbn [bind]. destruct (IH _ Hr) as (l & El & Hl). rewrite El. cbn [bind].
  exists (r :: l). split; [reflexivity|cbn; lia].
Qed.
Lemma trace_nth (learn : Rnd -> @mb Ob -> St -> res (St * list Qc * stats)) : forall cs s l, trace learn cs s = Ok l ->
  length l = length cs /\ forall k x b, nth_error cs k = Some (x, b) ->
    exists r, nth_error l k = Some r /\ learn x b (at_call s l k) = Ok r /\ at_call s l (S k) = fst (fst r).
Proof.
  induction cs as [|[x b] cs IH]; intros s l E; cbn [trace] in E.
  - injection E as <-. split; [reflexivity|]. intros [|k] x b H; discriminate.
  - destruct (learn x b s) as [r|] eqn:Er; [|discriminate]. cbn [bind] in E.
    destruct (trace learn cs (fst (fst r))) as [l'|] eqn:El; [|discriminate]. cbn [bind] in E. injection E as <-.
    destruct (IH _ _ El) as [L H]. split; [cbn; lia|]. intros [|k] x' b' Hk; cbn [nth_error] in Hk.
    + injection Hk as -> ->. exists r. split; [reflexivity|]. split; [exact Er|reflexivity].
    + destruct (H k x' b' Hk) as (r' & N & Lr & At). exists r'. split; [exact N|].
      assert (Z : forall m, m <= length l' -> at_call s (r :: l') (S m) = at_call (fst (fst r)) l' m).
      { intros [|m] Hm; cbn [at_call map nth]; [reflexivity|]. apply nth_indep. rewrite map_length. lia. }
      assert (k < length cs) by (apply nth_error_Some; congruence).
      rewrite (Z k), (Z (S k)) by lia. auto.
Qed.
(** A property kept by every call holds at every call. *)
Lemma trace_inv (learn : Rnd -> @mb Ob -> St -> res (St * list Qc * stats)) (I : St -> Prop) :
  (forall x b s r, I s -> learn x b s = Ok r -> I (fst (fst r))) ->
  forall cs s l, I s -> trace learn cs s = Ok l -> forall k, k <= length cs -> I (at_call s l k).
Proof.
  intros H cs s l Hs E. destruct (trace_nth _ _ _ _ E) as [L N]. induction k as [|k IH]; intros Hk; [exact Hs|].
  destruct (nth_error cs k) as [[x b]|] eqn:Ek; [|apply nth_error_None in Ek; lia].
  destruct (N k x b Ek) as (r & _ & El & ->). eapply H; [apply IH; lia|exact El].
Qed.
End Tr.

(** ** One call *)
Section One.
Context {Cfg OS Ob Rnd : Type}.
Variable W : @world Cfg OS Ob Rnd.
Local Notation St := (@st Cfg OS).

(** The step of an optimizer right after [zero_grad] and [backward]. *)
Definition stepped (n : net) (d : prm) : net := opt_step W (backward d (zero_grad n)).
Arguments stepped : simpl never.
Lemma stepped_view n d : view (stepped n d) = descend W n d /\ options (stepped n d) = options n.
Proof.
  unfold stepped, opt_step, backward, zero_grad, view, options, descend. cbn.
  destruct (w_ostep W _ _ _ _ _) as [o p]. split; reflexivity.
Qed.
Lemma backward_view (n : @net Cfg OS) d : view (backward d n) = view n /\ options (backward d n) = options n.
Proof. split; reflexivity. Qed.
Lemma stepped_shape n d : keeps_shape W -> shape (n_par (stepped n d)) = shape (n_par n).
Proof.
  intros K. destruct (stepped_view n d) as [V _]. apply (f_equal snd) in V. unfold view in V. cbn [snd] in V. rewrite V. apply K.
Qed.

Lemma ddpg_inv tau x b (s : St) s' w t : ddpg_learn W tau x b s = Ok (s', w, t) ->
  let c1 := stepped (s_c1 s) (w_dcritic W (n_par (s_c1 s)) b) in
  let a := stepped (s_a s) (w_dactor W (n_par (s_a s)) [n_par c1] 0%Qc x (mb_rows b)) in
  s_a s' = a /\ s_c1 s' = backward (w_dspill W 0 (n_par (s_a s)) [n_par c1] 0%Qc x (mb_rows b)) c1 /\ s_c2 s' = s_c2 s
  /\ sync tau (s_aold s) (n_par a) = Ok (s_aold s') /\ sync tau (s_c1old s) (n_par c1) = Ok (s_c1old s') /\ s_c2old s' = s_c2old s
  /\ w = td W (n_par (s_c1 s)) b
  /\ t_actor t = w_aloss W (n_par (s_a s)) [n_par c1] 0%Qc x (mb_rows b).
Proof.
  unfold ddpg_learn, mse_optimizer. cbv zeta. fold (stepped (s_c1 s) (w_dcritic W (n_par (s_c1 s)) b)).
  set (c1 := stepped (s_c1 s) _).
  fold (stepped (s_a s) (w_dactor W (n_par (s_a s)) [n_par c1] 0%Qc x (mb_rows b))). set (a := stepped (s_a s) _).
  destruct (sync tau (s_aold s) _) as [pa|] eqn:E1; [|discriminate]. cbn [bind]. cbn [n_par backward].
  destruct (sync tau (s_c1old s) _) as [pc|] eqn:E2; [|discriminate]. cbn [bind].
  intros H. injection H as <- <- <-. cbn. repeat split; assumption.
Qed.

Lemma td3_inv tau f x b (s : St) s' w t : td3_learn W tau f x b s = Ok (s', w, t) ->
  let c1 := stepped (s_c1 s) (w_dcritic W (n_par (s_c1 s)) b) in
  let c2 := stepped (s_c2 s) (w_dcritic W (n_par (s_c2 s)) b) in
  let a := stepped (s_a s) (w_dactor W (n_par (s_a s)) [n_par c1] 0%Qc x (mb_rows b)) in
  let aloss := w_aloss W (n_par (s_a s)) [n_par c1] 0%Qc x (mb_rows b) in
  f <> 0 /\ s_c2 s' = c2 /\ view (s_c1 s') = view c1 /\ options (s_c1 s') = options c1 /\ s_cnt s' = S (s_cnt s)
  /\ w = halves (td W (n_par (s_c1 s)) b) (td W (n_par (s_c2 s)) b) /\ t_actor t = s_last s'
  /\ if s_cnt s mod f =? 0
     then s_a s' = a /\ s_last s' = aloss /\ sync tau (s_aold s) (n_par a) = Ok (s_aold s')
          /\ sync tau (s_c1old s) (n_par c1) = Ok (s_c1old s') /\ sync tau (s_c2old s) (n_par c2) = Ok (s_c2old s')
     else s_a s' = s_a s /\ s_last s' = s_last s /\ s_aold s' = s_aold s /\ s_c1old s' = s_c1old s /\ s_c2old s' = s_c2old s.
Proof.
  unfold td3_learn, mse_optimizer. cbv zeta. fold (stepped (s_c1 s) (w_dcritic W (n_par (s_c1 s)) b)).
  fold (stepped (s_c2 s) (w_dcritic W (n_par (s_c2 s)) b)).
  set (c1 := stepped (s_c1 s) _). set (c2 := stepped (s_c2 s) _).
  fold (stepped (s_a s) (w_dactor W (n_par (s_a s)) [n_par c1] 0%Qc x (mb_rows b))). set (a := stepped (s_a s) _).
  unfold guard. destruct (Nat.eqb_spec f 0) as [|Nf]; [discriminate|]. cbn [negb].
  destruct (Nat.eqb_spec (s_cnt s mod f) 0) as [E|E]; cbn [n_par backward].
  - destruct (sync tau (s_c1old s) _) as [p1|] eqn:E1; [|discriminate]. cbn [bind].
    destruct (sync tau (s_c2old s) _) as [p2|] eqn:E2; [|discriminate]. cbn [bind].
    destruct (sync tau (s_aold s) _) as [pa|] eqn:E3; [|discriminate]. cbn [bind].
    intros H. injection H as <- <- <-. cbn. repeat split; assumption.
  - intros H. injection H as <- <- <-. cbn. repeat split; assumption.
Qed.

Lemma sac_inv j tau al x b (s : St) s' w t : sac_learn W j tau al x b s = Ok (s', w, t) ->
  let c1 := stepped (s_c1 s) (w_dcritic W (n_par (s_c1 s)) b) in
  let c2 := stepped (s_c2 s) (w_dcritic W (n_par (s_c2 s)) b) in
  let ps := [n_par c1; n_par c2] in
  let a := stepped (s_a s) (w_dactor W (n_par (s_a s)) ps al x (mb_rows b)) in
  s_a s' = a /\ view (s_c1 s') = view c1 /\ options (s_c1 s') = options c1 /\ view (s_c2 s') = view c2 /\ options (s_c2 s') = options c2
  /\ sync tau (s_c1old s) (n_par c1) = Ok (s_c1old s') /\ sync tau (s_c2old s) (n_par c2) = Ok (s_c2old s') /\ s_aold s' = s_aold s
  /\ w = halves (td W (n_par (s_c1 s)) b) (td W (n_par (s_c2 s)) b) /\ t_actor t = w_aloss W (n_par (s_a s)) ps al x (mb_rows b).
Proof.
  unfold sac_learn, mse_optimizer. cbv zeta. fold (stepped (s_c1 s) (w_dcritic W (n_par (s_c1 s)) b)).
  fold (stepped (s_c2 s) (w_dcritic W (n_par (s_c2 s)) b)).
  set (c1 := stepped (s_c1 s) _). set (c2 := stepped (s_c2 s) _).
  fold (stepped (s_a s) (w_dactor W (n_par (s_a s)) [n_par c1; n_par c2] al x (mb_rows b))). set (a := stepped (s_a s) _).
  destruct j; cbn [n_par backward];
    (destruct (sync tau (s_c1old s) _) as [p1|] eqn:E1; [|discriminate]); cbn [bind];
    (destruct (sync tau (s_c2old s) _) as [p2|] eqn:E2; [|discriminate]); cbn [bind];
    intros H; injection H as <- <- <-; cbn; repeat split; assumption.
Qed.

Lemma redq_inv tau al d x b (s : St) s' w t : redq_learn W tau al d x b s = Ok (s', w, t) ->
  let c1 := stepped (s_c1 s) (w_dcritic W (n_par (s_c1 s)) b) in
  let a := stepped (s_a s) (w_dactor W (n_par (s_a s)) [n_par c1] al x (mb_rows b)) in
  let aloss := w_aloss W (n_par (s_a s)) [n_par c1] al x (mb_rows b) in
  d <> 0 /\ view (s_c1 s') = view c1 /\ options (s_c1 s') = options c1 /\ s_c2 s' = s_c2 s /\ s_c2old s' = s_c2old s /\ s_cnt s' = S (s_cnt s)
  /\ w = map np_mean (redq_td W (n_par (s_c1 s)) b) /\ t_actor t = s_last s' /\ s_aold s' = s_aold s
  /\ sync tau (s_c1old s) (n_par c1) = Ok (s_c1old s')
  /\ if S (s_cnt s) mod d =? 0 then s_a s' = a /\ s_last s' = aloss else s_a s' = s_a s /\ s_last s' = s_last s.
Proof.
  unfold redq_learn. cbv zeta. fold (stepped (s_c1 s) (w_dcritic W (n_par (s_c1 s)) b)). set (c1 := stepped (s_c1 s) _).
  fold (stepped (s_a s) (w_dactor W (n_par (s_a s)) [n_par c1] al x (mb_rows b))). set (a := stepped (s_a s) _).
  unfold guard. destruct (Nat.eqb_spec d 0) as [|Nd]; [discriminate|]. cbn [negb].
  destruct (Nat.eqb_spec (S (s_cnt s) mod d) 0) as [E|E]; cbn [n_par backward];
    (destruct (sync tau (s_c1old s) _) as [p1|] eqn:E1; [|discriminate]); cbn [bind];
    intros H; injection H as <- <- <-; cbn; repeat split; assumption.
Qed.

(** No call raises and the shapes are kept. *)
Hypothesis K : keeps_shape W.
Lemma ddpg_total tau x b (s : St) : well_shaped s -> exists r, ddpg_learn W tau x b s = Ok r /\ well_shaped (fst (fst r)).
Proof.
  intros (Ha & H1 & H2). unfold ddpg_learn, mse_optimizer. cbv zeta. fold (stepped (s_c1 s) (w_dcritic W (n_par (s_c1 s)) b)).
  set (d1 := w_dcritic W _ b). set (c1 := stepped (s_c1 s) d1).
  set (d := w_dactor W _ _ _ _ _). fold (stepped (s_a s) d). set (a := stepped (s_a s) d). cbn [n_par backward].
  destruct (sync_ok tau (s_aold s) (n_par a)) as (pa & -> & Sa & _); [unfold a; rewrite stepped_shape by exact K; exact Ha|]. cbn [bind].
  destruct (sync_ok tau (s_c1old s) (n_par c1)) as (pc & -> & Sc & _); [unfold c1; rewrite stepped_shape by exact K; exact H1|]. cbn [bind].
  eexists. split; [reflexivity|]. unfold well_shaped. cbn. rewrite Sa, Sc. unfold a, c1. rewrite !stepped_shape by exact K. auto.
Qed.
Lemma td3_total tau f x b (s : St) : f <> 0 -> well_shaped s -> exists r, td3_learn W tau f x b s = Ok r /\ well_shaped (fst (fst r)).
Proof.
  intros Nf (Ha & H1 & H2). unfold td3_learn, mse_optimizer. cbv zeta. fold (stepped (s_c1 s) (w_dcritic W (n_par (s_c1 s)) b)).
  fold (stepped (s_c2 s) (w_dcritic W (n_par (s_c2 s)) b)).
  set (c1 := stepped (s_c1 s) _). set (c2 := stepped (s_c2 s) _). set (d := w_dactor W _ _ _ _ _). fold (stepped (s_a s) d). set (a := stepped (s_a s) d).
  unfold guard. rewrite (proj2 (Nat.eqb_neq f 0) Nf). cbn [negb n_par backward].
  destruct (s_cnt s mod f =? 0).
  - destruct (sync_ok tau (s_c1old s) (n_par c1)) as (p1 & -> & S1 & _); [unfold c1; rewrite stepped_shape by exact K; exact H1|]. cbn [bind].
    destruct (sync_ok tau (s_c2old s) (n_par c2)) as (p2 & -> & S2 & _); [unfold c2; rewrite stepped_shape by exact K; exact H2|]. cbn [bind].
    destruct (sync_ok tau (s_aold s) (n_par a)) as (pa & -> & Sa & _); [unfold a; rewrite stepped_shape by exact K; exact Ha|]. cbn [bind].
    eexists. split; [reflexivity|]. unfold well_shaped. cbn. rewrite Sa, S1, S2. unfold a, c1, c2. rewrite !stepped_shape by exact K. auto.
  - eexists. split; [reflexivity|]. unfold well_shaped. cbn. unfold c1, c2. rewrite !stepped_shape by exact K. auto.
Qed.
Lemma sac_total j tau al x b (s : St) : well_shaped s -> exists r, sac_learn W j tau al x b s = Ok r
  /\ (shape (s_c1old (fst (fst r))) = shape (n_par (s_c1 (fst (fst r)))) /\ shape (s_c2old (fst (fst r))) = shape (n_par (s_c2 (fst (fst r))))
      /\ shape (n_par (s_a (fst (fst r)))) = shape (n_par (s_a s)) /\ s_aold (fst (fst r)) = s_aold s).
Proof.
  intros (Ha & H1 & H2). unfold sac_learn, mse_optimizer. cbv zeta. fold (stepped (s_c1 s) (w_dcritic W (n_par (s_c1 s)) b)).
  fold (stepped (s_c2 s) (w_dcritic W (n_par (s_c2 s)) b)).
  set (c1 := stepped (s_c1 s) _). set (c2 := stepped (s_c2 s) _). set (d := w_dactor W _ _ _ _ _). fold (stepped (s_a s) d). set (a := stepped (s_a s) d).
  destruct j; cbn [n_par backward];
    (destruct (sync_ok tau (s_c1old s) (n_par c1)) as (p1 & -> & S1 & _); [unfold c1; rewrite stepped_shape by exact K; exact H1|]); cbn [bind];
    (destruct (sync_ok tau (s_c2old s) (n_par c2)) as (p2 & -> & S2 & _); [unfold c2; rewrite stepped_shape by exact K; exact H2|]); cbn [bind];
    eexists; (split; [reflexivity|]); cbn; rewrite S1, S2; unfold a, c1, c2; rewrite !stepped_shape by exact K; auto.
Qed.
Lemma redq_total tau al d x b (s : St) : d <> 0 -> well_shaped s -> exists r, redq_learn W tau al d x b s = Ok r /\ well_shaped (fst (fst r)).
Proof.
  intros Nd (Ha & H1 & H2). unfold redq_learn. cbv zeta. fold (stepped (s_c1 s) (w_dcritic W (n_par (s_c1 s)) b)). set (c1 := stepped (s_c1 s) _).
  set (da := w_dactor W _ _ _ _ _). fold (stepped (s_a s) da). set (a := stepped (s_a s) da).
  unfold guard. rewrite (proj2 (Nat.eqb_neq d 0) Nd). cbn [negb].
  destruct (S (s_cnt s) mod d =? 0); cbn [n_par backward];
    (destruct (sync_ok tau (s_c1old s) (n_par c1)) as (p1 & -> & S1 & _); [unfold c1; rewrite stepped_shape by exact K; exact H1|]); cbn [bind];
    eexists; (split; [reflexivity|]); unfold well_shaped; cbn; rewrite S1; unfold a, c1; rewrite !stepped_shape by exact K; auto.
Qed.
End One.

Lemma sac_total' {Cfg OS Ob Rnd} (W : @world Cfg OS Ob Rnd) j tau al x b s : keeps_shape W -> well_shaped s ->
  exists r, sac_learn W j tau al x b s = Ok r /\ well_shaped (fst (fst r)).
Proof.
  intros K Hs. destruct (sac_total W K j tau al x b s Hs) as (r & E & H1 & H2 & H3 & H4). exists r. split; [exact E|].
  destruct Hs as (Ha & _). unfold well_shaped. rewrite H4, H3. auto.
Qed.

(** Combine totality and inversion: every call of the trace. *)
Lemma trace_all {Cfg OS Ob Rnd : Type} (learn : Rnd -> @mb Ob -> @st Cfg OS -> res (st * list Qc * stats)) (I : st -> Prop) :
  (forall x b s, I s -> exists r, learn x b s = Ok r /\ I (fst (fst r))) ->
  forall cs s, I s -> exists l, trace learn cs s = Ok l /\ length l = length cs
    /\ forall k, k < length cs -> exists x b r, nth_error cs k = Some (x, b) /\ nth_error l k = Some r /\ learn x b (at_call s l k) = Ok r
         /\ at_call s l (S k) = fst (fst r) /\ I (at_call s l k).
Proof.
  intros H cs s Hs. destruct (trace_ok learn I H cs s Hs) as (l & E & L). exists l. split; [exact E|]. split; [exact L|].
  destruct (trace_nth _ _ _ _ E) as [_ N].
  assert (Inv : forall k, k <= length cs -> I (at_call s l k)).
  { apply (trace_inv learn I); [|exact Hs|exact E]. intros x b s0 r H0 E0. destruct (H x b s0 H0) as (r' & E' & H'). congruence. }
  intros k Hk. destruct (nth_error cs k) as [[x b]|] eqn:Ek; [|apply nth_error_None in Ek; lia].
  destruct (N k x b Ek) as (r & N1 & N2 & N3). exists x, b, r. repeat split; try assumption. apply Inv. lia.
Qed.

(** C166.  DDPG: no call raises, and after [n] calls the target networks are the exponential moving averages of
    the actors and critics after each call. *)
Lemma C166_ddpg_lemma : forall (Cfg OS Ob Rnd : Type) (W : @world Cfg OS Ob Rnd) tau cs s, keeps_shape W -> well_shaped s ->
  exists l, trace (ddpg_learn W tau) cs s = Ok l /\ length l = length cs
    /\ forall n, n <= length cs ->
         ema tau (s_aold s) (fun k => n_par (s_a (at_call s l (S k)))) n (s_aold (at_call s l n))
         /\ ema tau (s_c1old s) (fun k => n_par (s_c1 (at_call s l (S k)))) n (s_c1old (at_call s l n)).
Proof.
  intros Cfg OS Ob Rnd W tau cs s K Hs.
  destruct (trace_all (ddpg_learn W tau) well_shaped (fun x b s0 => ddpg_total W K tau x b s0) cs s Hs) as (l & E & L & H).
  exists l. split; [exact E|]. split; [exact L|]. intros n Hn. split.
  - apply (ema_every tau (fun k => s_aold (at_call s l k)) (fun k => n_par (s_a (at_call s l (S k))))).
    intros k Hk. destruct (H k ltac:(lia)) as (x & b & [[s' w] t] & _ & _ & E' & -> & (Ha & H1 & H2)).
    destruct (ddpg_inv _ _ _ _ _ _ _ _ E') as (Ea & Ec & _ & Sa & Sc & _). cbn [fst]. rewrite Ea, stepped_shape by exact K. split; assumption.
  - apply (ema_every tau (fun k => s_c1old (at_call s l k)) (fun k => n_par (s_c1 (at_call s l (S k))))).
    intros k Hk. destruct (H k ltac:(lia)) as (x & b & [[s' w] t] & _ & _ & E' & -> & (Ha & H1 & H2)).
    destruct (ddpg_inv _ _ _ _ _ _ _ _ E') as (Ea & Ec & _ & Sa & Sc & _). cbn [fst]. rewrite Ec. cbn [n_par backward].
    rewrite stepped_shape by exact K. split; assumption.
Qed.

Lemma view_par {Cfg OS} (n m : @net Cfg OS) : view n = view m -> n_par n = n_par m.
Proof. intros H. apply (f_equal snd) in H. exact H. Qed.

(** C166.  SAC and discrete SAC: the same for the targets of both critics; the copy of the actor made by the
    constructor of DDPG never changes. *)
Lemma C166_sac_lemma : forall (Cfg OS Ob Rnd : Type) (W : @world Cfg OS Ob Rnd) joint tau alpha cs s, keeps_shape W -> well_shaped s ->
  exists l, trace (sac_learn W joint tau alpha) cs s = Ok l /\ length l = length cs
    /\ forall n, n <= length cs ->
         ema tau (s_c1old s) (fun k => n_par (s_c1 (at_call s l (S k)))) n (s_c1old (at_call s l n))
         /\ ema tau (s_c2old s) (fun k => n_par (s_c2 (at_call s l (S k)))) n (s_c2old (at_call s l n))
         /\ s_aold (at_call s l n) = s_aold s.
Proof.
  intros Cfg OS Ob Rnd W j tau al cs s K Hs.
  destruct (trace_all (sac_learn W j tau al) well_shaped (fun x b s0 => sac_total' W j tau al x b s0 K) cs s Hs) as (l & E & L & H).
  exists l. split; [exact E|]. split; [exact L|]. intros n Hn. split; [|split].
  - apply (ema_every tau (fun k => s_c1old (at_call s l k)) (fun k => n_par (s_c1 (at_call s l (S k))))).
    intros k Hk. destruct (H k ltac:(lia)) as (x & b & [[s' w] t] & _ & _ & E' & -> & (Ha & H1 & H2)).
    destruct (sac_inv _ _ _ _ _ _ _ _ _ _ E') as (_ & V1 & _ & V2 & _ & S1 & S2 & _). cbn [fst]. apply view_par in V1. rewrite V1.
    rewrite stepped_shape by exact K. split; assumption.
  - apply (ema_every tau (fun k => s_c2old (at_call s l k)) (fun k => n_par (s_c2 (at_call s l (S k))))).
    intros k Hk. destruct (H k ltac:(lia)) as (x & b & [[s' w] t] & _ & _ & E' & -> & (Ha & H1 & H2)).
    destruct (sac_inv _ _ _ _ _ _ _ _ _ _ E') as (_ & V1 & _ & V2 & _ & S1 & S2 & _). cbn [fst]. apply view_par in V2. rewrite V2.
    rewrite stepped_shape by exact K. split; assumption.
  - induction n as [|n IH]; [reflexivity|]. destruct (H n ltac:(lia)) as (x & b & [[s' w] t] & _ & _ & E' & -> & _).
    destruct (sac_inv _ _ _ _ _ _ _ _ _ _ E') as (_ & _ & _ & _ & _ & _ & _ & A & _). cbn [fst]. rewrite A. apply IH. lia.
Qed.

(** C166.  REDQ: the target of the ensemble, also between the updates of the actor. *)
Lemma C166_redq_lemma : forall (Cfg OS Ob Rnd : Type) (W : @world Cfg OS Ob Rnd) tau alpha delay cs s, delay <> 0 -> keeps_shape W -> well_shaped s ->
  exists l, trace (redq_learn W tau alpha delay) cs s = Ok l /\ length l = length cs
    /\ forall n, n <= length cs -> ema tau (s_c1old s) (fun k => n_par (s_c1 (at_call s l (S k)))) n (s_c1old (at_call s l n)).
Proof.
  intros Cfg OS Ob Rnd W tau al d cs s Nd K Hs.
  destruct (trace_all (redq_learn W tau al d) well_shaped (fun x b s0 => redq_total W K tau al d x b s0 Nd) cs s Hs) as (l & E & L & H).
  exists l. split; [exact E|]. split; [exact L|]. intros n Hn.
  apply (ema_every tau (fun k => s_c1old (at_call s l k)) (fun k => n_par (s_c1 (at_call s l (S k))))).
  intros k Hk. destruct (H k ltac:(lia)) as (x & b & [[s' w] t] & _ & _ & E' & -> & (Ha & H1 & H2)).
  destruct (redq_inv _ _ _ _ _ _ _ _ _ _ E') as (_ & V1 & _ & _ & _ & _ & _ & _ & _ & S1 & _). cbn [fst]. apply view_par in V1. rewrite V1.
  rewrite stepped_shape by exact K. split; assumption.
Qed.

Lemma td3_cnt {Cfg OS Ob Rnd} (W : @world Cfg OS Ob Rnd) tau f cs s l : trace (td3_learn W tau f) cs s = Ok l ->
  forall k, k <= length cs -> s_cnt (at_call s l k) = s_cnt s + k.
Proof.
  intros E. destruct (trace_nth _ _ _ _ E) as [L N]. induction k as [|k IH]; intros Hk; [cbn; lia|].
  destruct (nth_error cs k) as [[x b]|] eqn:Ek; [|apply nth_error_None in Ek; lia].
  destruct (N k x b Ek) as ([[s' w] t] & _ & E' & ->). destruct (td3_inv _ _ _ _ _ _ _ _ _ E') as (_ & _ & _ & _ & C & _).
  cbn [fst]. rewrite C, IH by lia. lia.
Qed.
Lemma redq_cnt {Cfg OS Ob Rnd} (W : @world Cfg OS Ob Rnd) tau al d cs s l : trace (redq_learn W tau al d) cs s = Ok l ->
  forall k, k <= length cs -> s_cnt (at_call s l k) = s_cnt s + k.
Proof.
  intros E. destruct (trace_nth _ _ _ _ E) as [L N]. induction k as [|k IH]; intros Hk; [cbn; lia|].
  destruct (nth_error cs k) as [[x b]|] eqn:Ek; [|apply nth_error_None in Ek; lia].
  destruct (N k x b Ek) as ([[s' w] t] & _ & E' & ->). destruct (redq_inv _ _ _ _ _ _ _ _ _ _ E') as (_ & _ & _ & _ & _ & C & _).
  cbn [fst]. rewrite C, IH by lia. lia.
Qed.

(** C166.  TD3 (a new policy): the targets of actor and critics are the moving averages over the calls 0, f, 2 f, ...,
    with [f] the update_actor_freq. *)
Lemma C166_td3_lemma : forall (Cfg OS Ob Rnd : Type) (W : @world Cfg OS Ob Rnd) tau f cs s, f <> 0 -> s_cnt s = 0 -> keeps_shape W -> well_shaped s ->
  exists l, trace (td3_learn W tau f) cs s = Ok l /\ length l = length cs
    /\ forall n, n <= length cs ->
         ema tau (s_aold s) (fun k => n_par (s_a (at_call s l (S (k * f))))) ((n + f - 1) / f) (s_aold (at_call s l n))
         /\ ema tau (s_c1old s) (fun k => n_par (s_c1 (at_call s l (S (k * f))))) ((n + f - 1) / f) (s_c1old (at_call s l n))
         /\ ema tau (s_c2old s) (fun k => n_par (s_c2 (at_call s l (S (k * f))))) ((n + f - 1) / f) (s_c2old (at_call s l n)).
Proof.
  intros Cfg OS Ob Rnd W tau f cs s Nf C0 K Hs.
  destruct (trace_all (td3_learn W tau f) well_shaped (fun x b s0 => td3_total W K tau f x b s0 Nf) cs s Hs) as (l & E & L & H).
  pose proof (td3_cnt _ _ _ _ _ _ E) as C. exists l. split; [exact E|]. split; [exact L|]. intros n Hn. split; [|split].
  - apply (ema_delayed tau f (fun k => s_aold (at_call s l k)) (fun k => n_par (s_a (at_call s l (S k))))); [lia|].
    intros k Hk. destruct (H k ltac:(lia)) as (x & b & [[s' w] t] & _ & _ & E' & -> & (Ha & H1 & H2)).
    destruct (td3_inv _ _ _ _ _ _ _ _ _ E') as (_ & _ & _ & _ & _ & _ & _ & D). cbn [fst]. rewrite C, C0, Nat.add_0_l in D by lia.
    destruct (k mod f =? 0); [destruct D as (Ea & _ & Sa & _); rewrite Ea, stepped_shape by exact K; split; assumption|apply D].
  - apply (ema_delayed tau f (fun k => s_c1old (at_call s l k)) (fun k => n_par (s_c1 (at_call s l (S k))))); [lia|].
    intros k Hk. destruct (H k ltac:(lia)) as (x & b & [[s' w] t] & _ & _ & E' & -> & (Ha & H1 & H2)).
    destruct (td3_inv _ _ _ _ _ _ _ _ _ E') as (_ & _ & V & _ & _ & _ & _ & D). cbn [fst]. rewrite C, C0, Nat.add_0_l in D by lia.
    apply view_par in V. rewrite V. rewrite stepped_shape by exact K.
    destruct (k mod f =? 0); [destruct D as (_ & _ & _ & S1 & _); split; assumption|apply D].
  - apply (ema_delayed tau f (fun k => s_c2old (at_call s l k)) (fun k => n_par (s_c2 (at_call s l (S k))))); [lia|].
    intros k Hk. destruct (H k ltac:(lia)) as (x & b & [[s' w] t] & _ & _ & E' & -> & (Ha & H1 & H2)).
    destruct (td3_inv _ _ _ _ _ _ _ _ _ E') as (_ & V & _ & _ & _ & _ & _ & D). cbn [fst]. rewrite C, C0, Nat.add_0_l in D by lia.
    rewrite V. rewrite stepped_shape by exact K.
    destruct (k mod f =? 0); [destruct D as (_ & _ & _ & _ & S2); split; assumption|apply D].
Qed.

(** ** C167: delayed updates of the actor *)
(** C167.  TD3: call [k] updates both critics; it updates the actor and the targets if [k] is a multiple of the
    update_actor_freq and leaves them alone otherwise; the reported actor loss is that of the last such call. *)
Lemma C167_td3_lemma : forall (Cfg OS Ob Rnd : Type) (W : @world Cfg OS Ob Rnd) tau f cs s l, s_cnt s = 0 -> trace (td3_learn W tau f) cs s = Ok l ->
  forall k x b r, nth_error cs k = Some (x, b) -> nth_error l k = Some r ->
    let before := at_call s l k in let after := fst (fst r) in
    view (s_c1 after) = descend W (s_c1 before) (w_dcritic W (n_par (s_c1 before)) b)
    /\ view (s_c2 after) = descend W (s_c2 before) (w_dcritic W (n_par (s_c2 before)) b)
    /\ (k mod f = 0 -> view (s_a after) = descend W (s_a before) (w_dactor W (n_par (s_a before)) [n_par (s_c1 after)] 0%Qc x (mb_rows b)))
    /\ (k mod f <> 0 -> s_a after = s_a before /\ s_aold after = s_aold before /\ s_c1old after = s_c1old before /\ s_c2old after = s_c2old before)
    /\ exists x' b', nth_error cs (k / f * f) = Some (x', b') /\
         t_actor (snd r) = w_aloss W (n_par (s_a (at_call s l (k / f * f)))) [n_par (s_c1 (at_call s l (S (k / f * f))))] 0%Qc x' (mb_rows b').
Proof.
  intros Cfg OS Ob Rnd W tau f cs s l C0 E k x b r Ek Er. cbv zeta.
  destruct (trace_nth _ _ _ _ E) as [L N]. pose proof (td3_cnt _ _ _ _ _ _ E) as C.
  assert (Lk : k < length cs) by (apply nth_error_Some; congruence).
  destruct (N k x b Ek) as (r' & Er' & E' & At). rewrite Er in Er'. injection Er' as <-. destruct r as [[s' w] t].
  destruct (td3_inv _ _ _ _ _ _ _ _ _ E') as (Nf & V2 & V1 & _ & _ & _ & T & D). rewrite C, C0, Nat.add_0_l in D by lia. cbn [fst snd].
  split; [rewrite V1; apply stepped_view|]. split; [rewrite V2; apply stepped_view|].
  apply view_par in V1. split; [|split].
  - intros Z. rewrite (proj2 (Nat.eqb_eq _ _) Z) in D. destruct D as (-> & _). rewrite V1. apply stepped_view.
  - intros Z. rewrite (proj2 (Nat.eqb_neq _ _) Z) in D. destruct D as (-> & _ & -> & -> & ->). auto.
  - (* the last actor loss *)
    assert (G : forall m, m < length cs -> exists x' b', nth_error cs (m / f * f) = Some (x', b') /\
         s_last (at_call s l (S m)) = w_aloss W (n_par (s_a (at_call s l (m / f * f)))) [n_par (s_c1 (at_call s l (S (m / f * f))))] 0%Qc x' (mb_rows b')).
    { clear - Nf C C0 N. induction m as [|m IH]; intros Hm.
      - rewrite Nat.div_0_l, Nat.mul_0_l by exact Nf. destruct (nth_error cs 0) as [[x b]|] eqn:Ek; [|apply nth_error_None in Ek; lia].
        destruct (N 0 x b Ek) as ([[s' w] t] & _ & E' & At). destruct (td3_inv _ _ _ _ _ _ _ _ _ E') as (_ & _ & V1 & _ & _ & _ & _ & D).
        rewrite C, C0, Nat.add_0_l, Nat.mod_0_l in D by lia. cbn [Nat.eqb] in D. exists x, b. split; [reflexivity|]. rewrite At. cbn [fst].
        destruct D as (_ & -> & _). apply view_par in V1. rewrite V1. reflexivity.
      - destruct (nth_error cs (S m)) as [[x b]|] eqn:Ek; [|apply nth_error_None in Ek; lia].
        destruct (N (S m) x b Ek) as ([[s' w] t] & _ & E' & At). destruct (td3_inv _ _ _ _ _ _ _ _ _ E') as (_ & _ & V1 & _ & _ & _ & _ & D).
        rewrite C, C0, Nat.add_0_l in D by lia.
        pose proof (Nat.div_mod (S m) f Nf) as DM. pose proof (Nat.mod_upper_bound (S m) f Nf) as U.
        destruct (Nat.eqb_spec (S m mod f) 0) as [Z|Z].
        + replace (S m / f * f) with (S m) by (rewrite Nat.mul_comm; lia). exists x, b. split; [exact Ek|]. rewrite At. cbn [fst].
          destruct D as (_ & -> & _). apply view_par in V1. rewrite V1. reflexivity.
        + replace (S m / f) with (m / f).
          * destruct (IH ltac:(lia)) as (x' & b' & E1 & E2). exists x', b'. split; [exact E1|]. rewrite <- E2, At. cbn [fst]. apply D.
          * apply (Nat.div_unique (S m) f (m / f) (S (m mod f))); [|pose proof (Nat.div_mod m f Nf); lia].
            pose proof (Nat.div_mod m f Nf) as DM'. pose proof (Nat.mod_upper_bound m f Nf) as U'.
            destruct (Nat.eq_dec (S (m mod f)) f) as [Q|Q]; [|lia]. exfalso. apply Z.
            replace (S m) with (0 + (m / f + 1) * f) by nia. rewrite Nat.mod_add by exact Nf. apply Nat.mod_0_l, Nf. }
    destruct (G k Lk) as (x' & b' & E1 & E2). exists x', b'. split; [exact E1|]. rewrite <- E2, At. exact T.
Qed.

(** C167.  REDQ (a new policy): call [k] updates the ensemble and its target; it updates the actor if [k + 1] is a
    multiple of actor_delay; the reported actor loss is that of the last such call, the initial 0.0 before the first. *)
Lemma C167_redq_lemma : forall (Cfg OS Ob Rnd : Type) (W : @world Cfg OS Ob Rnd) tau alpha d cs s l, s_cnt s = 0 ->
  trace (redq_learn W tau alpha d) cs s = Ok l ->
  forall k x b r, nth_error cs k = Some (x, b) -> nth_error l k = Some r ->
    let before := at_call s l k in let after := fst (fst r) in
    view (s_c1 after) = descend W (s_c1 before) (w_dcritic W (n_par (s_c1 before)) b)
    /\ (S k mod d = 0 -> view (s_a after) = descend W (s_a before) (w_dactor W (n_par (s_a before)) [n_par (s_c1 after)] alpha x (mb_rows b))
                         /\ t_actor (snd r) = w_aloss W (n_par (s_a before)) [n_par (s_c1 after)] alpha x (mb_rows b))
    /\ (S k mod d <> 0 -> s_a after = s_a before /\ t_actor (snd r) = s_last before)
    /\ (S k < d -> t_actor (snd r) = s_last s /\ s_a after = s_a s).
Proof.
  intros Cfg OS Ob Rnd W tau al d cs s l C0 E k x b r Ek Er. cbv zeta.
  destruct (trace_nth _ _ _ _ E) as [L N]. pose proof (redq_cnt _ _ _ _ _ _ _ E) as C.
  assert (Lk : k < length cs) by (apply nth_error_Some; congruence).
  destruct (N k x b Ek) as (r' & Er' & E' & At). rewrite Er in Er'. injection Er' as <-. destruct r as [[s' w] t].
  destruct (redq_inv _ _ _ _ _ _ _ _ _ _ E') as (Nd & V1 & _ & _ & _ & _ & _ & T & _ & _ & D). rewrite C, C0, Nat.add_0_l in D by lia. cbn [fst snd].
  split; [rewrite V1; apply stepped_view|]. apply view_par in V1. split; [|split].
  - intros Z. rewrite (proj2 (Nat.eqb_eq _ _) Z) in D. destruct D as (-> & D). rewrite T, D, V1. split; [apply stepped_view|reflexivity].
  - intros Z. rewrite (proj2 (Nat.eqb_neq _ _) Z) in D. destruct D as (-> & D). rewrite T, D. auto.
  - intros Hk.
    assert (G : forall m, S m < d -> m < length cs -> s_last (at_call s l (S m)) = s_last s /\ s_a (at_call s l (S m)) = s_a s).
    { clear - Nd C C0 N. induction m as [|m IH]; intros Hm Hl.
      - destruct (nth_error cs 0) as [[x b]|] eqn:Ek; [|apply nth_error_None in Ek; lia].
        destruct (N 0 x b Ek) as ([[s' w] t] & _ & E' & At). destruct (redq_inv _ _ _ _ _ _ _ _ _ _ E') as (_ & _ & _ & _ & _ & _ & _ & _ & _ & _ & D).
        rewrite C, C0, Nat.add_0_l, Nat.mod_small in D by lia. cbn [Nat.eqb] in D. rewrite At. cbn [fst]. destruct D as (-> & ->). auto.
      - destruct (nth_error cs (S m)) as [[x b]|] eqn:Ek; [|apply nth_error_None in Ek; lia].
        destruct (N (S m) x b Ek) as ([[s' w] t] & _ & E' & At). destruct (redq_inv _ _ _ _ _ _ _ _ _ _ E') as (_ & _ & _ & _ & _ & _ & _ & _ & _ & _ & D).
        rewrite C, C0, Nat.add_0_l, Nat.mod_small in D by lia. cbn [Nat.eqb] in D. rewrite At. cbn [fst]. destruct D as (-> & ->). apply IH; lia. }
    destruct (G k Hk Lk) as [G1 G2]. rewrite At in G1, G2. cbn [fst] in G1, G2. rewrite T. auto.
Qed.

(** C167.  A frequency of zero raises in the first call. *)
Lemma C167_zero_lemma : forall (Cfg OS Ob Rnd : Type) (W : @world Cfg OS Ob Rnd) tau alpha x b s,
  td3_learn W tau 0 x b s = Err ZeroDivisionError /\ redq_learn W tau alpha 0 x b s = Err ZeroDivisionError.
Proof. intros. split; reflexivity. Qed.

(** ** C168: gradients *)
(** C168.  Whatever is left in the [.grad] fields, every optimizer step of a [learn] call uses the gradient of its own
    loss only (the actor's loss also sends gradients into the critics): critics by their loss at the old parameters,
    the actor by its loss at the new critics.  Options of the optimizers are kept. *)
Lemma C168_gradients_lemma : forall (Cfg OS Ob Rnd : Type) (W : @world Cfg OS Ob Rnd) tau f joint alpha x b s s' w t,
  (ddpg_learn W tau x b s = Ok (s', w, t) ->
     view (s_c1 s') = descend W (s_c1 s) (w_dcritic W (n_par (s_c1 s)) b)
     /\ view (s_a s') = descend W (s_a s) (w_dactor W (n_par (s_a s)) [n_par (s_c1 s')] 0%Qc x (mb_rows b))
     /\ options (s_c1 s') = options (s_c1 s) /\ options (s_a s') = options (s_a s))
  /\ (td3_learn W tau f x b s = Ok (s', w, t) ->
     view (s_c1 s') = descend W (s_c1 s) (w_dcritic W (n_par (s_c1 s)) b)
     /\ view (s_c2 s') = descend W (s_c2 s) (w_dcritic W (n_par (s_c2 s)) b)
     /\ view (s_a s') = (if s_cnt s mod f =? 0 then descend W (s_a s) (w_dactor W (n_par (s_a s)) [n_par (s_c1 s')] 0%Qc x (mb_rows b)) else view (s_a s))
     /\ options (s_c1 s') = options (s_c1 s) /\ options (s_c2 s') = options (s_c2 s) /\ options (s_a s') = options (s_a s))
  /\ (sac_learn W joint tau alpha x b s = Ok (s', w, t) ->
     view (s_c1 s') = descend W (s_c1 s) (w_dcritic W (n_par (s_c1 s)) b)
     /\ view (s_c2 s') = descend W (s_c2 s) (w_dcritic W (n_par (s_c2 s)) b)
     /\ view (s_a s') = descend W (s_a s) (w_dactor W (n_par (s_a s)) [n_par (s_c1 s'); n_par (s_c2 s')] alpha x (mb_rows b))
     /\ options (s_c1 s') = options (s_c1 s) /\ options (s_c2 s') = options (s_c2 s) /\ options (s_a s') = options (s_a s))
  /\ (redq_learn W tau alpha f x b s = Ok (s', w, t) ->
     view (s_c1 s') = descend W (s_c1 s) (w_dcritic W (n_par (s_c1 s)) b)
     /\ view (s_a s') = (if S (s_cnt s) mod f =? 0 then descend W (s_a s) (w_dactor W (n_par (s_a s)) [n_par (s_c1 s')] alpha x (mb_rows b)) else view (s_a s))
     /\ options (s_c1 s') = options (s_c1 s) /\ options (s_a s') = options (s_a s)).
Proof.
  intros Cfg OS Ob Rnd W tau f j al x b s s' w t. split; [|split; [|split]]; intros E.
  - destruct (ddpg_inv _ _ _ _ _ _ _ _ E) as (-> & -> & _). cbn [n_par backward].
    split; [apply stepped_view|]. split; [apply stepped_view|]. split; apply stepped_view.
  - destruct (td3_inv _ _ _ _ _ _ _ _ _ E) as (_ & -> & V1 & O1 & _ & _ & _ & D). rewrite V1, O1. apply view_par in V1. rewrite V1.
    split; [apply stepped_view|]. split; [apply stepped_view|].
    destruct (s_cnt s mod f =? 0); destruct D as (-> & _); (split; [try apply stepped_view; reflexivity|]);
      (split; [apply stepped_view|split; [apply stepped_view|]]); [apply stepped_view|reflexivity].
  - destruct (sac_inv _ _ _ _ _ _ _ _ _ _ E) as (-> & V1 & O1 & V2 & O2 & _). rewrite V1, O1, V2, O2. apply view_par in V1, V2. rewrite V1, V2.
    repeat (split; [apply stepped_view|]). apply stepped_view.
  - destruct (redq_inv _ _ _ _ _ _ _ _ _ _ E) as (_ & V1 & O1 & _ & _ & _ & _ & _ & _ & _ & D). rewrite V1, O1. apply view_par in V1. rewrite V1.
    split; [apply stepped_view|].
    destruct (S (s_cnt s) mod f =? 0); destruct D as (-> & _); (split; [try apply stepped_view; reflexivity|]);
      (split; [apply stepped_view|]); [apply stepped_view|reflexivity].
Qed.

(** ** C169: the two critics *)
Definition twins {Cfg OS} (s : @st Cfg OS) : Prop :=
  view (s_c1 s) = view (s_c2 s) /\ o_cls (n_opt (s_c1 s)) = o_cls (n_opt (s_c2 s)) /\ o_groups (n_opt (s_c1 s)) = o_groups (n_opt (s_c2 s))
  /\ s_c1old s = s_c2old s.
Lemma stepped_twin {Cfg OS Ob Rnd} (W : @world Cfg OS Ob Rnd) n m b : view n = view m -> o_cls (n_opt n) = o_cls (n_opt m) ->
  o_groups (n_opt n) = o_groups (n_opt m) ->
  let n' := stepped W n (w_dcritic W (n_par n) b) in let m' := stepped W m (w_dcritic W (n_par m) b) in
  view n' = view m' /\ o_cls (n_opt n') = o_cls (n_opt m') /\ o_groups (n_opt n') = o_groups (n_opt m').
Proof.
  intros V C G n' m'. pose proof (view_par _ _ V) as P. assert (S : o_st (n_opt n) = o_st (n_opt m)) by (apply (f_equal fst) in V; exact V).
  destruct (stepped_view W n (w_dcritic W (n_par n) b)) as [V1 O1]. destruct (stepped_view W m (w_dcritic W (n_par m) b)) as [V2 O2].
  fold n' in V1, O1. fold m' in V2, O2. unfold options in O1, O2. injection O1 as A1 A2 A3. injection O2 as B1 B2 B3.
  split; [|split; congruence]. rewrite V1, V2. unfold descend. rewrite P, S, C, G. reflexivity.
Qed.
Lemma twins_td3 {Cfg OS Ob Rnd} (W : @world Cfg OS Ob Rnd) tau f x b s r : twins s -> td3_learn W tau f x b s = Ok r -> twins (fst (fst r)).
Proof.
  intros (V & C & G & O) E. destruct r as [[s' w] t]. destruct (td3_inv _ _ _ _ _ _ _ _ _ E) as (_ & E2 & V1 & O1 & _ & _ & _ & D).
  destruct (stepped_twin W _ _ b V C G) as (TV & TC & TG). unfold twins. cbn [fst]. rewrite E2. unfold options in O1. injection O1 as A1 A2 A3.
  split; [congruence|]. split; [congruence|]. split; [congruence|].
  destruct (s_cnt s mod f =? 0); [|destruct D as (_ & _ & _ & -> & ->); exact O].
  destruct D as (_ & _ & _ & S1 & S2). rewrite O, (view_par _ _ TV) in S1. congruence.
Qed.
Lemma twins_sac {Cfg OS Ob Rnd} (W : @world Cfg OS Ob Rnd) j tau al x b s r : twins s -> sac_learn W j tau al x b s = Ok r -> twins (fst (fst r)).
Proof.
  intros (V & C & G & O) E. destruct r as [[s' w] t]. destruct (sac_inv _ _ _ _ _ _ _ _ _ _ E) as (_ & V1 & O1 & V2 & O2 & S1 & S2 & _).
  destruct (stepped_twin W _ _ b V C G) as (TV & TC & TG). unfold twins. cbn [fst]. unfold options in O1, O2. injection O1 as A1 A2 A3. injection O2 as B1 B2 B3.
  split; [congruence|]. split; [congruence|]. split; [congruence|]. rewrite O, (view_par _ _ TV) in S1. congruence.
Qed.
Lemma min_same (x : Qc) : Qcminb x x = x.
Proof. mm; reflexivity. Qed.
Lemma halves_same e : halves e e = e.
Proof.
  unfold halves. induction e as [|x e IH]; [reflexivity|]. cbn [combine map fst snd]. f_equal; [|exact IH].
  apply Qc_cancel with (c := Q2Qc (2 # 1)); [discriminate|]. unfold Qcdiv. rewrite <- Qcmult_assoc, (Qcmult_comm (/ _)), Qcmult_inv_r by discriminate.
  replace (Q2Qc (2 # 1)) with (1 + 1)%Qc by (apply Qc_is_canon; reflexivity). ring.
Qed.

(** C169.  REFUTED: without critic2 the second critic of TD3 and SAC is a copy with an optimizer of the same options;
    both then see the same batches, targets and weights, so they stay equal after every sequence of [learn] calls: the
    minimum of the two is the first, and the new weight is the error of the first. *)
Lemma C169_same_refuted_lemma : forall (Cfg OS Ob Rnd : Type) (W : @world Cfg OS Ob Rnd) check a c1 s, is_standard (o_cls (n_opt c1)) = true ->
  o_groups (n_opt c1) = o_defaults (n_opt c1) -> o_st (n_opt c1) = w_os0 W -> init W check a c1 None None = Ok s ->
  forall tau f joint alpha cs l, trace (td3_learn W tau f) cs s = Ok l \/ trace (sac_learn W joint tau alpha) cs s = Ok l ->
  forall k, k <= length cs ->
    let s' := at_call s l k in
    n_par (s_c1 s') = n_par (s_c2 s') /\ s_c1old s' = s_c2old s'
    /\ (forall pn nc z o, let act := smoothed_action pn nc z (w_actor W (s_aold s') o) in td3_target W pn nc z s' o = w_critic W (s_c1old s') o act)
    /\ (forall o act lp, sac_target W alpha s' o act lp = (w_critic W (s_c1old s') o act - alpha * lp)%Qc)
    /\ (forall b, halves (td W (n_par (s_c1 s')) b) (td W (n_par (s_c2 s')) b) = td W (n_par (s_c1 s')) b).
Proof.
  intros Cfg OS Ob Rnd W check a c1 s Hstd Hg Ho Hi tau f j al cs l E k Hk s'.
  assert (T : twins s).
  { unfold init, clone_optimizer, guard in Hi. rewrite Hstd in Hi. cbn in Hi. injection Hi as <-. unfold twins, view. cbn. rewrite Ho, Hg. auto. }
  assert (T' : twins s').
  { destruct E as [E|E].
    - apply (trace_inv (td3_learn W tau f) twins (fun x b s r => twins_td3 W tau f x b s r) cs s l T E k Hk).
    - apply (trace_inv (sac_learn W j tau al) twins (fun x b s r => twins_sac W j tau al x b s r) cs s l T E k Hk). }
  destruct T' as (V & _ & _ & O). apply view_par in V. split; [exact V|]. split; [exact O|]. split; [|split].
  - intros pn nc z o. cbv zeta. unfold td3_target. cbv zeta. rewrite <- O. apply min_same.
  - intros o act lp. unfold sac_target. rewrite <- O, min_same. reflexivity.
  - intros b. rewrite <- V. apply halves_same.
Qed.

(** C169.  Always: TD3 refuses a second critic without optimizer, SAC takes a copy of the first critic's options for it;
    a second critic that is passed is used as it is, its target is a copy, and it is trained by its own optimizer on its own loss. *)
Lemma C169_given_lemma : forall (Cfg OS Ob Rnd : Type) (W : @world Cfg OS Ob Rnd) check a c1 p2 o2,
  init W true a c1 (Some p2) None = Err ValueError
  /\ (exists s, init W check a c1 (Some p2) (Some o2) = Ok s /\ n_par (s_c2 s) = p2 /\ s_c2old s = p2 /\ n_opt (s_c2 s) = o2
        /\ s_c1 s = c1 /\ s_c1old s = n_par c1 /\ s_aold s = n_par a
        /\ forall tau f x b s' w t, td3_learn W tau f x b s = Ok (s', w, t) -> view (s_c2 s') = w_ostep W (o_cls o2) (o_groups o2) (o_st o2) p2 (w_dcritic W p2 b)).
Proof.
  intros Cfg OS Ob Rnd W check a c1 p2 o2. split; [reflexivity|]. unfold init. cbn [bind]. eexists. split; [reflexivity|].
  do 6 (split; [reflexivity|]). intros tau f x b s' w t E. destruct (td3_inv _ _ _ _ _ _ _ _ _ E) as (_ & -> & _). apply stepped_view.
Qed.

(** ** C170: target policy smoothing *)
Lemma nth_map_lt {A B} (f : A -> B) l j d d' : j < length l -> nth j (map f l) d = f (nth j l d').
Proof. intros H. rewrite (nth_indep (map f l) d (f d')) by (rewrite map_length; exact H). apply map_nth. Qed.
Lemma mult_div (x l : Qc) : (0 < l)%Qc -> (x / l * l = x)%Qc.
Proof. intros H. unfold Qcdiv. rewrite <- Qcmult_assoc, (Qcmult_comm (/ l)), Qcmult_inv_r; [ring|]. intros ->. qclra. Qed.
Lemma smoothed_nth pn nc z a j : j < length a -> length z = length a ->
  nth j (smoothed_action pn nc z a) 0%Qc = (nth j a 0 + nth j (smooth_noise pn nc z) 0)%Qc /\ length (smooth_noise pn nc z) = length z.
Proof.
  intros Hj Hz. assert (L : length (smooth_noise pn nc z) = length z) by (unfold smooth_noise; destruct (Qcltb 0 nc); rewrite ?map_length; reflexivity).
  split; [|exact L]. unfold smoothed_action.
  rewrite (nth_map_lt _ _ _ _ (0%Qc, 0%Qc)) by (rewrite combine_length; lia). rewrite combine_nth by lia. reflexivity.
Qed.
Lemma clamp_bounds c x : (0 < c)%Qc -> (- c <= clampq (- c) c x)%Qc /\ (clampq (- c) c x <= c)%Qc /\ ((- c <= x)%Qc -> (x <= c)%Qc -> clampq (- c) c x = x).
Proof. intros H. unfold clampq. split; [mm; qclra|]. split; [mm; qclra|]. intros A B. mm; try reflexivity; qclra. Qed.

(** C170.  With a positive noise_clip every component of the smoothed action is within noise_clip of the target actor's
    action; the target value is at most the value of either target critic, and one of them. *)
Lemma C170_noise_partial_lemma : forall (Cfg OS Ob Rnd : Type) (W : @world Cfg OS Ob Rnd) pn nc z s o, (0 < nc)%Qc ->
  let a := w_actor W (s_aold s) o in let act := smoothed_action pn nc z a in length z = length a ->
  length act = length a
  /\ (forall j, j < length a -> (nth j a 0 - nc <= nth j act 0)%Qc /\ (nth j act 0 <= nth j a 0 + nc)%Qc)
  /\ (td3_target W pn nc z s o <= w_critic W (s_c1old s) o act)%Qc /\ (td3_target W pn nc z s o <= w_critic W (s_c2old s) o act)%Qc
  /\ (td3_target W pn nc z s o = w_critic W (s_c1old s) o act \/ td3_target W pn nc z s o = w_critic W (s_c2old s) o act).
Proof.
  intros Cfg OS Ob Rnd W pn nc z s o Hn a act Hz. split; [|split].
  - unfold act, smoothed_action, smooth_noise. rewrite map_length, combine_length. destruct (Qcltb 0 nc); rewrite !map_length; lia.
  - intros j Hj. destruct (smoothed_nth pn nc z a j Hj Hz) as [E L]. unfold act. rewrite E.
    assert (B : exists y, nth j (smooth_noise pn nc z) 0%Qc = clampq (- nc) nc y).
    { unfold smooth_noise. destruct (Qcltb_spec 0 nc) as [_|N]; [|exfalso; qclra].
      eexists. apply (nth_map_lt (clampq (- nc) nc) _ _ _ 0%Qc). rewrite map_length. lia. }
    destruct B as [y ->]. destruct (clamp_bounds nc y Hn) as (B1 & B2 & _). set (c := clampq _ _ _) in *. set (q := nth j a 0%Qc). clearbody c q. split; qclra.
  - unfold td3_target. cbv zeta. fold a. fold act. destruct (minb_spec (w_critic W (s_c1old s) o act) (w_critic W (s_c2old s) o act)) as [[H E]|[H E]]; rewrite E.
    + split; [qclra|]. split; [exact H|now left].
    + split; [apply Qclt_le_weak; exact H|]. split; [qclra|now right].
Qed.

(** C170.  REFUTED: the smoothed action stays in the action range.  Wherever the target actor's action is at the upper
    bound and the draw positive, the critics are evaluated outside the range. *)
Lemma C170_range_refuted_lemma : forall pn nc (hi : Qc) z a j, (0 < pn)%Qc -> length z = length a -> j < length a ->
  nth j a 0%Qc = hi -> (0 < nth j z 0)%Qc -> (hi < nth j (smoothed_action pn nc z a) 0)%Qc.
Proof.
  intros pn nc hi z a j Hp Hz Hj Ha Hd. destruct (smoothed_nth pn nc z a j Hj Hz) as [-> L]. rewrite Ha.
  assert (P : (0 < nth j z 0 * pn)%Qc).
  { set (v := nth j z 0%Qc) in *. clearbody v. rewrite <- (Qcmult_0_l pn). apply Qcmult_lt_compat_r; [exact Hp|exact Hd]. }
  assert (E : nth j (map (fun x => x * pn)%Qc z) 0%Qc = (nth j z 0 * pn)%Qc).
  { apply (nth_map_lt (fun x => x * pn)%Qc). lia. }
  enough (G : (0 < nth j (smooth_noise pn nc z) 0)%Qc) by (set (v := nth j (smooth_noise pn nc z) 0%Qc) in *; clearbody v; qclra).
  unfold smooth_noise. destruct (Qcltb_spec 0 nc) as [Hn|_]; [|rewrite E; exact P].
  assert (E2 : nth j (map (clampq (- nc) nc) (map (fun x => x * pn)%Qc z)) 0%Qc = clampq (- nc) nc (nth j z 0 * pn)%Qc).
  { rewrite <- E. apply nth_map_lt. rewrite map_length. lia. }
  rewrite E2. set (y := (nth j z 0 * pn)%Qc) in *. clearbody y. unfold clampq. clear - P Hn. mm; qclra.
Qed.

(** ** C171: soft targets *)
Lemma minl_spec l : l <> [] -> In (minl l) l /\ forall x, In x l -> (minl l <= x)%Qc.
Proof.
  destruct l as [|x l]; [contradiction|]. intros _. unfold minl.
  assert (G : forall l x, (In (fold_left Qcminb l x) (x :: l)) /\ (fold_left Qcminb l x <= x)%Qc /\ forall y, In y l -> (fold_left Qcminb l x <= y)%Qc).
  { clear. induction l as [|y l IH]; intro x; cbn [fold_left]; [split; [now left|]; split; [qclra|intros y []]|].
    destruct (IH (Qcminb x y)) as (I1 & I2 & I3). set (m := fold_left Qcminb l (Qcminb x y)) in *. clearbody m.
    destruct (minb_spec x y) as [[H E]|[H E]]; rewrite E in *.
    - split; [destruct I1 as [I1|I1]; [now left|now right; right]|]. split; [exact I2|]. intros z [->|Hz]; [qclra|apply I3, Hz].
    - split; [destruct I1 as [I1|I1]; [now right; left|now right; right]|]. split; [qclra|]. intros z [->|Hz]; [exact I2|apply I3, Hz]. }
  destruct (G l x) as (G1 & G2 & G3). split; [exact G1|]. intros y [->|Hy]; [exact G2|apply G3, Hy].
Qed.
Lemma mean_bounds l lo hi : l <> [] -> (forall x, In x l -> (lo <= x)%Qc /\ (x <= hi)%Qc) -> (lo <= np_mean l)%Qc /\ (np_mean l <= hi)%Qc.
Proof.
  intros Hl H. pose proof (mean_eq l Hl) as E. assert (P : (0 < sq (length l))%Qc) by (apply sq_pos; destruct l; [contradiction|cbn; lia]).
  assert (B : (lo * sq (length l) <= qsum l)%Qc /\ (qsum l <= hi * sq (length l))%Qc).
  { clear Hl E P. induction l as [|x l IH]; [cbn [qsum length]; rewrite sq0; split; qclra|]. cbn [qsum length]. rewrite sq_S.
    destruct (H x (or_introl eq_refl)) as [H1 H2]. destruct (IH ltac:(intros y Hy; apply H; now right)) as [I1 I2].
    set (a := sq (length l)) in *. set (b := qsum l) in *. clearbody a b. clear H IH.
    replace (lo * (a + 1))%Qc with (lo * a + lo)%Qc by ring. replace (hi * (a + 1))%Qc with (hi * a + hi)%Qc by ring.
    set (u := (lo * a)%Qc) in *. set (v := (hi * a)%Qc) in *. clearbody u v. split; qclra. }
  rewrite <- E in B. destruct B as [B1 B2]. set (c := sq (length l)) in *. set (m := np_mean l) in *. clearbody c m. clear E H Hl.
  split; (apply Qcnot_lt_le; intros X; apply (Qcmult_lt_compat_r _ _ c P) in X); [apply (Qcle_not_lt _ _ B1 X)|apply (Qcle_not_lt _ _ B2 X)].
Qed.
Lemma pick_ok (qs : list Qc) idx : Forall (fun i => i < length qs) idx ->
  mapM (fun i => zget qs (Z.of_nat i)) idx = Ok (map (fun i => nth i qs 0%Qc) idx).
Proof.
  induction 1 as [|i idx Hi _ IH]; [reflexivity|]. cbn [mapM map]. rewrite (zget_ok qs (Z.of_nat i) 0%Qc) by lia. cbn [bind]. rewrite IH. cbn [bind].
  rewrite Nat2Z.id. reflexivity.
Qed.
Lemma full_perm n idx : NoDup idx -> length idx = n -> Forall (fun i => i < n) idx -> Permutation.Permutation idx (seq 0 n).
Proof.
  intros Nd L F. apply Permutation.NoDup_Permutation_bis; [exact Nd|rewrite seq_length; lia|].
  intros i Hi. apply in_seq. rewrite Forall_forall in F. specialize (F i Hi). lia.
Qed.
Lemma perm_qsum l l' : Permutation.Permutation l l' -> qsum l = qsum l'.
Proof. induction 1; cbn [qsum]; try congruence; ring. Qed.
Lemma minl_perm l l' : Permutation.Permutation l l' -> l <> [] -> minl l = minl l'.
Proof.
  intros P Hl. assert (Hl' : l' <> []) by (intros ->; apply Permutation.Permutation_sym, Permutation.Permutation_nil in P; contradiction).
  destruct (minl_spec l Hl) as [A1 A2]. destruct (minl_spec l' Hl') as [B1 B2].
  apply Qcle_antisym; [apply A2, (Permutation.Permutation_in _ (Permutation.Permutation_sym P)), B1|apply B2, (Permutation.Permutation_in _ P), A1].
Qed.
Lemma nth_seq_id (qs : list Qc) : map (fun i => nth i qs 0%Qc) (seq 0 (length qs)) = qs.
Proof.
  induction qs as [|q qs IH]; [reflexivity|]. cbn [length seq map nth]. f_equal. rewrite <- seq_shift, map_map. exact IH.
Qed.

(** C171.  REDQ: for every non-empty subset of the ensemble both modes give a target; it lies between the smallest and the
    largest value of the whole ensemble minus the entropy term, the minimum is at most the mean and equals one of the
    chosen values; the whole ensemble as subset gives the same target in every order. *)
Lemma C171_redq_lemma : forall alpha lp qs idx, idx <> [] -> Forall (fun i => i < length qs) idx ->
  exists tmin tmean, redq_target TMin alpha lp qs idx = Ok tmin /\ redq_target TMean alpha lp qs idx = Ok tmean
    /\ (tmin <= tmean)%Qc
    /\ (exists i, In i idx /\ tmin = (nth i qs 0 - alpha * lp)%Qc) /\ (forall i, In i idx -> (tmin <= nth i qs 0 - alpha * lp)%Qc)
    /\ (forall lo hi, (forall q, In q qs -> (lo <= q)%Qc /\ (q <= hi)%Qc) -> (lo - alpha * lp <= tmin)%Qc /\ (tmean <= hi - alpha * lp)%Qc)
    /\ (NoDup idx -> length idx = length qs ->
         redq_target TMin alpha lp qs (seq 0 (length qs)) = Ok tmin /\ redq_target TMean alpha lp qs (seq 0 (length qs)) = Ok tmean
         /\ tmean = (np_mean qs - alpha * lp)%Qc).
Proof.
  intros al lp qs idx Hne F. unfold redq_target. rewrite (pick_ok qs idx F). cbn [bind]. set (sub := map (fun i => nth i qs 0%Qc) idx).
  assert (Hs : sub <> []) by (unfold sub; destruct idx; [contradiction|discriminate]).
  assert (Hin : forall x, In x sub -> exists i, In i idx /\ x = nth i qs 0%Qc) by (intros x Hx; unfold sub in Hx; apply in_map_iff in Hx; destruct Hx as (i & <- & Hi); eauto).
  assert (Hin' : forall x, In x sub -> In x qs).
  { intros x Hx. destruct (Hin x Hx) as (i & Hi & ->). apply nth_In. rewrite Forall_forall in F. apply F, Hi. }
  destruct (minl_spec sub Hs) as [M1 M2]. exists (minl sub - al * lp)%Qc, (np_mean sub - al * lp)%Qc.
  set (e := (al * lp)%Qc). split; [destruct sub; [contradiction|reflexivity]|]. split; [reflexivity|].
  destruct (maxl_spec sub Hs) as [_ X2].
  destruct (mean_bounds sub (minl sub) (maxl sub) Hs (fun x Hx => conj (M2 x Hx) (X2 x Hx))) as [B1 _].
  clearbody e. split; [set (u := minl sub) in *; set (v := np_mean sub) in *; clearbody u v; qclra|]. split; [|split; [|split]].
  - destruct (Hin _ M1) as (i & Hi & E). exists i. split; [exact Hi|]. rewrite E. reflexivity.
  - intros i Hi. assert (Hx : In (nth i qs 0%Qc) sub) by (apply in_map_iff; eauto). specialize (M2 _ Hx).
    set (u := minl sub) in *. set (v := nth i qs 0%Qc) in *. clearbody u v. qclra.
  - intros lo hi H. destruct (mean_bounds sub lo hi Hs (fun x Hx => H x (Hin' x Hx))) as [_ B]. destruct (H _ (Hin' _ M1)) as [B' _].
    set (u := minl sub) in *. set (v := np_mean sub) in *. clearbody u v. split; qclra.
  - intros Nd Hl. assert (P : Permutation.Permutation sub qs).
    { unfold sub. transitivity (map (fun i => nth i qs 0%Qc) (seq 0 (length qs))); [|rewrite nth_seq_id; reflexivity]. apply Permutation.Permutation_map, full_perm; assumption. }
    rewrite (pick_ok qs (seq 0 (length qs))) by (apply Forall_forall; intros i Hi; apply in_seq in Hi; lia). cbn [bind]. rewrite nth_seq_id.
    assert (M : np_mean sub = np_mean qs) by (unfold np_mean; rewrite (perm_qsum _ _ P), (Permutation.Permutation_length P); reflexivity).
    rewrite (minl_perm _ _ P Hs), M. destruct qs as [|q qs]; [|auto]. apply Permutation.Permutation_sym, Permutation.Permutation_nil in P. contradiction.
Qed.

Lemma dot_cons a l b m : dot (a :: l) (b :: m) = (a * b + dot l m)%Qc.
Proof. reflexivity. Qed.
(** C171.  Discrete SAC: the target is the mean, under the policy, of SAC's target of each action; it is at most the value
    computed with either critic alone. *)
Lemma C171_dsac_lemma : forall alpha p logp q1 q2, length logp = length p -> length q1 = length p -> length q2 = length p ->
  (forall i, (0 <= nth i p 0)%Qc) ->
  dsac_target alpha p logp q1 q2 = sum_n (length p) (fun i => nth i p 0 * (Qcminb (nth i q1 0) (nth i q2 0) - alpha * nth i logp 0))%Qc
  /\ (dsac_target alpha p logp q1 q2 <= dot p q1 + alpha * entropy p logp)%Qc
  /\ (dsac_target alpha p logp q1 q2 <= dot p q2 + alpha * entropy p logp)%Qc.
Proof.
  intros al p logp q1 q2 L1 L2 L3 Hp. unfold dsac_target, entropy. split; [|].
  - clear Hp. revert logp q1 q2 L1 L2 L3. induction p as [|x p IH]; intros [|y logp] [|u q1] [|v q2] L1 L2 L3; try discriminate.
    + unfold sum_n, dot. cbn. ring.
    + cbn [length] in L1, L2, L3 |- *. rewrite sum_n_S. unfold minrow in *. cbn [combine map fst snd nth]. rewrite !dot_cons.
      rewrite <- (IH logp q1 q2) by lia. ring.
  - assert (G : (dot p (minrow q1 q2) <= dot p q1)%Qc /\ (dot p (minrow q1 q2) <= dot p q2)%Qc).
    { clear L1. revert q1 q2 L2 L3. induction p as [|x p IH]; intros [|u q1] [|v q2] L2 L3; try discriminate; [unfold dot; cbn; split; qclra|].
      unfold minrow in *. cbn [combine map fst snd]. rewrite !dot_cons. destruct (IH ltac:(intros i; apply (Hp (S i))) q1 q2 ltac:(cbn in L2; lia) ltac:(cbn in L3; lia)) as [I1 I2].
      specialize (Hp 0). cbn [nth] in Hp.
      assert (Hu : (x * Qcminb u v <= x * u)%Qc /\ (x * Qcminb u v <= x * v)%Qc).
      { split; rewrite !(Qcmult_comm x); apply Qcmult_le_compat_r; try exact Hp; mm; qclra. }
      destruct Hu as [U1 U2]. set (m := (x * Qcminb u v)%Qc) in *. set (xu := (x * u)%Qc) in *. set (xv := (x * v)%Qc) in *.
      set (a := dot p _) in *. set (b := dot p q1) in *. set (c := dot p q2) in *. clearbody m xu xv a b c. split; qclra. }
    destruct G as [G1 G2]. set (a := dot p (minrow q1 q2)) in *. set (e := (al * - dot p logp)%Qc). clearbody e.
    set (b := dot p q1) in *. set (c := dot p q2) in *. clearbody a b c. split; qclra.
Qed.

(** C171.  Bounds of the discrete target: with non-positive log probabilities and a non-negative coefficient it is at
    least the smallest of all values of both critics. *)
Lemma C171_lower_lemma : forall alpha p logp q1 q2 lo, length logp = length p -> length q1 = length p -> length q2 = length p ->
  (forall i, (0 <= nth i p 0)%Qc) -> qsum p = 1%Qc -> (0 <= alpha)%Qc -> (forall i, (nth i logp 0 <= 0)%Qc) ->
  (forall x, In x q1 \/ In x q2 -> (lo <= x)%Qc) -> (lo <= dsac_target alpha p logp q1 q2)%Qc.
Proof.
  intros al p logp q1 q2 lo L1 L2 L3 Hp H1 Ha Hl Hlo. unfold dsac_target, entropy.
  assert (G : (lo * qsum p <= dot p (minrow q1 q2))%Qc).
  { clear H1 L1 Hl. revert q1 q2 L2 L3 Hlo. induction p as [|x p IH]; intros [|u q1] [|v q2] L2 L3 Hlo; try discriminate; [unfold dot; cbn; qclra|].
    unfold minrow in *. cbn [combine map fst snd qsum]. rewrite dot_cons.
    assert (I : (lo * qsum p <= dot p (map (fun xy : Qc * Qc => Qcminb (fst xy) (snd xy)) (combine q1 q2)))%Qc).
    { apply IH; [intros i; apply (Hp (S i))|cbn in L2; lia|cbn in L3; lia|]. intros y [Hy|Hy]; apply Hlo; [left|right]; now right. }
    specialize (Hp 0). cbn [nth] in Hp. pose proof (Hlo u (or_introl (or_introl eq_refl))) as B1. pose proof (Hlo v (or_intror (or_introl eq_refl))) as B2.
    assert (U : (lo * x <= Qcminb u v * x)%Qc) by (apply Qcmult_le_compat_r; [mm; assumption|exact Hp]).
    rewrite (Qcmult_comm x). replace (lo * (x + qsum p))%Qc with (lo * x + lo * qsum p)%Qc by ring.
    set (a := (lo * x)%Qc) in *. set (b := (lo * qsum p)%Qc) in *. set (c := (Qcminb u v * x)%Qc) in *. set (d := dot p _) in *. clearbody a b c d. qclra. }
  assert (E : (dot p logp <= 0)%Qc).
  { clear - Hp Hl L1. revert logp L1 Hl. induction p as [|x p IH]; intros [|y logp] L1 Hl; try discriminate L1; [unfold dot; cbn; qclra|].
    rewrite dot_cons. pose proof (IH ltac:(intros i; apply (Hp (S i))) logp ltac:(cbn in L1; lia) ltac:(intros i; apply (Hl (S i)))) as I.
    specialize (Hp 0). specialize (Hl 0). cbn [nth] in Hp, Hl.
    assert (U : (y * x <= 0 * x)%Qc) by (apply Qcmult_le_compat_r; assumption). rewrite (Qcmult_comm x).
    replace (0 * x)%Qc with 0%Qc in U by ring. set (a := (y * x)%Qc) in *. set (b := dot p logp) in *. clearbody a b. qclra. }
  assert (E2 : (0 <= al * - dot p logp)%Qc).
  { replace 0%Qc with (0 * - dot p logp)%Qc by ring. apply Qcmult_le_compat_r; [exact Ha|]. set (a := dot p logp) in *. clearbody a. qclra. }
  rewrite H1 in G. replace (lo * 1)%Qc with lo in G by ring. set (a := (al * _)%Qc) in *. set (b := dot p (minrow q1 q2)) in *. clearbody a b. qclra.
Qed.

(** ** C172: Ornstein-Uhlenbeck noise *)
(** Value [k] of component [j] of the process. *)
Definition ou_spec (mu alpha beta x0 : Qc) (z : nat -> Qc) (k : nat) : Qc :=
  (mu + Qcpower (1 - alpha) k * (x0 - mu) + beta * sum_n k (fun i => Qcpower (1 - alpha) (k - 1 - i) * z i))%Qc.
Lemma ou_spec_S mu al be x0 z k : ou_spec mu al be x0 z (S k) =
  (let x := ou_spec mu al be x0 z k in x + al * (mu - x) + be * z k)%Qc.
Proof.
  unfold ou_spec. cbv zeta. rewrite sum_n_last. replace (S k - 1 - k) with 0 by lia. cbn [Qcpower].
  rewrite (sum_n_ext k (fun i => Qcpower (1 - al) (S k - 1 - i) * z i)%Qc (fun i => (1 - al) * (Qcpower (1 - al) (k - 1 - i) * z i))%Qc).
  - rewrite sum_n_scale. set (s := sum_n k _). set (p := Qcpower (1 - al) k). clearbody s p. ring.
  - intros i Hi. replace (S k - 1 - i) with (S (k - 1 - i)) by lia. cbn [Qcpower]. ring.
Qed.
Definition fits (x : ouval) (n : nat) : Prop := match x with OUArr l => length l = n | _ => True end.
Lemma ou_call_nth mu al be n z x j : fits x n -> j < n ->
  nth j (fst (ou_call mu al be (SizeTuple n) z x)) 0%Qc = (ou_get x j + al * (mu - ou_get x j) + be * nth j z 0)%Qc.
Proof.
  intros F Hj. unfold ou_call. cbn [fst size_len].
  assert (R : ou_get (ou_restart x (SizeTuple n)) j = ou_get x j).
  { destruct x as [|v|l]; cbn in *; try reflexivity. rewrite F, Nat.eqb_refl. reflexivity. }
  set (g := fun j => (ou_get (ou_restart x (SizeTuple n)) j + al * (mu - ou_get (ou_restart x (SizeTuple n)) j) + be * nth j z 0)%Qc).
  transitivity (nth j (map g (seq 0 n)) (g 0)); [apply nth_indep; rewrite map_length, seq_length; exact Hj|].
  rewrite (map_nth g), seq_nth by exact Hj. unfold g. cbn [Nat.add]. rewrite R. reflexivity.
Qed.
Lemma ou_run_state mu al be n : forall zs x0 (y0 : nat -> Qc), fits x0 n -> (forall j, j < n -> ou_get x0 j = y0 j) ->
  forall k r, nth_error (ou_run mu al be (map (pair (SizeTuple n)) zs) x0) k = Some r ->
    length r = n /\ forall j, j < n -> nth j r 0%Qc = ou_spec mu al be (y0 j) (fun i => nth j (nth i zs []) 0%Qc) (S k).
Proof.
  induction zs as [|z zs IH]; intros x0 y0 F H0 k r Hr; [destruct k; discriminate|]. cbn [map ou_run] in Hr.
  destruct (ou_call mu al be (SizeTuple n) z x0) as [r0 x1] eqn:E0.
  assert (Er0 : r0 = fst (ou_call mu al be (SizeTuple n) z x0)) by (rewrite E0; reflexivity).
  assert (Ex1 : x1 = OUArr r0) by (unfold ou_call in E0; injection E0 as <- <-; reflexivity).
  assert (L0 : length r0 = n) by (rewrite Er0; unfold ou_call; cbn [fst size_len]; rewrite map_length, seq_length; reflexivity).
  assert (V0 : forall j, j < n -> nth j r0 0%Qc = (y0 j + al * (mu - y0 j) + be * nth j z 0)%Qc).
  { intros j Hj. rewrite Er0, ou_call_nth by assumption. rewrite H0 by exact Hj. reflexivity. }
  destruct k as [|k]; cbn [nth_error] in Hr.
  - injection Hr as <-. split; [exact L0|]. intros j Hj. rewrite V0 by exact Hj. rewrite ou_spec_S. cbv zeta.
    assert (Z : ou_spec mu al be (y0 j) (fun i => nth j (nth i (z :: zs) []) 0%Qc) 0 = y0 j) by (unfold ou_spec, sum_n; cbn; ring).
    rewrite Z. cbn [nth]. reflexivity.
  - subst x1. destruct (IH (OUArr r0) (fun j => nth j r0 0%Qc) L0 ltac:(reflexivity) k r Hr) as [L V]. split; [exact L|]. intros j Hj.
    rewrite V by exact Hj. clear - V0 Hj. rewrite V0 by exact Hj.
    (* the spec started one step later *)
    induction k as [|k IHk].
    + rewrite !ou_spec_S. cbv zeta. unfold ou_spec, sum_n. cbn [map seq qsum Qcpower nth]. ring.
    + rewrite (ou_spec_S _ _ _ _ _ (S k)), IHk. rewrite (ou_spec_S _ _ _ _ _ (S (S k))). reflexivity.
Qed.
Lemma ou_len mu al be : forall calls x, length (ou_run mu al be calls x) = length calls.
Proof. induction calls as [|[sz z] calls IH]; intros x; cbn [ou_run]; [reflexivity|]. unfold ou_call. cbn [length]. f_equal. apply IH. Qed.

(** C172.  After construction or [reset()], calls with one shape give the Ornstein-Uhlenbeck process: value [k] of
    component [j] is mu + (1 - alpha)^(k+1) (x0_j - mu) + beta sum_i (1 - alpha)^(k-i) z_ij, started at x0 (0 if None). *)
Lemma C172_process_partial_lemma : forall mu alpha beta n zs x0, match x0 with OUArr l => length l = n | _ => True end ->
  length (ou_run mu alpha beta (map (pair (SizeTuple n)) zs) x0) = length zs
  /\ forall k r, nth_error (ou_run mu alpha beta (map (pair (SizeTuple n)) zs) x0) k = Some r ->
    length r = n /\ forall j, j < n ->
      nth j r 0%Qc = (mu + Qcpower (1 - alpha) (S k) * (ou_get x0 j - mu) + beta * sum_n (S k) (fun i => Qcpower (1 - alpha) (k - i) * nth j (nth i zs []) 0))%Qc.
Proof.
  intros mu al be n zs x0 F. split; [rewrite ou_len, map_length; reflexivity|]. intros k r Hr.
  destruct (ou_run_state mu al be n zs x0 (ou_get x0) F ltac:(reflexivity) k r Hr) as [L V]. split; [exact L|]. intros j Hj. rewrite V by exact Hj.
  unfold ou_spec. do 2 f_equal. apply sum_n_ext. intros i Hi. replace (S k - 1 - i) with (k - i) by lia. reflexivity.
Qed.

(** C172.  REFUTED: with a size that is a list (annotated as Sequence), or one that differs from the previous shape,
    the process starts again at 0 (not at x0) in every call: values are independent of all earlier ones. *)
Lemma C172_restart_refuted_lemma : forall mu alpha beta sz z l j, j < size_len sz -> sz <> SizeTuple (length l) ->
  nth j (fst (ou_call mu alpha beta sz z (OUArr l))) 0%Qc = (alpha * mu + beta * nth j z 0)%Qc.
Proof.
  intros mu al be sz z l j Hj Hs. unfold ou_call. cbn [fst].
  assert (R : ou_restart (OUArr l) sz = OUScal 0).
  { cbn. destruct sz as [n|n]; [|reflexivity]. destruct (Nat.eqb_spec (length l) n) as [<-|]; [contradiction|reflexivity]. }
  rewrite R. cbn [ou_get]. set (g := fun j => (0 + al * (mu - 0) + be * nth j z 0)%Qc).
  transitivity (nth j (map g (seq 0 (size_len sz))) (g 0)); [apply nth_indep; rewrite map_length, seq_length; exact Hj|].
  rewrite (map_nth g), seq_nth by exact Hj. unfold g. cbn [Nat.add]. ring.
Qed.

(** ** C173: clone_optimizer *)
(** C173.  A clone exists exactly for the listed classes; it is new and has the class and the constructor's options. *)
Lemma C173_clone_partial_lemma : forall (Cfg OS Ob Rnd : Type) (W : @world Cfg OS Ob Rnd) (o : @optim Cfg OS),
  match clone_optimizer W o with
  | Ok o' => is_standard (o_cls o) = true /\ o_cls o' = o_cls o /\ o_st o' = w_os0 W /\ o_defaults o' = o_defaults o /\ o_groups o' = o_defaults o
             /\ (o_groups o = o_defaults o -> o_groups o' = o_groups o)
  | Err e => e = ValueError /\ is_standard (o_cls o) = false
  end.
Proof.
  intros. unfold clone_optimizer, guard. destruct (is_standard (o_cls o)) eqn:E; cbn; [|auto]. repeat split; auto.
Qed.
(** C173.  REFUTED: "a new optimizer with the same configuration as the old one": options set after construction (by a
    learning rate scheduler or in a parameter group) are not those of the clone. *)
Lemma C173_options_refuted_lemma : forall (Cfg OS Ob Rnd : Type) (W : @world Cfg OS Ob Rnd) (o o' : @optim Cfg OS),
  o_groups o <> o_defaults o -> clone_optimizer W o = Ok o' -> o_groups o' <> o_groups o.
Proof.
  intros Cfg OS Ob Rnd W o o' H E. unfold clone_optimizer, guard in E. destruct (is_standard (o_cls o)); [|discriminate]. injection E as <-. cbn. congruence.
Qed.

(** ** C174: priorities *)
Lemma halves_nth e1 : forall e2 i, length e1 = length e2 -> i < length e1 ->
  (nth i (halves e1 e2) 0 * Q2Qc (2 # 1) = nth i e1 0 + nth i e2 0)%Qc.
Proof.
  induction e1 as [|x e1 IH]; intros [|y e2] i L Hi; try discriminate; [cbn in Hi; lia|]. unfold halves in *. cbn [combine map fst snd].
  destruct i as [|i]; cbn [nth]; [|apply IH; cbn in *; lia].
  unfold Qcdiv. rewrite <- Qcmult_assoc, (Qcmult_comm (/ _)), Qcmult_inv_r by discriminate. ring.
Qed.
(** C174.  The new weight of a transition lies between the errors of the critics, so its priority (the absolute value) is
    at most the largest absolute error; it is the common error if they agree. *)
Lemma C174_between_partial_lemma : forall e1 e2 i, length e1 = length e2 -> i < length e1 ->
  let w := nth i (halves e1 e2) 0%Qc in let a := nth i e1 0%Qc in let b := nth i e2 0%Qc in
  (Qcminb a b <= w)%Qc /\ (w <= Qcmaxb a b)%Qc /\ (qabs w <= Qcmaxb (qabs a) (qabs b))%Qc /\ (a = b -> w = a).
Proof.
  intros e1 e2 i L Hi w a b. pose proof (halves_nth e1 e2 i L Hi) as E. fold w in E. fold a in E. fold b in E. clearbody w a b.
  split; [mm; qclra|]. split; [mm; qclra|]. split; [|intros ->; qclra].
  unfold qabs. destruct (Qcleb_spec 0 w), (Qcleb_spec 0 a), (Qcleb_spec 0 b); mm; qclra.
Qed.
(** C174.  REFUTED: a transition on which both critics err gets a positive weight: opposite errors cancel. *)
Lemma C174_cancel_refuted_lemma : forall e, (e <> 0)%Qc -> halves [e] [(- e)%Qc] = [0%Qc] /\ np_mean [e; (- e)%Qc] = 0%Qc.
Proof.
  intros e _. unfold halves, np_mean. cbn [combine map fst snd qsum length]. unfold Qcdiv. split; [f_equal|]; ring.
Qed.

(** ** C175: optim_step *)
(** C175.  Gradients of earlier losses play no role; without max_grad_norm the step uses the gradient of the loss; with a
    positive one it uses a positive multiple of it, at most as long, whose norm is below the maximum, and the gradient
    itself if that is short enough. *)
Lemma C175_clip_partial_lemma : forall (Cfg OS Ob Rnd : Type) (W : @world Cfg OS Ob Rnd) d n m,
  (forall g, (0 <= w_norm W g)%Qc) -> (forall c g, (0 <= c)%Qc -> w_norm W (pscale c g) = (c * w_norm W g)%Qc) -> (0 < m)%Qc ->
  (exists n', optim_step W d true None n = (n', None) /\ view n' = descend W n d /\ options n' = options n)
  /\ exists n' c, optim_step W d true (Some m) n = (n', None) /\ (0 < c)%Qc /\ (c <= 1)%Qc
       /\ view n' = descend W n (pscale c d) /\ options n' = options n /\ (w_norm W (pscale c d) <= m)%Qc
       /\ ((w_norm W d + Q2Qc (1 # 1000000) <= m)%Qc -> c = 1%Qc).
Proof.
  intros Cfg OS Ob Rnd W d n m Hn Hs Hm. split.
  - eexists. split; [reflexivity|]. split; apply stepped_view.
  - unfold optim_step. destruct (Qceqb_spec m 0) as [->|_]; [exfalso; qclra|].
    exists (opt_step W (clip_grad_norm W m (backward d (zero_grad n)))), (clip_coef m (w_norm W d)).
    specialize (Hn d). set (t := w_norm W d) in *.
    assert (Pe : (0 < Q2Qc (1 # 1000000))%Qc) by reflexivity. set (ep := Q2Qc (1 # 1000000)) in *.
    assert (Pt : (0 < t + ep)%Qc) by (clearbody ep; qclra).
    assert (Pd : (0 < m / (t + ep))%Qc) by (apply qdiv_pos; assumption).
    assert (Ed : (m / (t + ep) * (t + ep) = m)%Qc) by (apply mult_div; exact Pt).
    split; [reflexivity|].
    assert (C0 : (0 < clip_coef m t)%Qc) by (unfold clip_coef; fold ep; set (v := (m / (t + ep))%Qc) in *; clearbody v; mm; [reflexivity|exact Pd]).
    split; [exact C0|].
    split; [unfold clip_coef; fold ep; set (v := (m / (t + ep))%Qc) in *; clearbody v; mm; qclra|].
    split; [|split; [|split]].
    + unfold clip_grad_norm, backward, zero_grad, opt_step, descend, view. cbn. destruct (w_ostep W _ _ _ _ _). reflexivity.
    + unfold clip_grad_norm, backward, zero_grad, opt_step, options. cbn. destruct (w_ostep W _ _ _ _ _). reflexivity.
    + rewrite Hs by (apply Qclt_le_weak; exact C0). apply Qcle_trans with (m / (t + ep) * (t + ep))%Qc; [|rewrite Ed; qclra].
      apply Qcle_trans with (m / (t + ep) * t)%Qc.
      * apply Qcmult_le_compat_r; [|exact Hn]. unfold clip_coef. fold ep. set (v := (m / (t + ep))%Qc) in *. clearbody v. mm; qclra.
      * rewrite !(Qcmult_comm (m / (t + ep))). apply Qcmult_le_compat_r; [clearbody ep; qclra|apply Qclt_le_weak; exact Pd].
    + intros Hle. unfold clip_coef. fold ep. assert (V : (1 <= m / (t + ep))%Qc).
      { apply Qcnot_lt_le. intros X. apply (Qcmult_lt_compat_r _ _ _ Pt) in X. rewrite Ed in X. replace (1 * (t + ep))%Qc with (t + ep)%Qc in X by ring.
        apply (Qcle_not_lt _ _ Hle X). }
      set (v := (m / (t + ep))%Qc) in *. clearbody v. mm; [reflexivity|]. qclra.
Qed.
(** C175.  REFUTED: a maximum norm of 0.0 does not clip at all; and a maximum norm without module raises only after the gradients
    were replaced, without a step. *)
Lemma C175_zero_refuted_lemma : forall (Cfg OS Ob Rnd : Type) (W : @world Cfg OS Ob Rnd) d n has,
  (exists n', optim_step W d has (Some 0%Qc) n = (n', None) /\ view n' = descend W n d)
  /\ forall m, m <> 0%Qc -> exists n', optim_step W d false (Some m) n = (n', Some ValueError) /\ view n' = view n /\ n_grad n' = Some d.
Proof.
  intros Cfg OS Ob Rnd W d n has. split.
  - eexists. split; [reflexivity|]. apply stepped_view.
  - intros m Hm. unfold optim_step. destruct (Qceqb_spec m 0) as [->|_]; [contradiction|]. eexists. split; [reflexivity|]. split; reflexivity.
Qed.

(** ** Accumulation of gradients *)
(** C168.  Two backward passes without [zero_grad] in between leave the sum of both gradients, entry by entry; after [zero_grad] only
    the new one is left. *)
Lemma C168_accumulation_lemma : forall (Cfg OS : Type) (n : @net Cfg OS) (g d : prm) (i j : nat) (x y : Qc) (r s : list Qc),
  nth_error g i = Some r -> nth_error d i = Some s -> nth_error r j = Some x -> nth_error s j = Some y ->
  (exists h t, n_grad (backward d (backward g (zero_grad n))) = Some h /\ nth_error h i = Some t /\ nth_error t j = Some (x + y)%Qc)
  /\ n_grad (backward d (zero_grad (backward g n))) = Some d.
Proof.
  intros Cfg OS n g d i j x y r s Hg Hd Hr Hs. split; [|reflexivity].
  assert (Nc : forall (T U : Type) (l : list T) (l' : list U) k a b, nth_error l k = Some a -> nth_error l' k = Some b -> nth_error (combine l l') k = Some (a, b)).
  { intros T U l. induction l as [|z l IH]; intros [|z' l'] [|k] a b Ha Hb; try discriminate; cbn in *; [congruence|auto]. }
  cbn [backward zero_grad n_grad]. unfold padd. eexists. eexists. split; [reflexivity|]. split.
  - rewrite nth_error_map, (Nc _ _ _ _ _ _ _ Hg Hd). reflexivity.
  - cbn [fst snd]. rewrite nth_error_map, (Nc _ _ _ _ _ _ _ Hr Hs). reflexivity.
Qed.
