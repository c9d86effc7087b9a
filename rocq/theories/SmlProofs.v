From Coq Require Import String Permutation.
From Verif Require Import Py PyLemmas Num SmlModel SmlSpec DqnModel DqnProofs AlgProofs.
From Coq Require Import Lia QArith Qcanon ZArith.
Open Scope nat_scope.
Open Scope list_scope.

Lemma int_of_spec (x : Qc) : (0 <= x)%Qc -> (0 <= int_of x)%Z /\ (Q2Qc (inject_Z (int_of x)) <= x)%Qc /\ (x < Q2Qc (inject_Z (int_of x + 1)))%Qc.
Proof.
  intro H. unfold int_of. destruct x as [[a b] C]. cbn [this Qnum Qden] in *.
  unfold Qcle, Qle in H. cbn in H.
  assert (Ha : (0 <= a)%Z) by lia.
  rewrite Z.quot_div_nonneg by lia.
  pose proof (Z.div_mod a (Zpos b) ltac:(lia)) as D. pose proof (Z.mod_pos_bound a (Zpos b) ltac:(lia)) as M.
  set (q := (a / Zpos b)%Z) in *. set (r := (a mod Zpos b)%Z) in *.
  assert (0 <= q)%Z by (apply Z.div_pos; lia). clearbody q r.
  split; [assumption|]. unfold Qcle, Qclt, Q2Qc. cbn [this].
  rewrite !Qred_correct. unfold Qle, Qlt, inject_Z. cbn [Qnum Qden].
  split; nia.
Qed.
Lemma qn_int n : (qn n = Q2Qc (inject_Z (Z.of_nat n)))%Qc. Proof. reflexivity. Qed.

Lemma Q2Qc_plus_Z (a b : Z) : Q2Qc (inject_Z (a + b)) = (Q2Qc (inject_Z a) + Q2Qc (inject_Z b))%Qc.
Proof. apply Qc_is_canon. unfold Qcplus, Q2Qc. cbn [this]. rewrite !Qred_correct. rewrite inject_Z_plus. reflexivity. Qed.
Section Ratio.
Variable k : Qc.
Hypothesis Hk : (1 <= k)%Qc.
Lemma k_pos : (0 < k)%Qc. Proof. eapply Qclt_le_trans; [|exact Hk]. reflexivity. Qed.
Lemma k_nz : k <> 0%Qc. Proof. intro E. pose proof k_pos as H. rewrite E in H. discriminate H. Qed.
Lemma p_times (n : nat) : ((qn n * (1 - 1 / k)) * k = qn n * (k - 1))%Qc.
Proof. field. exact k_nz. Qed.
Lemma p_nonneg (n : nat) : (0 <= qn n * (1 - 1 / k))%Qc.
Proof.
  apply Qcmult_lt_0_le_reg_r with k; [apply k_pos|]. rewrite p_times.
  replace (0 * k)%Qc with 0%Qc by ring.
  pose proof (qn_nonneg n) as A.
  assert (B : (0 <= k - 1)%Qc) by (pose proof Hk; qclra).
  replace 0%Qc with (0 * (k - 1))%Qc by ring. apply Qcmult_le_compat_r; assumption.
Qed.
Lemma count_spec (n : nat) : exists m : nat,
  int_of (qn n * (1 - 1 / k)) = Z.of_nat m /\ (qn m * k <= qn n * (k - 1))%Qc /\ (qn n * (k - 1) < (qn m + 1) * k)%Qc.
Proof.
  destruct (int_of_spec _ (p_nonneg n)) as (H1 & H2 & H3).
  set (i := int_of (qn n * (1 - 1 / k))) in *.
  exists (Z.to_nat i). split; [lia|].
  assert (E1 : qn (Z.to_nat i) = Q2Qc (inject_Z i)) by (unfold qn; rewrite Z2Nat.id by assumption; reflexivity).
  assert (E2 : (qn (Z.to_nat i) + 1)%Qc = Q2Qc (inject_Z (i + 1))) by (rewrite E1, Q2Qc_plus_Z; reflexivity).
  rewrite E2, E1, <- (p_times n). split.
  - apply Qcmult_le_compat_r; [assumption|]. apply Qclt_le_weak, k_pos.
  - apply Qcmult_lt_compat_r; [apply k_pos|assumption].
Qed.
Lemma count_le (n m : nat) : (qn m * k <= qn n * (k - 1))%Qc -> m <= n /\ (0 < n -> m < n).
Proof.
  intro H.
  assert (A : m <= n -> m < n \/ m = n) by lia.
  assert (N : forall a, n <= a -> 0 < a -> (qn a * k <= qn n * (k - 1))%Qc -> False).
  { intros a Ha Hp Hl. pose proof (AlgProofs.qn_le _ _ Ha) as L. pose proof k_pos as P. pose proof (AlgProofs.qn_pos _ Hp) as Q.
    pose proof (qn_nonneg n) as Q2. pose proof Hk as K. clear - L P Q Hl K Q2.
    assert (U : (qn n * (k - 1) <= qn a * (k - 1))%Qc) by (apply Qcmult_le_compat_r; [assumption|qclra]).
    assert (V : (qn a * k <= qn a * (k - 1))%Qc) by (eapply Qcle_trans; eassumption).
    assert (W : (qn a * (k - 1) = qn a * k - qn a)%Qc) by ring. rewrite W in V. clear - V Q. set (z := (qn a * k)%Qc) in *. clearbody z. qclra. }
  destruct (le_lt_dec n m) as [E|E]; [|lia].
  destruct (Nat.eq_dec m 0) as [Z0|Z0]; [lia|]. exfalso. eapply (N m); eauto; lia.
Qed.
End Ratio.

(** C360.  For future_k at least one, HER alters distinct episodes of those sampled, at most future_k - 1 for each one left unaltered
    (so at most future_k, as promised), and one more would be too many. *)
Lemma C360_ratio_lemma : forall (k : Qc) (perm : list nat), (1 <= k)%Qc -> Permutation perm (seq 0 (length perm)) ->
  exists p l, future_p k = Ok p /\ her_episodes p perm = Ok l /\ NoDup l /\ (forall i, In i l -> i < length perm) /\
    (qn (length l) <= (k - 1) * qn (length perm - length l))%Qc /\
    (length perm <= length l \/ ~ (qn (S (length l)) <= (k - 1) * qn (length perm - S (length l)))%Qc).
Proof.
  intros k perm Hk HP. set (n := length perm) in *.
  destruct (count_spec k Hk n) as (m & E & L & U). destruct (count_le k Hk n m L) as [Hm _].
  exists (1 - 1 / k)%Qc, (firstn m perm).
  assert (Lm : length (firstn m perm) = m) by (rewrite firstn_length; fold n; lia).
  assert (ND : NoDup perm) by (eapply Permutation_NoDup; [apply Permutation_sym, HP|apply seq_NoDup]).
  split; [|split; [|split; [|split; [|rewrite Lm; split]]]].
  - unfold future_p. destruct (Qceqb_spec k 0) as [Z0|Z0]; [exfalso; exact (k_nz k Hk Z0)|reflexivity].
  - unfold her_episodes. fold n. rewrite E.
    destruct (Z.ltb_spec (Z.of_nat m) 0); [lia|]. destruct (Z.ltb_spec (Z.of_nat n) (Z.of_nat m)); [lia|]. rewrite Nat2Z.id. reflexivity.
  - rewrite <- (firstn_skipn m perm) in ND. clear - ND. revert ND. generalize (skipn m perm) (firstn m perm). intros a b. induction b as [|x b IH]; intro H; [constructor|].
    inversion H; subst. constructor; [intro; apply H2; apply in_or_app; now left|auto].
  - intros i Hi. assert (In i perm) by (rewrite <- (firstn_skipn m perm); apply in_or_app; now left).
    apply (Permutation_in _ HP) in H. apply in_seq in H. lia.
  - assert (S1 : (qn n = qn m + qn (n - m))%Qc).
    { unfold qn. rewrite <- Q2Qc_plus_Z. f_equal. f_equal. lia. }
    rewrite S1 in L. clear - L. generalize dependent (qn m). generalize (qn (n - m)). intros a b L.
    assert (W : ((b + a) * (k - 1) = b * k - b + a * (k - 1))%Qc) by ring. rewrite W in L.
    rewrite (Qcmult_comm (k - 1) a). set (z := (a * (k - 1))%Qc) in *. set (y := (b * k)%Qc) in *. clearbody z y. qclra.
  - destruct (le_lt_dec n m) as [C|C]; [now left|right]. intro L2.
    assert (S1 : (qn n = qn (S m) + qn (n - S m))%Qc).
    { unfold qn. rewrite <- Q2Qc_plus_Z. f_equal. f_equal. lia. }
    rewrite S1, <- qn_S in U. clear L. revert L2 U. generalize (qn (S m)) (qn (n - S m)). intros b a L U. clear - L U.
    assert (W : ((b + a) * (k - 1) = b * k - b + a * (k - 1))%Qc) by ring. rewrite W in U.
    rewrite (Qcmult_comm (k - 1) a) in L. set (z := (a * (k - 1))%Qc) in *. set (y := (b * k)%Qc) in *. clearbody z y. qclra.
Qed.
(** C360.  So some sampled episode always stays unaltered; a single one is never altered; with future_k = 1 none is, and future_k = 0
    raises. *)
Lemma C360_some_stay_lemma : forall (k p : Qc) (perm l : list nat), (1 <= k)%Qc -> perm <> [] ->
  future_p k = Ok p -> her_episodes p perm = Ok l ->
  length l < length perm /\ (length perm = 1 -> l = []) /\ (k = 1%Qc -> l = []).
Proof.
  intros k p perm l Hk Hn Hp Hl. unfold future_p in Hp. destruct (Qceqb k 0); [discriminate|]. injection Hp as <-.
  destruct (count_spec k Hk (length perm)) as (m & E & L & U). destruct (count_le k Hk _ m L) as [Hm Hm2].
  unfold her_episodes in Hl. rewrite E in Hl.
  destruct (Z.ltb_spec (Z.of_nat m) 0); [discriminate|]. destruct (Z.ltb_spec (Z.of_nat (length perm)) (Z.of_nat m)); [discriminate|].
  rewrite Nat2Z.id in Hl. injection Hl as <-. rewrite firstn_length.
  assert (0 < length perm) by (destruct perm; [congruence|cbn; lia]).
  specialize (Hm2 H1). split; [lia|]. split.
  - intro O. assert (m = 0) by lia. subst m. reflexivity.
  - intros ->. destruct m as [|m]; [reflexivity|]. exfalso. rewrite qn_S in L. pose proof (qn_nonneg m).
    replace (qn (length perm) * (1 - 1))%Qc with 0%Qc in L by ring. replace ((qn m + 1) * 1)%Qc with (qn m + 1)%Qc in L by ring.
    clear - L H2. qclra.
Qed.
(** C360.  Without episodes per unaltered one there is no share. *)
Lemma C360_zero_lemma : future_p 0%Qc = Err ZeroDivisionError.
Proof. reflexivity. Qed.

(** ** create_uniform_action_dist *)
Lemma sum_ones n : fold_right Qcplus 0%Qc (repeat 1%Qc n) = qn n.
Proof. induction n as [|n IH]; [reflexivity|]. cbn [repeat fold_right]. rewrite IH, qn_S. ring. Qed.
Lemma ones_prob n i : i < n -> cat_prob (repeat 1%Qc n) i = (1 / qn n)%Qc.
Proof. intro H. unfold cat_prob. rewrite sum_ones. rewrite (nth_indep _ _ 1%Qc) by (rewrite repeat_length; lia). rewrite nth_repeat. reflexivity. Qed.
Lemma inv_pos n : 0 < n -> (0 < 1 / qn n)%Qc.
Proof.
  intro H. pose proof (AlgProofs.qn_pos _ H) as P. destruct (Qclt_le_dec 0 (1 / qn n)) as [L|L]; [exact L|exfalso].
  assert (X : ((1 / qn n) * qn n = 1)%Qc) by (field; intro E; rewrite E in P; discriminate P).
  assert (Y : ((1 / qn n) * qn n <= 0 * qn n)%Qc) by (apply Qcmult_le_compat_r; [exact L|apply Qclt_le_weak, P]).
  rewrite X in Y. replace (0 * qn n)%Qc with 0%Qc in Y by ring. clear - Y. qclra.
Qed.
(** C361.  Refuted: for a discrete space which does not start at zero the distribution gives positive probability to a number which is
    no action. *)
Lemma C361_start_refuted_lemma : forall (n batch_size : nat) (start : Z), 0 < n -> 0 < batch_size -> start <> 0%Z ->
  exists ws, create_uniform_action_dist (ADiscrete n start) batch_size = Ok (DCategorical ws) /\
    exists w i, In w ws /\ i < length w /\ (0 < cat_prob w i)%Qc /\ ~ in_discrete n start (Z.of_nat i).
Proof.
  intros n bs st Hn Hb Hs. eexists. split; [reflexivity|]. exists (repeat 1%Qc n), (if (0 <? st)%Z then 0 else n - 1).
  assert (Hi : (if (0 <? st)%Z then 0 else n - 1) < n) by (destruct (0 <? st)%Z; lia).
  split; [destruct bs; [lia|now left]|]. split; [rewrite repeat_length; exact Hi|].
  split; [rewrite ones_prob by exact Hi; apply inv_pos, Hn|]. unfold in_discrete. destruct (Z.ltb_spec 0 st); lia.
Qed.
(** C361.  Refuted: a box of two or more axes raises, whatever its bounds. *)
Lemma C361_axes_refuted_lemma : forall (a b : nat) (shape : list nat) (low high : list (option Qc)) (batch_size : nat),
  create_uniform_action_dist (ABox (a :: b :: shape) low high) batch_size = Err RuntimeError.
Proof. reflexivity. Qed.
(** C361.  Refuted: with an unbounded coordinate no sample is a number in it, and with a coordinate of one value there is no distribution. *)
Lemma C361_bounds_refuted_lemma :
  (forall (h : option Qc) (u : Qc), uniform_sample None h u = None) /\ (forall (l : option Qc) (u : Qc), uniform_sample l None u = None) /\
  (forall (n batch_size i : nat) (low high : list (option Qc)) (c : Qc), 0 < batch_size -> nth_error low i = Some (Some c) -> nth_error high i = Some (Some c) ->
     create_uniform_action_dist (ABox [n] low high) batch_size = Err ValueError).
Proof.
  split; [reflexivity|]. split; [intros [l|] u; reflexivity|].
  intros n bs i low high c Hb Hl Hh. cbn [create_uniform_action_dist].
  assert (F : forallb (fun lh => blt (fst lh) (snd lh)) (combine low high) = false).
  { clear Hb. revert i high Hl Hh. induction low as [|l low IH]; intros [|i] [|h high] Hl Hh; try discriminate.
    - cbn in Hl, Hh. injection Hl as ->. injection Hh as ->. cbn. destruct (Qcltb_spec c c) as [E|E]; [|reflexivity]. exfalso. exact (Qclt_not_eq _ _ E eq_refl).
    - cbn [combine forallb]. cbn in Hl, Hh. rewrite (IH _ _ Hl Hh). apply Bool.andb_false_r. }
  rewrite F. destruct (Nat.eqb_spec bs 0); [lia|reflexivity].
Qed.
(** C361.  A discrete space which starts at zero: in each of the batch_size rows every action, and nothing else, has probability 1/n. *)
Lemma C361_discrete_partial_lemma : forall (n batch_size : nat), 0 < n -> exists ws,
  create_uniform_action_dist (ADiscrete n 0) batch_size = Ok (DCategorical ws) /\ length ws = batch_size /\
  forall w, In w ws -> (forall i, i < length w <-> in_discrete n 0 (Z.of_nat i)) /\ forall i, i < length w -> cat_prob w i = (1 / qn n)%Qc.
Proof.
  intros n bs Hn. eexists. split; [reflexivity|]. split; [apply repeat_length|].
  intros w Hw. apply repeat_spec in Hw. subst w. rewrite repeat_length. split; [intro i; unfold in_discrete; lia|]. intros i Hi. apply ones_prob, Hi.
Qed.

(** C361.  Spaces of other kinds are refused. *)
Lemma C361_other_partial_lemma : forall batch_size : nat, create_uniform_action_dist AOther batch_size = Err ValueError.
Proof. reflexivity. Qed.
Lemma combine_repeat {X Y : Type} (x : X) (l : list Y) n : n = length l -> combine (repeat x n) l = map (fun y => (x, y)) l.
Proof. intros ->. induction l as [|y l IH]; [reflexivity|]. cbn. rewrite IH. reflexivity. Qed.
Lemma combine_repeat2 {X Y : Type} (x : X) (y : Y) n : combine (repeat x n) (repeat y n) = repeat (x, y) n.
Proof. induction n as [|n IH]; [reflexivity|]. cbn. rewrite IH. reflexivity. Qed.
Lemma row_sample (low high us : list Qc) :
  map (fun y => uniform_sample (fst (fst y)) (snd (fst y)) (snd y)) (combine (combine (map Some low) (map Some high)) us) = map Some (space_row low high us).
Proof.
  unfold space_row. revert high us. induction low as [|l low IH]; intros [|h high] [|u us]; try reflexivity.
  cbn. rewrite IH. reflexivity.
Qed.
Lemma affine_in (l h u : Qc) : (l < h)%Qc -> (0 <= u)%Qc -> (u <= 1)%Qc -> (l <= l + u * (h - l))%Qc /\ (l + u * (h - l) <= h)%Qc.
Proof. intros A B C. split; qcnra. Qed.
Lemma row_in (low high us : list Qc) : length low = length high -> length us = length low ->
  (forall i l h, nth_error low i = Some l -> nth_error high i = Some h -> (l < h)%Qc) -> (forall u, In u us -> (0 <= u)%Qc /\ (u <= 1)%Qc) ->
  in_box low high (space_row low high us).
Proof.
  intros L1 L2 H U. unfold in_box, space_row. rewrite map_length, !combine_length. split; [lia|]. split; [lia|].
  revert high us L1 L2 H U. induction low as [|l low IH]; intros [|h high] [|u us] L1 L2 H U i a b x Ha Hb Hx; try discriminate; destruct i as [|i]; try discriminate.
  - cbn in Ha, Hb, Hx. injection Ha as <-. injection Hb as <-. injection Hx as <-. cbn [fst snd].
    destruct (U u (or_introl eq_refl)). apply affine_in; auto. apply (H 0); reflexivity.
  - cbn in Ha, Hb, Hx. cbn in L1, L2. apply (IH high us ltac:(lia) ltac:(lia)) with (i := i); auto.
    + intros j p q Hp Hq. apply (H (S j)); assumption.
    + intros v Hv. apply U. now right.
Qed.
(** C361.  A bounded box of one axis: each row of a sample is the sample of the space for the same random numbers, hence an action. *)
Lemma C361_box_partial_lemma : forall (n batch_size : nat) (low high : list Qc), length low = n -> length high = n ->
  (forall i l h, nth_error low i = Some l -> nth_error high i = Some h -> (l < h)%Qc) ->
  exists lo hi, create_uniform_action_dist (ABox [n] (map Some low) (map Some high)) batch_size = Ok (DUniform lo hi) /\
    forall us : list (list Qc), length us = batch_size -> (forall r, In r us -> length r = n /\ forall u, In u r -> (0 <= u)%Qc /\ (u <= 1)%Qc) ->
      sample_rows lo hi us = map (fun r => map Some (space_row low high r)) us /\
      forall r, In r us -> in_box low high (space_row low high r).
Proof.
  intros n bs low high L1 L2 H. exists (repeat (map Some low) bs), (repeat (map Some high) bs). split.
  - cbn [create_uniform_action_dist].
    assert (F : forallb (fun lh => blt (fst lh) (snd lh)) (combine (map Some low) (map Some high)) = true).
    { assert (L : length low = length high) by lia. clear L1 L2. revert high L H. induction low as [|l low IH]; intros [|h high] L H; try discriminate; [reflexivity|].
      cbn. rewrite IH; [|cbn in L; lia|intros i a b; apply (H (S i))]. destruct (Qcltb_spec l h) as [E|E]; [reflexivity|]. exfalso. apply (Qcle_not_lt _ _ E). apply (H 0); reflexivity. }
    rewrite F. reflexivity.
  - intros us Lu U. unfold sample_rows. split.
    + rewrite combine_repeat2, combine_repeat by (symmetry; exact Lu). rewrite map_map. apply map_ext. intro r. cbn [fst snd]. apply row_sample.
    + intros r Hr. destruct (U r Hr) as [E Ur]. apply row_in; auto; lia.
Qed.
(** C361.  And every action below the upper bounds is reached by random numbers in [0, 1). *)
Lemma C361_reached_partial_lemma : forall (low high row : list Qc), length low = length row -> length high = length row ->
  (forall i l h x, nth_error low i = Some l -> nth_error high i = Some h -> nth_error row i = Some x -> (l <= x)%Qc /\ (x < h)%Qc) ->
  exists us, length us = length row /\ (forall u, In u us -> (0 <= u)%Qc /\ (u < 1)%Qc) /\ space_row low high us = row.
Proof.
  intros low high row. revert low high. induction row as [|x row IH]; intros [|l low] [|h high] L1 L2 H; try discriminate.
  - exists []. repeat split; contradiction.
  - destruct (IH low high) as (us & A & B & C); [cbn in L1; lia|cbn in L2; lia|intros i; apply (H (S i))|].
    destruct (H 0 l h x eq_refl eq_refl eq_refl) as [P Q].
    assert (D : (0 < h - l)%Qc) by (clear - P Q; qclra).
    assert (NZ : (h - l)%Qc <> 0%Qc) by (intro E; rewrite E in D; discriminate D).
    assert (K : (((x - l) / (h - l)) * (h - l) = x - l)%Qc) by (field; exact NZ).
    exists (((x - l) / (h - l))%Qc :: us). split; [cbn; lia|]. split.
    + intros u [<-|Hu]; [|auto]. split.
      * apply Qcmult_lt_0_le_reg_r with (h - l)%Qc; [exact D|]. rewrite K. replace (0 * (h - l))%Qc with 0%Qc by ring. clear - P. qclra.
      * destruct (Qclt_le_dec ((x - l) / (h - l)) 1) as [E|E]; [exact E|exfalso].
        assert (Y : (1 * (h - l) <= (x - l) / (h - l) * (h - l))%Qc) by (apply Qcmult_le_compat_r; [exact E|apply Qclt_le_weak, D]).
        rewrite K in Y. replace (1 * (h - l))%Qc with (h - l)%Qc in Y by ring. clear - Y Q. qclra.
    + unfold space_row in *. cbn [combine map fst snd]. rewrite C, K. f_equal. ring.
Qed.

(** ** Optimizer factories *)
Open Scope string_scope.
(** C362.  The optimizer gets all parameters of the module and the learning rate asked for, and the Adam and RMSprop factories make what
    the general factory makes of the class with the same options. *)
Lemma C362_passed_lemma : forall (P : Type) (f : ofactory) (params : list P) (lr : Qc) (c : ocall P), create_optimizer f params lr = Ok c ->
  oc_params c = params /\ (forall v, In ("lr", v) (oc_kwargs c) <-> v = ONum lr) /\
  (forall cl kw, f = FTorch cl kw -> oc_class c = cl /\ forall k v, k <> "lr" -> (In (k, v) (oc_kwargs c) <-> In (k, v) kw)).
Proof.
  intros P f params lr c H. unfold create_optimizer, create_for_params in H. destruct f as [cl kw|b e w|a e w m ce].
  - destruct (existsb _ kw) eqn:E; [discriminate|]. injection H as <-. cbn [oc_params oc_kwargs oc_class]. split; [reflexivity|]. split.
    + intro v. split; [|intros ->; now left]. intros [X|X]; [congruence|exfalso].
      assert (T : existsb (fun x : string * oval => String.eqb (fst x) "lr" || String.eqb (fst x) "params") kw = true) by (apply existsb_exists; eexists; split; [exact X|reflexivity]).
      congruence.
    + intros cl' kw' X. injection X as <- <-. split; [reflexivity|]. intros k v Hk. cbn. split; [intros [X|X]; [congruence|exact X]|now right].
  - injection H as <-. cbn [oc_params oc_kwargs]. split; [reflexivity|]. split; [|discriminate]. intro v. cbn. split; [intuition congruence|intros ->; now left].
  - injection H as <-. cbn [oc_params oc_kwargs]. split; [reflexivity|]. split; [|discriminate]. intro v. cbn. split; [intuition congruence|intros ->; now left].
Qed.
(** C362.  The two special factories are instances of the general one. *)
Lemma C362_instances_lemma : forall (P : Type) (params : list P) (lr : Qc),
  (forall b1 b2 eps wd : Qc, create_optimizer (FAdam (b1, b2) eps wd) params lr =
     create_optimizer (FTorch CAdam [("betas", OPair b1 b2); ("eps", ONum eps); ("weight_decay", ONum wd)]) params lr) /\
  (forall (alpha eps wd mom : Qc) (cent : bool), create_optimizer (FRMSprop alpha eps wd mom cent) params lr =
     create_optimizer (FTorch CRMSprop [("alpha", ONum alpha); ("eps", ONum eps); ("weight_decay", ONum wd); ("momentum", ONum mom); ("centered", OBool cent)]) params lr).
Proof. intros. split; reflexivity. Qed.
(** C362.  A learning rate among the options of the general factory makes every creation raise TypeError. *)
Lemma C362_lr_option_lemma : forall (P : Type) (cl : oclass) (kw : list (string * oval)) (v : oval) (params : list P) (lr : Qc),
  In ("lr", v) kw -> create_optimizer (FTorch cl kw) params lr = Err TypeError.
Proof.
  intros P cl kw v params lr H. unfold create_optimizer, create_for_params.
  replace (existsb _ kw) with true; [reflexivity|]. symmetry. apply existsb_exists. eexists. split; [exact H|reflexivity].
Qed.
Lemma fold_last {X Y : Type} (f : X -> Y) (l : list X) (x : X) (a : option Y) : fold_left (fun _ s => Some (f s)) (l ++ [x])%list a = Some (f x).
Proof. rewrite fold_left_app. reflexivity. Qed.
(** C362.  The builder uses the last optimizer set; with none set, or with the default set without arguments, Adam with its defaults. *)
Lemma C362_builder_lemma :
  get_optim_factory [] = adam_default /\
  (forall l, get_optim_factory (l ++ [WDefault None None None]) = adam_default) /\
  (forall l f, get_optim_factory (l ++ [WFactory f]) = f) /\
  (forall l b e w, get_optim_factory (l ++ [WDefault (Some b) (Some e) (Some w)]) = FAdam b e w).
Proof. unfold get_optim_factory. repeat split; intros; rewrite ?fold_last; reflexivity. Qed.

(** ** ICM's learning step *)
(** C363.  Refuted: positional arguments of learn never reach the inner policy. *)
Lemma C363_positional_refuted_lemma : forall (Logits Batch Arg Stats : Type) (ce : Logits -> nat -> Qc) (inner : Batch -> list (string * Arg) -> res Stats)
  (w s : Qc) (b : Batch) (args args' : list Arg) (kw : list (string * Arg)) (ah : list Logits) (act : list nat) (mse : list Qc),
  icm_learn ce inner w s b args kw ah act mse = icm_learn ce inner w s b args' kw ah act mse.
Proof. reflexivity. Qed.
(** C363.  With keyword arguments the inner policy learns as on its own, its statistics are reported unchanged, and the loss is the mix of
    the two losses: the inverse loss for weight 0, the forward loss for weight 1 and between them otherwise. *)
Lemma C363_learn_partial_lemma : forall (Logits Batch Arg Stats : Type) (ce : Logits -> nat -> Qc) (inner : Batch -> list (string * Arg) -> res Stats)
  (w s : Qc) (b : Batch) (kw : list (string * Arg)) (ah : list Logits) (act : list nat) (mse : list Qc),
  (forall e, inner b kw = Err e -> icm_learn ce inner w s b [] kw ah act mse = Err e) /\
  forall st, inner b kw = Ok st -> exists loss fwd inv, icm_learn ce inner w s b [] kw ah act mse = Ok (st, (loss, fwd, inv)) /\
    (w = 0%Qc -> loss = (s * inv)%Qc) /\ (w = 1%Qc -> loss = (s * fwd)%Qc) /\
    ((0 <= w)%Qc -> (w <= 1)%Qc -> (0 <= s)%Qc ->
      (fwd <= inv -> s * fwd <= loss /\ loss <= s * inv)%Qc /\ (inv <= fwd -> s * inv <= loss /\ loss <= s * fwd)%Qc).
Proof.
  intros. unfold icm_learn. split; [intros e ->; reflexivity|]. intros st ->. cbn [bind]. unfold icm_losses.
  set (inv := mean (map _ _)). set (fwd := mean mse). clearbody inv fwd. do 3 eexists. split; [reflexivity|].
  split; [intros ->; ring|]. split; [intros ->; ring|]. clear. intros W0 W1 S0.
  assert (M : forall a b c : Qc, (a <= b)%Qc -> (b <= c)%Qc -> (s * a <= b * s /\ b * s <= s * c)%Qc).
  { intros a b c A B. rewrite !(Qcmult_comm s). split; apply Qcmult_le_compat_r; assumption. }
  split; intro L; apply M; clear - W0 W1 L; qcnra.
Qed.
