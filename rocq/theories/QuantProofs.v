(** * Proofs about the quantile learners and branching DQN *)
From Verif Require Import Py PyLemmas Num DqnModel DqnProofs StatModel StatProofs OfflineModel OfflineProofs QuantModel.
Open Scope nat_scope.

(** ** Fractions *)
Lemma qn_sq n : qn n = sq n. Proof. reflexivity. Qed.
Lemma combine_tl {X} (l : list X) (d : X) : combine (removelast l) (tl l) = map (fun i => (nth i l d, nth (S i) l d)) (seq 0 (length l - 1)).
Proof.
  destruct l as [|x l]; [reflexivity|]. cbn [length tl]. rewrite Nat.sub_succ, Nat.sub_0_r. revert x. induction l as [|y l IH]; intro x; [reflexivity|].
  change (removelast (x :: y :: l)) with (x :: removelast (y :: l)). cbn [combine length seq map nth]. f_equal.
  rewrite IH. rewrite <- seq_shift, map_map. reflexivity.
Qed.
Lemma tau_hat_eq n : 0 < n -> tau_hat n = map (fun i => ((sq i + half) / sq n)%Qc) (seq 0 n).
Proof.
  intro H. assert (L : length (linspace01 n) = S n) by (unfold linspace01; rewrite map_length; apply seq_length).
  unfold tau_hat, midpoints. rewrite (combine_tl _ 0%Qc), map_map, L, Nat.sub_succ, Nat.sub_0_r. clear L.
  apply map_ext_in. intros i Hi. apply in_seq in Hi. cbn [fst snd]. unfold linspace01.
  assert (E : forall j, j <= n -> nth j (map (fun i0 => (qn i0 / qn n)%Qc) (seq 0 (S n))) 0%Qc = (sq j / sq n)%Qc).
  { intros j Hj. erewrite nth_error_nth; [reflexivity|]. rewrite nth_error_map_seq. destruct (Nat.ltb_spec j (S n)); [reflexivity|lia]. }
  rewrite !E by lia. rewrite sq_S. assert (N : sq n <> 0%Qc) by (apply sq_neq; lia).
  assert (T : (1 + 1)%Qc <> 0%Qc) by (intro F; apply (f_equal this) in F; vm_compute in F; discriminate F).
  assert (Hf : half = (1 / (1 + 1))%Qc) by (apply Qc_is_canon; vm_compute; reflexivity). rewrite Hf. field. auto.
Qed.

Lemma half2 : (half + half = 1)%Qc. Proof. apply Qc_is_canon. vm_compute. reflexivity. Qed.
Lemma half_pos : (0 < half)%Qc. Proof. vm_compute. reflexivity. Qed.
Lemma sq_le a b : a <= b -> (sq a <= sq b)%Qc.
Proof. intro H. replace b with (a + (b - a)) by lia. rewrite sq_plus. assert (0 <= sq (b - a))%Qc. { destruct (b - a) as [|k] eqn:E; [rewrite sq0; qclra|]. apply Qclt_le_weak, sq_pos. lia. } qclra. Qed.
Lemma div_lt x y z : (0 < z)%Qc -> (x < y)%Qc -> (x / z < y / z)%Qc.
Proof.
  intros Hz H. assert (N : z <> 0%Qc) by (intros E; rewrite E in Hz; qclra).
  assert (E1 : (x / z * z = x)%Qc) by (field; exact N). assert (E2 : (y / z * z = y)%Qc) by (field; exact N).
  set (a := (x / z)%Qc) in *. set (b := (y / z)%Qc) in *. clearbody a b. destruct (Qclt_le_dec a b) as [G|G]; [exact G|]. exfalso. subst x y. clear N. qcnra.
Qed.

(** C157.  The fractions of QRDQN: n numbers strictly between 0 and 1, equally spaced and symmetric around 1/2. *)
Lemma C157_midpoints_lemma : forall n, 0 < n -> length (tau_hat n) = n
  /\ (forall i, i < n -> exists t, nth_error (tau_hat n) i = Some t /\ (0 < t)%Qc /\ (t < 1)%Qc /\ nth_error (tau_hat n) (n - 1 - i) = Some (1 - t)%Qc)
  /\ forall i t t', nth_error (tau_hat n) i = Some t -> nth_error (tau_hat n) (S i) = Some t' -> (t' - t = 1 / sq n)%Qc.
Proof.
  intros n H. rewrite (tau_hat_eq n H). assert (P : (0 < sq n)%Qc) by (apply sq_pos; lia). assert (N : sq n <> 0%Qc) by (apply sq_neq; lia).
  split; [rewrite map_length; apply seq_length|]. split.
  - intros i Hi. rewrite !nth_error_map_seq. destruct (Nat.ltb_spec i n); [|lia]. destruct (Nat.ltb_spec (n - 1 - i) n); [|lia].
    eexists. split; [reflexivity|]. pose proof half_pos as Hp. pose proof half2 as H2.
    assert (S1 : (0 <= sq (0 + i))%Qc) by (rewrite <- sq0; apply sq_le; lia). cbn [Nat.add] in *.
    assert (S2 : (sq i + 1 <= sq n)%Qc) by (rewrite <- sq_S; apply sq_le; lia).
    split; [|split].
    + replace 0%Qc with (0 / sq n)%Qc by (field; exact N). apply div_lt; [exact P|qclra].
    + apply Qclt_le_trans with ((sq n) / (sq n))%Qc; [|replace (sq n / sq n)%Qc with 1%Qc by (field; exact N); qclra]. apply div_lt; [exact P|]. qclra.
    + f_equal. assert (E : (sq (n - 1 - i) + sq i + 1 = sq n)%Qc) by (rewrite <- sq_plus, <- sq_S; f_equal; lia).
      assert (E' : (sq (n - 1 - i) + half = sq n - (sq i + half))%Qc) by (rewrite <- E, <- half2; ring).
      rewrite E'. field. exact N.
  - intros i t t' H1 H2. rewrite nth_error_map_seq in H1, H2. destruct (Nat.ltb_spec i n); [|discriminate]. destruct (Nat.ltb_spec (S i) n); [|discriminate].
    injection H1 as <-. injection H2 as <-. cbn [Nat.add]. rewrite sq_S. field. exact N.
Qed.

Lemma cumsum_length acc l : length (cumsum_from acc l) = length l.
Proof. revert acc. induction l as [|x l IH]; intro acc; [reflexivity|]. cbn. rewrite IH. reflexivity. Qed.
Lemma taus_nth l i d : i <= length l -> nth i (taus_of l) d = qsum (firstn i l).
Proof.
  unfold taus_of. intro H. assert (G : forall l acc i, i <= length l -> nth i (acc :: cumsum_from acc l) d = (acc + qsum (firstn i l))%Qc).
  { clear. induction l as [|x l IH]; intros acc [|i] H; try (cbn in H; lia); try (cbn [nth firstn qsum]; ring).
    transitivity (nth i ((acc + x)%Qc :: cumsum_from (acc + x)%Qc l) d); [reflexivity|].
    rewrite IH by (cbn in H; lia). cbn [firstn qsum]. ring. }
  rewrite G by exact H. ring.
Qed.
Lemma qsum_firstn_S l i x : nth_error l i = Some x -> qsum (firstn (S i) l) = (qsum (firstn i l) + x)%Qc.
Proof.
  revert i. induction l as [|y l IH]; intros [|i] H; try discriminate.
  - injection H as ->. cbn [firstn qsum]. ring.
  - change (firstn (S (S i)) (y :: l)) with (y :: firstn (S i) l). change (firstn (S i) (y :: l)) with (y :: firstn i l). cbn [qsum]. rewrite (IH i H). ring.
Qed.
Lemma taus_diff l : map (fun x : Qc * Qc => (snd x - fst x)%Qc) (combine (removelast (taus_of l)) (tl (taus_of l))) = l.
Proof.
  assert (L : length (taus_of l) = S (length l)) by (unfold taus_of; cbn; rewrite cumsum_length; reflexivity).
  rewrite (combine_tl _ 0%Qc), map_map, L, Nat.sub_succ, Nat.sub_0_r. cbn [fst snd]. clear L.
  apply nth_error_ext. intro i. rewrite nth_error_map_seq. destruct (Nat.ltb_spec i (length l)) as [H|H].
  - cbn [Nat.add]. rewrite !taus_nth by lia. destruct (nth_error l i) as [x|] eqn:E; [|apply nth_error_None in E; lia]. f_equal.
    rewrite (qsum_firstn_S l i x E). ring.
  - symmetry. apply nth_error_None. exact H.
Qed.
Lemma qsum_nonneg l : (forall x, In x l -> (0 <= x)%Qc) -> (0 <= qsum l)%Qc.
Proof. induction l as [|x l IH]; intro H; cbn [qsum]; [qclra|]. specialize (IH (fun y Hy => H y (or_intror Hy))). pose proof (H x (or_introl eq_refl)). qclra. Qed.
(** C157.  The proposed fractions of FQF run from 0 to 1 (the sum of the probabilities) and never decrease; the midpoints lie
    between their neighbours, strictly if the probability is positive. *)
Lemma C157_proposed_lemma : forall probs, (forall p, In p probs -> (0 <= p)%Qc) -> qsum probs = 1%Qc ->
  length (taus_of probs) = S (length probs) /\ nth 0 (taus_of probs) 0%Qc = 0%Qc /\ nth (length probs) (taus_of probs) 0%Qc = 1%Qc
  /\ length (tau_hats_of probs) = length probs
  /\ forall i p, nth_error probs i = Some p -> exists h, nth_error (tau_hats_of probs) i = Some h
       /\ (0 <= nth i (taus_of probs) 0%Qc)%Qc /\ nth (S i) (taus_of probs) 0%Qc = (nth i (taus_of probs) 0%Qc + p)%Qc /\ (nth (S i) (taus_of probs) 0%Qc <= 1)%Qc
       /\ (h = nth i (taus_of probs) 0%Qc + half * p)%Qc.
Proof.
  intros probs Hp Hs. assert (L : length (taus_of probs) = S (length probs)) by (unfold taus_of; cbn; rewrite cumsum_length; reflexivity).
  split; [exact L|]. split; [reflexivity|]. split; [rewrite taus_nth, firstn_all by lia; exact Hs|].
  assert (E : tau_hats_of probs = map (fun i => ((nth i (taus_of probs) 0 + nth (S i) (taus_of probs) 0) / (1 + 1))%Qc) (seq 0 (length probs))).
  { unfold tau_hats_of, midpoints. rewrite (combine_tl _ 0%Qc), map_map, L, Nat.sub_succ, Nat.sub_0_r. reflexivity. }
  rewrite E. split; [rewrite map_length; apply seq_length|]. intros i p Hi. assert (Li : i < length probs) by (apply nth_error_Some; congruence).
  rewrite nth_error_map_seq. destruct (Nat.ltb_spec i (length probs)); [|lia]. eexists. split; [reflexivity|]. cbn [Nat.add].
  assert (Step : nth (S i) (taus_of probs) 0%Qc = (nth i (taus_of probs) 0 + p)%Qc).
  { rewrite !taus_nth by lia. apply qsum_firstn_S. exact Hi. }
  split; [|split; [exact Step|split]].
  - rewrite taus_nth by lia. apply qsum_nonneg. intros x Hx. apply Hp. rewrite <- (firstn_skipn i probs). apply in_or_app. now left.
  - rewrite taus_nth by lia. rewrite <- Hs. rewrite <- (firstn_skipn (S i) probs) at 2. rewrite qsum_app.
    assert (0 <= qsum (skipn (S i) probs))%Qc; [|qclra]. apply qsum_nonneg. intros x Hx. apply Hp. rewrite <- (firstn_skipn (S i) probs). apply in_or_app. now right.
  - rewrite Step. assert (T : (1 + 1)%Qc <> 0%Qc) by (intro F; apply (f_equal this) in F; vm_compute in F; discriminate F).
    assert (Hf : half = (1 / (1 + 1))%Qc) by (apply Qc_is_canon; vm_compute; reflexivity). rewrite Hf. field. exact T.
Qed.
(** C157.  The value of an action in FQF is the mean of its quantile values under the proposed probabilities, so it lies between
    their smallest and largest one. *)
Lemma C157_value_lemma : forall probs z lo hi, length z = length probs -> (forall p, In p probs -> (0 <= p)%Qc) -> qsum probs = 1%Qc ->
  (forall x, In x z -> (lo <= x)%Qc /\ (x <= hi)%Qc) ->
  fqf_q (taus_of probs) z = qdot probs z /\ (lo <= fqf_q (taus_of probs) z)%Qc /\ (fqf_q (taus_of probs) z <= hi)%Qc.
Proof.
  intros probs z lo hi L Hp Hs Hz. unfold fqf_q. rewrite taus_diff. fold (qdot probs z). split; [reflexivity|].
  assert (G : (lo * qsum probs <= qdot probs z)%Qc /\ (qdot probs z <= hi * qsum probs)%Qc).
  { clear Hs. unfold qdot. revert z L Hz. induction probs as [|p probs IH]; intros [|x z] L Hz; try discriminate; cbn [combine map qsum fst snd]; [split; qclra|].
    destruct (IH (fun q Hq => Hp q (or_intror Hq)) z) as [I1 I2]; [cbn in L; lia|intros y Hy; apply Hz; now right|].
    pose proof (Hp p (or_introl eq_refl)). destruct (Hz x (or_introl eq_refl)). clear IH Hp Hz L.
    set (s := qsum (map _ _)) in *. clearbody s. set (u := qsum probs) in *. clearbody u.
    split; qcnra. }
  rewrite Hs in G. replace (lo * 1)%Qc with lo in G by ring. replace (hi * 1)%Qc with hi in G by ring. exact G.
Qed.

(** ** The loss *)
Lemma qabs_nonneg x : (0 <= qabs x)%Qc.
Proof. unfold qabs. destruct (Qcleb_spec 0 x); qclra. Qed.
(** The asymmetric weight. *)
Lemma qweight_eq tau d : (0 <= tau)%Qc -> (tau <= 1)%Qc -> qweight tau d = if Qcleb d 0 then (1 - tau)%Qc else tau.
Proof.
  intros H0 H1. unfold qweight, qabs. destruct (Qcleb_spec d 0) as [G|G].
  - destruct (Qcleb_spec 0 (tau - 1)) as [F|F]; [|ring]. assert (E : tau = 1%Qc) by (apply Qcle_antisym; qclra). rewrite E. ring.
  - destruct (Qcleb_spec 0 (tau - 0)) as [F|F]; [ring|exfalso; qclra].
Qed.
Ltac hub := unfold huber, qabs; repeat match goal with |- context [Qcleb ?a ?b] => destruct (Qcleb_spec a b) | |- context [Qcltb ?a ?b] => destruct (Qcltb_spec a b) end.
Lemma this_half : (this half == 1 # 2)%Q. Proof. reflexivity. Qed.
Lemma huber_facts d : (0 <= huber d)%Qc /\ (huber d = 0%Qc <-> d = 0%Qc) /\ huber (- d) = huber d.
Proof.
  pose proof half_pos as Hp. pose proof half2 as H2. set (h := half) in *. assert (Hh : half = h) by reflexivity. clearbody h.
  assert (N : (0 <= huber d)%Qc). { hub; rewrite ?Hh; try (exfalso; qclra); try qclra; clear H2; qcnra. }
  split; [exact N|]. split.
  - split; [|intros ->; hub; rewrite ?Hh; try ring; exfalso; qclra]. intro E. destruct (Qc_eq_dec d 0) as [F|F]; [exact F|]. exfalso.
    assert (D : (0 < d * d)%Qc). { destruct (Qclt_le_dec 0 d) as [G|G]; [clear - G; qcnra|]. apply Qcle_lt_or_eq in G. destruct G as [G|G]; [clear - G; qcnra|contradiction]. }
    assert (D2 : (0 < h * (d * d))%Qc) by (clear - D Hp; set (e := (d * d)%Qc) in *; clearbody e; qcnra).
    revert E. hub; rewrite ?Hh; intro E; try (rewrite E in D2); qclra.
  - hub; rewrite ?Hh; try ring; try (exfalso; qclra); try (assert (E0 : d = 0%Qc) by (apply Qcle_antisym; qclra); rewrite E0; ring).
Qed.
(** The signed loss is strictly increasing. *)
Definition shuber (d : Qc) : Qc := if Qcleb d 0 then (- huber d)%Qc else huber d.
Lemma shuber_incr x y : (x < y)%Qc -> (shuber x < shuber y)%Qc.
Proof.
  intro H. pose proof half_pos as Hp. pose proof half2 as H2. unfold shuber. set (h := half) in *. assert (Hh : half = h) by reflexivity. clearbody h.
  hub; rewrite ?Hh; try (exfalso; qclra); try qclra; qcnra.
Qed.
Lemma qsum_map_nonneg {X} (f : X -> Qc) l : (forall x, In x l -> (0 <= f x)%Qc) -> (0 <= qsum (map f l))%Qc.
Proof. intro H. apply qsum_nonneg. intros y Hy. apply in_map_iff in Hy. destruct Hy as (x & <- & Hx). auto. Qed.
Lemma qsum_map_zero {X} (f : X -> Qc) l : (forall x, In x l -> (0 <= f x)%Qc) -> (qsum (map f l) = 0%Qc <-> forall x, In x l -> f x = 0%Qc).
Proof.
  intro H. induction l as [|y l IH]; [split; [intros _ x []|reflexivity]|]. cbn [map qsum].
  specialize (IH (fun x Hx => H x (or_intror Hx))). pose proof (H y (or_introl eq_refl)) as Hy. pose proof (qsum_map_nonneg f l (fun x Hx => H x (or_intror Hx))) as Hl.
  split.
  - intros E x [<- | Hx]; [apply Qcle_antisym; qclra|]. apply IH; [apply Qcle_antisym; qclra|exact Hx].
  - intro E. rewrite (E y (or_introl eq_refl)). destruct IH as [_ ->]; [ring|]. intros x Hx. apply E. now right.
Qed.
Lemma mean_nonneg l : (forall x, In x l -> (0 <= x)%Qc) -> l <> [] -> (0 <= np_mean l)%Qc /\ (np_mean l = 0%Qc <-> forall x, In x l -> x = 0%Qc).
Proof.
  intros H Hne. pose proof (mean_eq l Hne) as M. pose proof (qsum_nonneg l H) as N. rewrite <- M in N.
  assert (P : (0 < sq (length l))%Qc) by (apply sq_pos; destruct l; [contradiction|cbn; lia]).
  assert (Z : qsum l = 0%Qc <-> forall x, In x l -> x = 0%Qc). { rewrite <- (map_id l) at 1. apply (qsum_map_zero (fun x => x) l H). }
  rewrite <- Z, <- M. set (m := np_mean l) in *. set (s := sq (length l)) in *. clearbody m s. split.
  - destruct (Qclt_le_dec m 0) as [G|G]; [|exact G]. exfalso. qcnra.
  - split; [intros ->; ring|]. intro E. assert (Ns : s <> 0%Qc) by (intros F; rewrite F in P; qclra). apply (Qc_cancel m 0 s Ns). rewrite E. ring.
Qed.

Lemma term_nonneg tau t c : (0 < tau)%Qc -> (tau < 1)%Qc -> (0 <= huber (t - c) * qweight tau (t - c))%Qc /\ (huber (t - c) * qweight tau (t - c) = 0%Qc <-> t = c)%Qc.
Proof.
  intros H0 H1. rewrite qweight_eq by (apply Qclt_le_weak; assumption). destruct (huber_facts (t - c)) as (N & Z & _).
  set (w := if Qcleb (t - c) 0 then (1 - tau)%Qc else tau). assert (W : (0 < w)%Qc) by (unfold w; destruct (Qcleb (t - c) 0); qclra).
  set (h := huber (t - c)) in *. clearbody h w. split; [qcnra|]. split.
  - intro E. assert (Nw : w <> 0%Qc) by (intros F; rewrite F in W; qclra).
    assert (h = 0%Qc) by (apply (Qc_cancel h 0 w Nw); rewrite E; ring). apply Z in H. transitivity (t - c + c)%Qc; [ring|]. rewrite H. ring.
  - intros ->. destruct Z as [_ ->]; ring.
Qed.
(** C158.  The loss of a row is never negative, and zero exactly if every current quantile value equals every target; it only depends
    on differences.  The same holds for the priority, which ignores the fractions. *)
Lemma C158_zero_lemma : forall taus curr targets, length taus = length curr -> curr <> [] -> targets <> [] ->
  Forall (fun t => (0 < t)%Qc /\ (t < 1)%Qc) taus ->
  exists l, quantile_row taus curr targets = Ok l /\ (0 <= l)%Qc /\ (0 <= quantile_priority curr targets)%Qc
    /\ (l = 0%Qc <-> forall c t, In c curr -> In t targets -> t = c)
    /\ (quantile_priority curr targets = 0%Qc <-> forall c t, In c curr -> In t targets -> t = c)
    /\ forall k, quantile_row taus (map (fun c => (c + k)%Qc) curr) (map (fun c => (c + k)%Qc) targets) = Ok l.
Proof.
  intros taus curr targets L Hc Ht F. unfold quantile_row, guard. rewrite L, Nat.eqb_refl. eexists. split; [reflexivity|].
  set (f := fun x : Qc * Qc => quantile_term (fst x) targets (snd x)).
  assert (Fp : forall x, In x (combine taus curr) -> (0 <= f x)%Qc /\ (f x = 0%Qc <-> forall t, In t targets -> t = snd x)).
  { intros [tau c] Hx. rewrite Forall_forall in F. destruct (F tau (in_combine_l _ _ _ _ Hx)) as [T0 T1]. unfold f, quantile_term. cbn [fst snd]. split.
    - apply qsum_map_nonneg. intros t _. apply term_nonneg; assumption.
    - rewrite qsum_map_zero by (intros t _; apply term_nonneg; assumption). split; intros G t Hin; apply (term_nonneg tau t c T0 T1); auto. }
  assert (Hne : map f (combine taus curr) <> []) by (destruct taus, curr; try discriminate; contradiction).
  destruct (mean_nonneg (map f (combine taus curr))) as [M1 M2]; [intros y Hy; apply in_map_iff in Hy; destruct Hy as (x & <- & Hx); apply Fp; exact Hx|exact Hne|].
  set (g := fun c => qsum (map (fun t => qabs (huber (t - c)%Qc)) targets)).
  assert (Hab : forall x, qabs (huber x) = huber x) by (intro x; unfold qabs at 1; destruct (huber_facts x) as (N & _); destruct (Qcleb_spec 0 (huber x)); [reflexivity|exfalso; qclra]).
  assert (Gp : forall c, (0 <= g c)%Qc /\ (g c = 0%Qc <-> forall t, In t targets -> t = c)).
  { intro c. unfold g. assert (A : forall t, In t targets -> (0 <= qabs (huber (t - c)%Qc))%Qc) by (intros; apply qabs_nonneg). split; [apply qsum_map_nonneg; exact A|].
    rewrite qsum_map_zero by exact A. split; intros G t Hin; specialize (G t Hin).
    - rewrite Hab in G. destruct (huber_facts (t - c)) as (_ & [Z0 _] & _). apply Z0 in G. transitivity (t - c + c)%Qc; [ring|]. rewrite G. ring.
    - rewrite Hab, G. destruct (huber_facts (c - c)) as (_ & [_ Z0] & _). apply Z0. ring. }
  destruct (mean_nonneg (map g curr)) as [P1 P2]; [intros y Hy; apply in_map_iff in Hy; destruct Hy as (x & <- & Hx); apply Gp|destruct curr; [contradiction|discriminate]|].
  split; [exact M1|]. split; [exact P1|]. split; [|split].
  - rewrite M2. split.
    + intros E c t Hcin Htin. destruct (In_nth_error _ _ Hcin) as [i Ei]. destruct (nth_error taus i) as [tau|] eqn:Et.
      2:{ apply nth_error_None in Et. assert (i < length curr) by (apply nth_error_Some; congruence). lia. }
      assert (Hx : In (tau, c) (combine taus curr)) by (apply (nth_error_In _ i); rewrite nth_error_combine, Et, Ei; reflexivity).
      apply (Fp _ Hx); [|exact Htin]. apply E. apply in_map. exact Hx.
    + intros E x Hx. apply in_map_iff in Hx. destruct Hx as ([tau c] & <- & Hx). apply (Fp _ Hx). intros t Htin. cbn [snd]. apply E; [|exact Htin]. apply (in_combine_r _ _ _ _ Hx).
  - unfold quantile_priority. fold g. rewrite P2. split.
    + intros E c t Hcin Htin. apply (Gp c); [|exact Htin]. apply E, in_map, Hcin.
    + intros E x Hx. apply in_map_iff in Hx. destruct Hx as (c & <- & Hcin). apply Gp. intros t Htin. apply E; assumption.
  - intro k. rewrite map_length, Nat.eqb_refl. do 2 f_equal.
    assert (G : forall tau c, quantile_term tau (map (fun c => (c + k)%Qc) targets) (c + k)%Qc = quantile_term tau targets c).
    { intros tau c. unfold quantile_term. rewrite map_map. f_equal. apply map_ext. intro t. replace (t + k - (c + k))%Qc with (t - c)%Qc by ring. reflexivity. }
    clear - G. revert taus. induction curr as [|c curr IH]; intros [|tau taus]; try reflexivity. cbn [map combine]. f_equal; [apply G|apply IH].
Qed.
(** C158.  The loss of a batch is the mean of the rows' losses, each multiplied by the weight of its row. *)
Lemma C158_batch_lemma : forall (rows : list (list Qc * list Qc * list Qc * Qc)), rows <> [] ->
  (forall x, In x rows -> length (fst (fst (fst x))) = length (snd (fst (fst x)))) ->
  exists l losses, quantile_loss rows = Ok l /\ length losses = length rows
    /\ (forall i taus curr targets w, nth_error rows i = Some (taus, curr, targets, w) -> exists r, quantile_row taus curr targets = Ok r /\ nth_error losses i = Some (w * r)%Qc)
    /\ (l * sq (length rows))%Qc = qsum losses.
Proof.
  intros rows Hn H. set (g := fun x : list Qc * list Qc * list Qc * Qc => let '(taus, curr, targets, w) := x in
    (w * np_mean (map (fun x : Qc * Qc => quantile_term (fst x) targets (snd x)) (combine taus curr)))%Qc).
  exists (np_mean (map g rows)), (map g rows). split; [|split; [apply map_length|split]].
  - unfold quantile_loss. rewrite (mapM_Ok _ g); [reflexivity|]. intros [[[taus curr] targets] w] Hx. specialize (H _ Hx). cbn [fst snd] in H.
    unfold quantile_row. rewrite H, Nat.eqb_refl. cbn [guard bind]. unfold g. f_equal. apply Qcmult_comm.
  - intros i taus curr targets w Hi. exists (np_mean (map (fun x : Qc * Qc => quantile_term (fst x) targets (snd x)) (combine taus curr))). split.
    + specialize (H _ (nth_error_In _ _ Hi)). cbn [fst snd] in H. unfold quantile_row. rewrite H, Nat.eqb_refl. reflexivity.
    + rewrite nth_error_map, Hi. reflexivity.
  - rewrite <- (map_length g rows). apply mean_eq. destruct rows; [contradiction|discriminate].
Qed.
(** C158.  The fractions and the quantile values have to be equally many. *)
Lemma C158_shapes_lemma : forall taus curr targets, length taus <> length curr -> quantile_row taus curr targets = Err RuntimeError.
Proof. intros taus curr targets H. unfold quantile_row, guard. destruct (Nat.eqb_spec (length taus) (length curr)); [contradiction|reflexivity]. Qed.

Lemma term_diff tau tau' targets c : (0 <= tau)%Qc -> (tau <= 1)%Qc -> (0 <= tau')%Qc -> (tau' <= 1)%Qc ->
  (quantile_term tau' targets c - quantile_term tau targets c = (tau' - tau) * qsum (map (fun t => shuber (t - c)%Qc) targets))%Qc.
Proof.
  intros H0 H1 H0' H1'. unfold quantile_term. induction targets as [|t l IH]; cbn [map qsum]; [ring|].
  assert (E : (huber (t - c) * qweight tau' (t - c) - huber (t - c) * qweight tau (t - c) = (tau' - tau) * shuber (t - c))%Qc).
  { rewrite !qweight_eq by assumption. unfold shuber. destruct (Qcleb (t - c) 0); ring. }
  transitivity ((huber (t - c) * qweight tau' (t - c) - huber (t - c) * qweight tau (t - c))
    + (qsum (map (fun t => huber (t - c) * qweight tau' (t - c)) l) - qsum (map (fun t => huber (t - c) * qweight tau (t - c)) l)))%Qc; [ring|].
  rewrite E, IH. ring.
Qed.
(** C159.  Quantiles that minimise their loss do not cross: a larger fraction never has a smaller minimiser. *)
Lemma C159_no_crossing_lemma : forall tau tau' targets c c', targets <> [] -> (0 <= tau)%Qc -> (tau < tau')%Qc -> (tau' <= 1)%Qc ->
  (forall x, (quantile_term tau targets c <= quantile_term tau targets x)%Qc) ->
  (forall x, (quantile_term tau' targets c' <= quantile_term tau' targets x)%Qc) -> (c <= c')%Qc.
Proof.
  intros tau tau' targets c c' Hne H0 Hlt H1 M M'. destruct (Qclt_le_dec c' c) as [G|G]; [|exact G]. exfalso.
  specialize (M c'). specialize (M' c).
  pose proof (term_diff tau tau' targets c H0 ltac:(qclra) ltac:(qclra) H1) as D. pose proof (term_diff tau tau' targets c' H0 ltac:(qclra) ltac:(qclra) H1) as D'.
  assert (S : (qsum (map (fun t => shuber (t - c)%Qc) targets) < qsum (map (fun t => shuber (t - c')%Qc) targets))%Qc).
  { apply qsum_map_lt; [exact Hne|]. intros t _. apply shuber_incr. qclra. }
  set (s := qsum (map (fun t => shuber (t - c)%Qc) targets)) in *. set (s' := qsum (map (fun t => shuber (t - c')%Qc) targets)) in *.
  set (a := quantile_term tau targets c) in *. set (a' := quantile_term tau targets c') in *. set (b := quantile_term tau' targets c) in *. set (b' := quantile_term tau' targets c') in *.
  clearbody s s' a a' b b'. clear - Hlt M M' D D' S.
  assert (E : ((tau' - tau) * s' <= (tau' - tau) * s)%Qc) by (rewrite <- D, <- D'; qclra). set (d := (tau' - tau)%Qc) in *. assert (0 < d)%Qc by (unfold d; qclra). clearbody d. qcnra.
Qed.
Lemma huber_mono x y : (0 <= x)%Qc -> (x < y)%Qc -> (huber x < huber y)%Qc.
Proof.
  intros H0 H. pose proof (shuber_incr x y H) as S. unfold shuber in S. destruct (Qcleb_spec y 0) as [G|G]; [exfalso; qclra|].
  destruct (Qcleb_spec x 0) as [F|F]; [|exact S]. assert (x = 0%Qc) by (apply Qcle_antisym; assumption). subst x.
  destruct (huber_facts 0) as (_ & [_ Z] & _). rewrite Z in * by reflexivity. replace (- 0)%Qc with 0%Qc in S by ring. exact S.
Qed.
(** C159.  A minimiser lies between the smallest and the largest target. *)
Lemma C159_between_lemma : forall tau targets c lo hi, targets <> [] -> (0 < tau)%Qc -> (tau < 1)%Qc ->
  (forall t, In t targets -> (lo <= t)%Qc /\ (t <= hi)%Qc) ->
  (forall x, (quantile_term tau targets c <= quantile_term tau targets x)%Qc) -> (lo <= c)%Qc /\ (c <= hi)%Qc.
Proof.
  intros tau targets c lo hi Hne H0 H1 Hb M.
  assert (P : forall h h' w, (h < h')%Qc -> (0 < w)%Qc -> (h * w < h' * w)%Qc) by (intros; qcnra).
  split.
  - destruct (Qclt_le_dec c lo) as [G|G]; [|exact G]. exfalso. specialize (M lo).
    assert (S : (quantile_term tau targets lo < quantile_term tau targets c)%Qc); [|qclra].
    apply qsum_map_lt; [exact Hne|]. intros t Ht. destruct (Hb t Ht) as [B _]. rewrite !qweight_eq by (apply Qclt_le_weak; assumption).
    destruct (Qcleb_spec (t - c) 0) as [F|F]; [exfalso; qclra|]. destruct (Qcleb_spec (t - lo) 0) as [F'|F'].
    + assert (t = lo) as -> by (apply Qcle_antisym; qclra). assert (Z : huber (lo - lo)%Qc = 0%Qc) by (destruct (huber_facts (lo - lo)) as (_ & [_ Z0] & _); apply Z0; ring). rewrite Z.
      replace (0 * (1 - tau))%Qc with (0 * tau)%Qc by ring. apply P; [|exact H0].
      assert (Z0 : huber 0%Qc = 0%Qc) by (destruct (huber_facts 0) as (_ & [_ Z1] & _); apply Z1; reflexivity). rewrite <- Z0. apply huber_mono; qclra.
    + apply P; [|exact H0]. apply huber_mono; qclra.
  - destruct (Qclt_le_dec hi c) as [G|G]; [|exact G]. exfalso. specialize (M hi).
    assert (S : (quantile_term tau targets hi < quantile_term tau targets c)%Qc); [|qclra].
    apply qsum_map_lt; [exact Hne|]. intros t Ht. destruct (Hb t Ht) as [_ B]. rewrite !qweight_eq by (apply Qclt_le_weak; assumption).
    destruct (Qcleb_spec (t - c) 0) as [F|F]; [|exfalso; qclra]. destruct (Qcleb_spec (t - hi) 0) as [F'|F']; [|exfalso; qclra].
    apply P; [|qclra]. destruct (huber_facts (t - hi)) as (_ & _ & E1). destruct (huber_facts (t - c)) as (_ & _ & E2). rewrite <- E1, <- E2. apply huber_mono; qclra.
Qed.

(** ** The gradient of the fractions *)
(** C160.  If the quantile values increase with the fraction, the gradient of fraction i is 2 q_i - z_i - z_(i+1). *)
Lemma C160_gradient_lemma : forall hats qs, length hats = S (length qs) ->
  (forall i q, nth_error qs i = Some q -> (nth i (firstn 1 hats ++ removelast qs) 0 < q)%Qc /\ (q < nth i (tl qs ++ skipn (length qs) hats) 0)%Qc) ->
  length (fraction_gradient hats qs) = length qs
  /\ forall i q h h', nth_error qs i = Some q -> nth_error hats i = Some h -> nth_error hats (S i) = Some h' ->
       nth_error (fraction_gradient hats qs) i = Some ((q - h) + (q - h'))%Qc.
Proof.
  intros hats qs L Hs. unfold fraction_gradient. replace (length hats - 1) with (length qs) by lia.
  set (prev := firstn 1 hats ++ removelast qs) in *. set (next := tl qs ++ skipn (length qs) hats) in *.
  assert (Lr : forall (l : list Qc), length (removelast l) = length l - 1) by (intro l; rewrite removelast_firstn_len, firstn_length; lia).
  assert (Lt : forall (l : list Qc), length (tl l) = length l - 1) by (intros [|]; cbn; lia).
  assert (Lp : length qs <= length prev) by (unfold prev; rewrite app_length, firstn_length, Lr; lia).
  assert (Ln : length qs <= length next) by (unfold next; rewrite app_length, skipn_length, Lt; lia).
  split; [rewrite map_length, !combine_length, Lr, Lt; lia|].
  intros i q h h' Hq Hh Hh'. assert (Li : i < length qs) by (apply nth_error_Some; congruence).
  rewrite nth_error_map, !nth_error_combine, Hq.
  assert (E1 : nth_error (removelast hats) i = Some h).
  { rewrite removelast_firstn_len, nth_error_firstn. destruct (Nat.ltb_spec i (Nat.pred (length hats))); [exact Hh|lia]. }
  assert (E2 : nth_error (tl hats) i = Some h') by (destruct hats; [discriminate|exact Hh']).
  rewrite E1, E2. rewrite (nth_error_nth' prev 0%Qc), (nth_error_nth' next 0%Qc) by lia. cbn [option_map].
  destruct (Hs i q Hq) as [G1 G2]. destruct (Qcltb_spec (nth i prev 0%Qc) q) as [_|F]; [|exfalso; qclra].
  destruct (Qcltb_spec q (nth i next 0%Qc)) as [_|F]; [|exfalso; qclra]. reflexivity.
Qed.

(** ** Choice of the action of the target *)
(** The documented target of (double) distributional Q-learning: double, the action of the online network; otherwise that of the
    network that gives the target. *)
Definition spec_qr_target (use_target is_double : bool) (value : list Qc -> Qc) (z_new z_old : list (list Qc)) : option (list Qc) :=
  let t := if use_target then z_old else z_new in
  nth_error t (argmax (map value (if is_double then z_new else t))).
(** C161.  With [is_double = True], or without a target network, the target is the documented one. *)
Lemma C161_double_lemma : forall use_target is_double value z_new z_old, length z_new = length z_old -> z_new <> [] ->
  is_double = true \/ use_target = false ->
  exists z, qr_target use_target is_double value z_new z_old = Ok z /\ spec_qr_target use_target is_double value z_new z_old = Some z.
Proof.
  intros ut dbl value zn zo L Hne H. unfold qr_target, spec_qr_target.
  assert (E : (if dbl then zn else if ut then zo else zn) = zn) by (destruct H as [-> | ->]; [reflexivity|destruct dbl; reflexivity]).
  rewrite E. destruct (argmax_spec (map value zn)) as (v & Hv & _); [destruct zn; [contradiction|discriminate]|].
  assert (Li : argmax (map value zn) < length zn) by (rewrite <- (map_length value zn); apply nth_error_Some; congruence).
  destruct (nth_error (if ut then zo else zn) (argmax (map value zn))) as [z|] eqn:Ez.
  - exists z. split; reflexivity.
  - apply nth_error_None in Ez. destruct ut; lia.
Qed.
(** C161.  [is_double = False] changes nothing: the online network always chooses the action. *)
Lemma C161_ignored_refuted_lemma : (forall use_target value z_new z_old, qr_target use_target false value z_new z_old = qr_target use_target true value z_new z_old)
  /\ exists value z_new z_old z, length z_new = length z_old /\ qr_target true false value z_new z_old = Ok z /\ spec_qr_target true false value z_new z_old <> Some z.
Proof.
  split; [reflexivity|]. exists qr_q, [[1%Qc]; [0%Qc]], [[0%Qc]; [1%Qc]], [0%Qc]. split; [reflexivity|]. split; [vm_compute; reflexivity|].
  vm_compute. intro H. injection H as H. discriminate H.
Qed.

(** ** Branching DQN *)
Lemma bdq_nb {Ob} (qn qo : Ob -> list (list Qc)) nb ut dbl o : (forall o, length (qn o) = nb) -> (forall o, length (qo o) = nb) -> length (bdq_branch_values qn qo ut dbl o) = nb.
Proof. intros H1 H2. unfold bdq_branch_values. rewrite map_length, combine_length. destruct ut; rewrite ?H1, ?H2; lia. Qed.
(** C162.  The value of a branch: that of the evaluating network for an action that is best in this branch according to the online network
    ([is_double]) or to the evaluating network. *)
Lemma C162_branch_lemma : forall (Ob : Type) (q_new q_old : Ob -> list (list Qc)) use_target is_double o k row_new row_eval,
  nth_error (q_new o) k = Some row_new -> nth_error (if use_target : bool then q_old o else q_new o) k = Some row_eval -> length row_new = length row_eval -> row_new <> [] ->
  exists a v, nth_error (bdq_branch_values q_new q_old use_target is_double o) k = Some v /\ nth_error row_eval a = Some v /\
    exists m, nth_error (if is_double : bool then row_new else row_eval) a = Some m /\ forall x, In x (if is_double : bool then row_new else row_eval) -> (x <= m)%Qc.
Proof.
  intros Ob qn qo ut dbl o k rn re H1 H2 HL Hne. set (sel := if dbl then rn else re).
  assert (Ls : length sel = length re) by (unfold sel; destruct dbl; congruence).
  assert (Hs : sel <> []) by (destruct rn; [contradiction|]; destruct sel; [|discriminate]; cbn in *; lia).
  destruct (argmax_spec sel Hs) as (m & Hm & Hb). assert (Hlt : argmax sel < length re) by (rewrite <- Ls; apply nth_error_Some; congruence).
  exists (argmax sel), (nth (argmax sel) re 0%Qc). split; [|split; [apply nth_error_nth', Hlt | exists m; split; assumption]].
  unfold bdq_branch_values. rewrite nth_error_map.
  assert (C : nth_error (combine (qn o) (if ut then qo o else qn o)) k = Some (rn, re)).
  { set (l2 := if ut then qo o else qn o) in *. clearbody l2. clear -H1 H2. revert l2 k H1 H2. induction (qn o) as [|x l IH]; intros [|y l2] [|k] H1 H2; try discriminate; cbn in *; [congruence|]. apply IH; assumption. }
  rewrite C. reflexivity.
Qed.
Lemma concat_single (l : list (list Qc)) : forallb (fun r => length r =? 1) l = true -> concat l = map np_mean l /\ length (concat l) = length l.
Proof.
  induction l as [|r l IH]; intro H; [split; reflexivity|]. cbn [forallb] in H. apply andb_true_iff in H. destruct H as [H1 H2].
  destruct r as [|x [|y r]]; try discriminate. destruct (IH H2) as [E1 E2]. cbn [concat app map length]. rewrite E1, map_length. split; [|reflexivity].
  f_equal. symmetry. pose proof (mean_eq [x] ltac:(discriminate)) as M. cbn [length qsum] in M.
  assert (S1 : sq 1 = 1%Qc) by (apply Qc_is_canon; reflexivity). rewrite S1 in M. transitivity (np_mean [x] * 1)%Qc; [ring|]. rewrite M. ring.
Qed.
(** C162.  With more than one row, or one branch, every row's target is its reward plus, unless it ended, 0.99 times the mean over the
    branches of the value of the chosen action. *)
Lemma C162_targets_lemma : forall (Ob : Type) (q_new q_old : Ob -> list (list Qc)) nb discount use_target is_double batch,
  (forall o, length (q_new o) = nb) -> (forall o, length (q_old o) = nb) -> 0 < nb -> 2 <= length batch \/ (nb = 1 /\ batch <> []) ->
  exists l, bdq_returns q_new q_old discount use_target is_double batch = Ok l /\ length l = length batch
    /\ forall i r, nth_error batch i = Some r ->
         nth_error l i = Some (spec_target (w_rew r) (w_done r || w_unfinished r) (Q2Qc (99 # 100)) (np_mean (bdq_branch_values q_new q_old use_target is_double (w_next r)))).
Proof.
  intros Ob qn qo nb disc ut dbl batch H1 H2 Hnb Hb. unfold bdq_returns.
  set (f := fun r : brow Ob => bdq_branch_values qn qo ut dbl (w_next r)).
  assert (Lf : forall r, length (f r) = nb) by (intro r; exact (bdq_nb qn qo nb ut dbl (w_next r) H1 H2)).
  assert (Sp : forall (r : brow Ob) v, (w_rew r + Q2Qc (99 # 100) * v * (1 - b2q (w_done r || w_unfinished r)) = spec_target (w_rew r) (w_done r || w_unfinished r) (Q2Qc (99 # 100)) v)%Qc).
  { intros r v. unfold spec_target, b2q. destruct (w_done r || w_unfinished r); ring. }
  destruct (Nat.eq_dec nb 1) as [E1|N1].
  - (* one branch *)
    assert (Fa : forallb (fun r => length r =? 1) (map f batch) = true).
    { apply forallb_forall. intros x Hx. apply in_map_iff in Hx. destruct Hx as (r & <- & _). rewrite Lf, E1. reflexivity. }
    destruct (concat_single _ Fa) as [C1 C2]. rewrite map_length in C2. rewrite map_map in C1.
    destruct batch as [|r0 [|r1 batch]]; [destruct Hb as [Hb | [_ Hb]]; [cbn in Hb; lia|contradiction]| |].
    + cbn [map]. pose proof (Lf r0) as L0. rewrite E1 in L0. destruct (f r0) as [|x [|y l]] eqn:Ef; try discriminate. cbn [squeeze2].
      eexists. split; [reflexivity|]. split; [reflexivity|]. intros [|[|i]] r Hr; try discriminate. injection Hr as <-. cbn [map nth_error].
      rewrite Sp. fold (f r0). cbn [map concat] in C1. rewrite Ef in C1. cbn [app] in C1. injection C1 as C1. rewrite Ef, <- C1. reflexivity.
    + assert (Es : squeeze2 (map f (r0 :: r1 :: batch)) = T1 (concat (map f (r0 :: r1 :: batch)))).
      { unfold squeeze2. rewrite Fa. cbn [map]. destruct (f r0) as [|x [|y l]]; reflexivity. }
      rewrite Es. rewrite C2, Nat.eqb_refl. eexists. split; [reflexivity|]. rewrite map_length, combine_length, C2. split; [lia|].
      intros i r Hr. rewrite nth_error_map, nth_error_combine, Hr, C1, nth_error_map, Hr. cbn [option_map fst snd]. rewrite Sp. reflexivity.
  - (* several branches and rows *)
    destruct batch as [|r0 [|r1 batch]]; [destruct Hb as [Hb | [Hb _]]; cbn in *; lia|destruct Hb as [Hb | [Hb _]]; cbn in *; lia|].
    assert (Es : squeeze2 (map f (r0 :: r1 :: batch)) = T2 (map f (r0 :: r1 :: batch))).
    { assert (Fa : forallb (fun r => length r =? 1) (map f (r0 :: r1 :: batch)) = false).
      { cbn [map forallb]. rewrite Lf. destruct (Nat.eqb_spec nb 1); [contradiction|reflexivity]. }
      unfold squeeze2. rewrite Fa. cbn [map]. destruct (f r0) as [|x [|y l]]; reflexivity. }
    rewrite Es. eexists. split; [reflexivity|]. rewrite map_length, combine_length, map_length. split; [lia|].
    intros i r Hr. rewrite nth_error_map, nth_error_combine, Hr, nth_error_map, Hr. cbn [option_map fst snd]. rewrite Sp. reflexivity.
Qed.
(** C162.  The discount factor of the policy is not used. *)
Lemma C162_discount_refuted_lemma : (forall (Ob : Type) (q_new q_old : Ob -> list (list Qc)) d d' use_target is_double batch,
    bdq_returns q_new q_old d use_target is_double batch = bdq_returns q_new q_old d' use_target is_double batch)
  /\ exists (q : unit -> list (list Qc)) batch l r, bdq_returns q q 0%Qc false true batch = Ok l /\ nth_error batch 0 = Some r
     /\ nth_error l 0 <> Some (spec_target (w_rew r) (w_done r || w_unfinished r) 0%Qc (np_mean (bdq_branch_values q q false true tt))).
Proof.
  split; [reflexivity|]. exists (fun _ => [[1%Qc]; [1%Qc]]), [mkB 0%Qc false false tt; mkB 0%Qc false false tt]. do 2 eexists.
  split; [vm_compute; reflexivity|]. split; [reflexivity|]. vm_compute. intro H. injection H as H. discriminate H.
Qed.
(** C162.  The last stored step of an episode that goes on is treated as terminal. *)
Lemma C162_unfinished_refuted_lemma : forall (Ob : Type) (q_new q_old : Ob -> list (list Qc)) nb discount use_target is_double batch i r,
  (forall o, length (q_new o) = nb) -> (forall o, length (q_old o) = nb) -> 0 < nb -> 2 <= length batch ->
  nth_error batch i = Some r -> w_done r = false -> w_unfinished r = true ->
  exists l, bdq_returns q_new q_old discount use_target is_double batch = Ok l /\ nth_error l i = Some (w_rew r).
Proof.
  intros Ob qn qo nb disc ut dbl batch i r H1 H2 Hnb Hb Hr Hd Hu.
  destruct (C162_targets_lemma Ob qn qo nb disc ut dbl batch H1 H2 Hnb (or_introl Hb)) as (l & E & _ & T). exists l. split; [exact E|].
  rewrite (T i r Hr), Hd, Hu. reflexivity.
Qed.
(** C162.  With a single row and several branches the targets are those of the branches, one each, not their mean, along the axis of
    the rows: the errors are a square, and there are as many priorities as branches for one transition. *)
Lemma C162_single_row_refuted_lemma : forall (Ob : Type) (q_new q_old : Ob -> list (list Qc)) nb discount use_target is_double r row,
  (forall o, length (q_new o) = nb) -> (forall o, length (q_old o) = nb) -> 2 <= nb -> length row = nb ->
  exists l td, bdq_returns q_new q_old discount use_target is_double [r] = Ok l /\ length l = nb
    /\ (forall k v, nth_error (bdq_branch_values q_new q_old use_target is_double (w_next r)) k = Some v ->
          nth_error l k = Some (spec_target (w_rew r) (w_done r || w_unfinished r) (Q2Qc (99 # 100)) v))
    /\ bdq_td l [row] = Ok td /\ length td = nb /\ length (bdq_priority td) = nb.
Proof.
  intros Ob qn qo nb disc ut dbl r row H1 H2 Hnb Hrow. unfold bdq_returns. cbn [map].
  pose proof (bdq_nb qn qo nb ut dbl (w_next r) H1 H2) as L. set (v := bdq_branch_values qn qo ut dbl (w_next r)) in *.
  assert (Es : squeeze2 [v] = T1 v) by (destruct v as [|x [|y v]]; cbn in L; try lia; reflexivity). rewrite Es.
  assert (Lb : (length [r] =? length v) = false) by (apply Nat.eqb_neq; cbn [length]; lia). rewrite Lb.
  set (l := map _ v). assert (Ll : length l = nb) by (unfold l; rewrite map_length; exact L).
  exists l. eexists. split; [reflexivity|]. split; [exact Ll|]. split; [|split; [|split]].
  - intros k x Hk. unfold l. rewrite nth_error_map, Hk. cbn [option_map]. f_equal. unfold spec_target, b2q. destruct (w_done r || w_unfinished r); ring.
  - unfold bdq_td. destruct (Nat.eqb_spec (length l) (length [row])) as [E|_]; [cbn in E; lia|]. reflexivity.
  - rewrite map_length. exact Ll.
  - unfold bdq_priority. rewrite !map_length. exact Ll.
Qed.

(** C163.  The loss of a batch with positive weights is zero exactly if every branch of every row meets its target. *)
Lemma C163_loss_lemma : forall weight td, length weight = length td -> td <> [] -> Forall (fun w => (0 < w)%Qc) weight -> Forall (fun r => r <> []) td ->
  (0 <= bdq_loss weight td)%Qc /\ (bdq_loss weight td = 0%Qc <-> forall r d, In r td -> In d r -> d = 0%Qc).
Proof.
  intros weight td L Hne Fw Fr. unfold bdq_loss.
  set (g := fun x : Qc * list Qc => (np_mean (map (fun d => d * d) (snd x)) * fst x)%Qc).
  assert (Sq : forall d : Qc, (0 <= d * d)%Qc /\ ((d * d)%Qc = 0%Qc <-> d = 0%Qc)).
  { intro d. split; [qcnra|]. split; [|intros ->; ring]. intro E. destruct (Qcmult_integral _ _ E); assumption. }
  assert (G : forall x, In x (combine weight td) -> (0 <= g x)%Qc /\ (g x = 0%Qc <-> forall d, In d (snd x) -> d = 0%Qc)).
  { intros [w r] Hx. rewrite Forall_forall in Fw, Fr. pose proof (Fw w (in_combine_l _ _ _ _ Hx)) as W. pose proof (Fr r (in_combine_r _ _ _ _ Hx)) as R. unfold g. cbn [fst snd].
    destruct (mean_nonneg (map (fun d => d * d)%Qc r)) as [M1 M2]; [intros y Hy; apply in_map_iff in Hy; destruct Hy as (d & <- & _); apply Sq|destruct r; [contradiction|discriminate]|].
    set (m := np_mean _) in *. assert (Z : (m * w = 0)%Qc <-> m = 0%Qc).
    { split; [|intros ->; ring]. intro E. apply (Qc_cancel m 0 w); [intros F; rewrite F in W; qclra|]. rewrite E. ring. }
    split; [clearbody m; clear - M1 W; qcnra|]. rewrite Z, M2. split.
    - intros H d Hd. apply Sq. apply H. apply in_map_iff. exists d. auto.
    - intros H y Hy. apply in_map_iff in Hy. destruct Hy as (d & <- & Hd). rewrite (H d Hd). ring. }
  destruct (mean_nonneg (map g (combine weight td))) as [M1 M2].
  - intros y Hy. apply in_map_iff in Hy. destruct Hy as (x & <- & Hx). apply G. exact Hx.
  - destruct weight, td; try discriminate; contradiction.
  - split; [exact M1|]. rewrite M2. split.
    + intros H r d Hr Hd. destruct (In_nth_error _ _ Hr) as [i Ei]. destruct (nth_error weight i) as [w|] eqn:Ew.
      2:{ apply nth_error_None in Ew. assert (i < length td) by (apply nth_error_Some; congruence). lia. }
      assert (Hx : In (w, r) (combine weight td)) by (apply (nth_error_In _ i); rewrite nth_error_combine, Ew, Ei; reflexivity).
      apply (G _ Hx); [|exact Hd]. apply H, in_map, Hx.
    + intros H y Hy. apply in_map_iff in Hy. destruct Hy as ([w r] & <- & Hx). apply (G _ Hx). intros d Hd. apply (H r d); [|exact Hd]. apply (in_combine_r _ _ _ _ Hx).
Qed.
(** C163.  The priority is the sum of the errors, so errors of opposite sign in different branches cancel: a transition with arbitrarily large
    errors can get the priority of a perfectly predicted one. *)
Lemma C163_cancel_refuted_lemma : forall x, bdq_priority [[x; (- x)%Qc]] = bdq_priority [[0%Qc; 0%Qc]] /\ (x <> 0%Qc -> bdq_loss [1%Qc] [[x; (- x)%Qc]] <> 0%Qc).
Proof.
  intro x. split; [unfold bdq_priority; cbn [map qsum]; f_equal; ring|]. intros H E.
  apply (C163_loss_lemma [1%Qc] [[x; (- x)%Qc]]) with (r := [x; (- x)%Qc]) (d := x) in E; [contradiction|reflexivity|discriminate|..|now left|now left].
  - repeat constructor.
  - constructor; [discriminate|constructor].
Qed.
(** C163.  With one branch the priority is its error. *)
Lemma C163_one_branch_lemma : forall l, bdq_priority (map (fun d => [d]) l) = l.
Proof. intro l. unfold bdq_priority. rewrite map_map. rewrite <- (map_id l) at 2. apply map_ext. intro d. cbn [qsum]. ring. Qed.

(** C164.  Without a mask exploration keeps every branch's action in range. *)
Lemma C164_range_lemma : forall near0 eps u rand act n, Forall (Forall (fun a => (0 <= a < n)%Z)) rand -> Forall (Forall (fun a => (0 <= a < n)%Z)) act ->
  Forall (Forall (fun a => (0 <= a < n)%Z)) (bdq_explore near0 eps u rand None act)
  /\ (near0 = true -> bdq_explore near0 eps u rand None act = act).
Proof.
  intros near0 eps u rand act n Fr Fa. unfold bdq_explore. destruct near0; [split; [exact Fa|reflexivity]|]. split; [|discriminate].
  rewrite Forall_forall in *. intros x Hx. apply in_map_iff in Hx. destruct Hx as ([a [u0 r]] & <- & Hin). cbn [fst snd].
  destruct (Qcltb u0 eps).
  - apply Fr. apply (in_combine_r _ _ _ _ (in_combine_r _ _ _ _ Hin)).
  - apply Fa. apply (in_combine_l _ _ _ _ Hin).
Qed.
(** C164.  With a mask (True: allowed) the mask is added to the random action: for any number of actions, an allowed last action becomes one
    that does not exist. *)
Lemma C164_mask_refuted_lemma : forall n eps, (0 < n)%Z -> (0 < eps)%Qc -> bdq_explore false eps [0%Qc] [[(n - 1)%Z]] (Some [[1%Z]]) [[0%Z]] = [[n]].
Proof.
  intros n eps Hn He. unfold bdq_explore. cbn [combine map fst snd]. destruct (Qcltb_spec 0 eps) as [_|F]; [|exfalso; qclra]. do 2 f_equal. lia.
Qed.

(** C165.  The conservative term of discrete CQL is never negative, for every function that is at least the maximum. *)
Lemma C165_nonneg_lemma : forall lse rows, (forall l x, In x l -> (x <= lse l)%Qc) -> rows <> [] -> Forall (fun r => snd r < length (fst r)) rows ->
  (0 <= cql_min_q_loss lse rows)%Qc
  /\ (forall k, (forall l, lse (map (fun x => (x + k)%Qc) l) = (lse l + k)%Qc) ->
        cql_min_q_loss lse (map (fun r => (map (fun x => (x + k)%Qc) (fst r), snd r)) rows) = cql_min_q_loss lse rows).
Proof.
  intros lse rows Hl Hne F. unfold cql_min_q_loss.
  assert (P : (0 < sq (length rows))%Qc) by (apply sq_pos; destruct rows; [contradiction|cbn; lia]).
  assert (N : sq (length rows) <> 0%Qc) by (apply sq_neq; destruct rows; [contradiction|cbn; lia]).
  split.
  - set (f := fun r : list Qc * nat => lse (fst r)). set (g := fun r : list Qc * nat => nth (snd r) (fst r) 0%Qc).
    assert (S : (qsum (map g rows) <= qsum (map f rows))%Qc).
    { clear P N Hne. induction F as [|r rows Hr F IH]; cbn [map qsum]; [qclra|]. assert (g r <= f r)%Qc; [apply Hl, nth_In, Hr|]. qclra. }
    pose proof (mean_eq (map f rows)) as M1. pose proof (mean_eq (map g rows)) as M2. rewrite map_length in M1, M2.
    specialize (M1 ltac:(destruct rows; [contradiction|discriminate])). specialize (M2 ltac:(destruct rows; [contradiction|discriminate])).
    rewrite <- M1, <- M2 in S. set (a := np_mean (map f rows)) in *. set (b := np_mean (map g rows)) in *. clearbody a b. set (s := sq (length rows)) in *. clearbody s.
    destruct (Qclt_le_dec (a - b) 0) as [G|G]; [|exact G]. exfalso. clear - G S P. qcnra.
  - intros k Hk. unfold np_mean. rewrite !map_length, !map_map. cbn [fst snd].
    assert (S1 : qsum (map (fun r : list Qc * nat => lse (map (fun x => (x + k)%Qc) (fst r))) rows) = (qsum (map (fun r : list Qc * nat => lse (fst r)) rows) + sq (length rows) * k)%Qc).
    { clear - Hk. induction rows as [|r rows IH]; cbn [map qsum length]; [rewrite sq0; ring|]. rewrite IH, Hk, sq_S. ring. }
    assert (S2 : qsum (map (fun r : list Qc * nat => nth (snd r) (map (fun x => (x + k)%Qc) (fst r)) 0%Qc) rows) = (qsum (map (fun r : list Qc * nat => nth (snd r) (fst r) 0%Qc) rows) + sq (length rows) * k)%Qc).
    { clear - F. induction F as [|r rows Hr F IH]; cbn [map qsum length]; [rewrite sq0; ring|]. rewrite IH, sq_S.
      rewrite (nth_indep _ 0%Qc (0 + k)%Qc) by (rewrite map_length; exact Hr). rewrite (map_nth (fun x => (x + k)%Qc)). ring. }
    rewrite S1, S2. fold (sq (length rows)). field. exact N.
Qed.

(** C159. The Huber loss is even, nowhere negative and lies between the absolute value less one half and half the square: it has no
    jump where the two branches meet. *)
Lemma C159_huber_lemma : forall d : Qc,
  huber (- d) = huber d /\ (0 <= huber d)%Qc /\ (qabs d - half <= huber d)%Qc /\ (huber d <= half * (d * d))%Qc /\ (huber d <= qabs d)%Qc.
Proof.
  intro d. unfold huber.
  assert (E : qabs (- d)%Qc = qabs d).
  { unfold qabs. destruct (Qcleb_spec 0 (- d)), (Qcleb_spec 0 d); try qclra. }
  assert (Hq : (qabs d * qabs d = d * d)%Qc) by (unfold qabs; destruct (Qcleb_spec 0 d); ring).
  pose proof (qabs_nonneg d) as Ha.
  rewrite E. replace (- d * - d)%Qc with (d * d)%Qc by ring. rewrite <- Hq. generalize dependent (qabs d). intros a E Hq Ha.
  assert (H2 : (half + half = 1)%Qc) by (apply Qc_is_canon; vm_compute; reflexivity).
  assert (H0 : (0 < half)%Qc) by (vm_compute; reflexivity).
  generalize dependent half. intros h H2 H0. clear -Ha H2 H0.
  assert (Hsq : forall x : Qc, (0 <= x * x)%Qc) by (intro x; qcnra).
  split; [reflexivity|]. destruct (Qcltb_spec a 1) as [L|L]; repeat match goal with |- _ /\ _ => split end.
  - pose proof (Hsq a) as S. clear -S H0. qcnra.
  - pose proof (Hsq (a - 1)%Qc) as S. assert (X : (0 <= h * ((a - 1) * (a - 1)))%Qc) by (clear -S H0; revert S; generalize ((a - 1) * (a - 1))%Qc; intros; qcnra).
    replace (h * ((a - 1) * (a - 1)))%Qc with (h * (a * a) - (h + h) * a + h)%Qc in X by ring. rewrite H2 in X. qclra.
  - qclra.
  - assert (X : (0 <= (1 - a) * a)%Qc) by (clear -L Ha; qcnra). assert (Y : (0 <= h * ((1 - a) * a))%Qc) by (clear -X H0; revert X; generalize ((1 - a) * a)%Qc; intros; qcnra).
    assert (Z : (h * (a * a) <= h * a)%Qc) by qclra. assert (U : (h * a <= (h + h) * a)%Qc) by (clear -H0 Ha; qcnra). rewrite H2 in U. qclra.
  - qclra.
  - qclra.
  - pose proof (Hsq (a - 1)%Qc) as S. assert (X : (0 <= h * ((a - 1) * (a - 1)))%Qc) by (clear -S H0; revert S; generalize ((a - 1) * (a - 1))%Qc; intros; qcnra).
    replace (h * ((a - 1) * (a - 1)))%Qc with (h * (a * a) - (h + h) * a + h)%Qc in X by ring. rewrite H2 in X. qclra.
  - qclra.
Qed.
