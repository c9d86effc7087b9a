(** * Proofs of algebraic laws of n-step returns, statistics and the C51 projection *)
From Coq Require Import Permutation.
From Verif Require Import Py PyLemmas Num BufferModel BufferSpec BufferMainProofs ManagerModel ManagerSpec HerProofs.
From Verif Require Import ReturnsModel ReturnsSpec ReturnsProofs ReturnsMainProofs LawsSpec LawsProofs.
From Verif Require StatModel StatProofs DqnModel DqnProofs.
Open Scope nat_scope.

(** ** n-step returns *)
Section Nstep.
Context {Ob A Inf : Type}.
Notation slot := (slot Ob A Inf Qc).

Lemma pow_add g a b : (g ^ (a + b) = g ^ a * g ^ b)%Qc.
Proof. induction a as [|a IH]; cbn [Nat.add Qcpower]; [ring|]. rewrite IH. ring. Qed.
Lemma inner_term (q : list slot) r : rows_done q -> r < length q -> last_of q r <> r -> term_at q r = false.
Proof.
  intros D H L. pose proof (last_of_spec q r H) as X. cbv zeta in X. destruct X as (X1 & _).
  pose proof (last_of_end q r r H ltac:(lia)) as E. apply Nat.eqb_neq in L. rewrite Nat.eqb_sym, L in E.
  unfold qend, qdone in E. apply orb_false_iff in E as [E _]. unfold term_at.
  destruct (nth_error q r) as [s|] eqn:N; [|reflexivity]. rewrite (D s (nth_error_In _ _ N)) in E.
  apply orb_false_iff in E. apply E.
Qed.
Lemma spec_compose (q : list slot) gamma n k p (v v2 : nat -> Qc) : rows_done q -> p < length q -> 0 < n -> 0 < k ->
  (forall r, r < length q -> last_of q r = r -> v2 r = v r) ->
  (forall r, r < length q -> last_of q r <> r -> v2 r = nval q gamma k (S r) (v (nstep_reached q k (S r)))) ->
  nval q gamma (n + k) p (v (nstep_reached q (n + k) p)) = nval q gamma n p (v2 (nstep_reached q n p)).
Proof.
  intros D H Hn Hk H1 H2. destruct (steps_pos q p H) as [L0 L1]. pose proof (last_of_spec q p H) as X. cbv zeta in X.
  destruct X as (X & _). unfold nstep_reached. fold (steps_from q p).
  destruct (Nat.leb_spec (steps_from q p) n) as [C|C].
  - unfold nval. rewrite !Nat.min_r by lia. rewrite H1; [reflexivity|lia|].
    replace (p + steps_from q p - 1) with (last_of q p) by lia. apply last_of_same; lia.
  - assert (Q : last_of q (p + n - 1) = last_of q p) by (apply last_of_same; lia).
    assert (Q2 : steps_from q (p + n) = steps_from q p - n).
    { unfold steps_from at 1. rewrite (last_of_same q p (p + n)) by lia. lia. }
    rewrite (Nat.min_l n) by lia.
    rewrite (H2 (p + n - 1)) by lia. replace (S (p + n - 1)) with (p + n) by lia.
    unfold nval at 2. rewrite (Nat.min_l n) by lia. rewrite (inner_term q (p + n - 1)) by (try assumption; lia).
    unfold nval, nstep_reached. fold (steps_from q (p + n)). rewrite Q2.
    replace (Nat.min (n + k) (steps_from q p)) with (n + Nat.min k (steps_from q p - n)) by lia.
    set (j := Nat.min k (steps_from q p - n)). rewrite sum_n_split, pow_add, !Nat.add_assoc.
    assert (S1 : sum_n j (fun l => (gamma ^ (n + l) * rew_at q (p + (n + l)))%Qc) = (gamma ^ n * sum_n j (fun l => (gamma ^ l * rew_at q (p + n + l))%Qc))%Qc).
    { rewrite <- sum_n_scale. apply sum_n_ext. intros l _. rewrite pow_add, Nat.add_assoc. ring. }
    rewrite S1. ring.
Qed.
End Nstep.

(** C323.  Returns of n + k steps are returns of n steps that bootstrap from the returns of k steps: with values that are, for
    every stored step after which its episode goes on, the k-step return of the following step, n steps give what n + k
    steps give with the original values. *)
Lemma C323_compose_buffer_lemma : forall (Ob A Inf : Type) (r0 : Qc) radd (last_frame : Ob -> Ob) o size
    (b : buf Ob A Inf Qc) q rnd idx ps (v v2 : Z -> Qc) gamma n k,
  0 < size -> reach r0 radd last_frame o size b q -> q <> [] ->
  sample_indices plain b rnd (Some 0%Z) = Ok idx ->
  (forall p, In p ps -> p < length q) -> ps <> [] -> 0 < n -> 0 < k ->
  let at_ p := Z.of_nat (nth p idx 0) in
  (forall r, r < length q -> last_of q r = r -> v2 (at_ r) = v (at_ r)) ->
  (forall r, r < length q -> last_of q r <> r ->
     compute_nstep_return (buf_view b) 1 [at_ (S r)] (map (fun i => [v i])) gamma k false = Ok [[v2 (at_ r)]]) ->
  compute_nstep_return (buf_view b) (length ps) (map at_ ps) (map (fun i => [v2 i])) gamma n false
  = compute_nstep_return (buf_view b) (length ps) (map at_ ps) (map (fun i => [v i])) gamma (n + k) false.
Proof.
  intros Ob A Inf r0 radd lf o size b q rnd idx ps v v2 gamma n k Hs Hr Hq Hi Hps Hne Hn Hk at_ H1 H2.
  etransitivity; [exact (nstep_b r0 radd lf o size b q rnd idx ps Hs Hr Hq Hi Hps v2 gamma n Hne Hn)|].
  etransitivity; [|symmetry; apply (nstep_b r0 radd lf o size b q rnd idx ps Hs Hr Hq Hi Hps v gamma (n + k) Hne); lia].
  f_equal. apply map_ext_in. intros p Hp. f_equal. symmetry.
  apply (spec_compose q gamma n k p (fun r => v (at_ r)) (fun r => v2 (at_ r))); try assumption; [exact (reach_done _ _ _ _ _ _ _ Hr)|apply Hps, Hp|].
  intros r Hl Hn1. assert (Hp' : forall p, In p [S r] -> p < length q).
  { intros p' [<-|[]]. pose proof (last_of_spec q r Hl) as X. cbv zeta in X. lia. }
  specialize (H2 r Hl Hn1). 
  assert (Y := nstep_b r0 radd lf o size b q rnd idx [S r] Hs Hr Hq Hi Hp' v gamma k ltac:(discriminate) Hk).
  cbn [length map] in Y. unfold at_ in *. rewrite Y in H2. injection H2 as H2. symmetry. exact H2.
Qed.

(** C323.  The same for a buffer manager. *)
Lemma C323_compose_manager_lemma : forall (Ob A Inf : Type) (r0 : Qc) radd (last_frame : Ob -> Ob) o ns
    (ops : list (mop Ob A Inf Qc)) m outs xs (v v2 : Z -> Qc) gamma n k,
  (forall size, In size ns -> 0 < size) -> m_run r0 radd last_frame o (m_init r0 ns) ops = Ok (m, outs) ->
  let q j := mqueue last_frame o ns ops j in
  let at_ x := Z.of_nat (maddress ns ops x) in
  (forall x, In x xs -> snd x < length (q (fst x))) -> xs <> [] -> 0 < n -> 0 < k ->
  (forall j r, r < length (q j) -> last_of (q j) r = r -> v2 (at_ (j, r)) = v (at_ (j, r))) ->
  (forall j r, r < length (q j) -> last_of (q j) r <> r ->
     compute_nstep_return (mgr_view m) 1 [at_ (j, S r)] (map (fun i => [v i])) gamma k false = Ok [[v2 (at_ (j, r))]]) ->
  compute_nstep_return (mgr_view m) (length xs) (map at_ xs) (map (fun i => [v2 i])) gamma n false
  = compute_nstep_return (mgr_view m) (length xs) (map at_ xs) (map (fun i => [v i])) gamma (n + k) false.
Proof.
  intros Ob A Inf r0 radd lf o ns ops m outs xs v v2 gamma n k Hs Hr q at_ Hxs Hne Hn Hk H1 H2.
  assert (Hr' : exists outs, m_run r0 radd lf o (m_init r0 ns) ops = Ok (m, outs)) by eauto.
  etransitivity; [exact (nstep_m r0 radd lf o ns ops m xs Hs Hr' Hxs v2 gamma n Hne Hn)|].
  etransitivity; [|symmetry; apply (nstep_m r0 radd lf o ns ops m xs Hs Hr' Hxs v gamma (n + k) Hne); lia].
  f_equal. apply map_ext_in. intros [j p] Hp. f_equal. symmetry. unfold mval. cbn [fst snd].
  apply (spec_compose (q j) gamma n k p (fun r => v (at_ (j, r))) (fun r => v2 (at_ (j, r)))); try assumption.
  - unfold q, mqueue. destruct (nth_error ns j); [apply queue_done|]; intros s [].
  - exact (Hxs _ Hp).
  - exact (H1 j).
  - intros r Hl Hn1. specialize (H2 j r Hl Hn1).
    assert (Hp' : forall x, In x [(j, S r)] -> snd x < length (q (fst x))).
    { intros p' [<-|[]]. cbn [fst snd]. pose proof (last_of_spec (q j) r Hl) as X. cbv zeta in X. lia. }
    assert (Y := nstep_m r0 radd lf o ns ops m [(j, S r)] Hs Hr' Hp' v gamma k ltac:(discriminate) Hk).
    cbn [length map] in Y. unfold at_ in *. rewrite Y in H2. injection H2 as H2. symmetry. exact H2.
Qed.

(** ** Statistics *)
Import StatModel StatProofs.

Lemma qsum_perm l l' : Permutation l l' -> qsum l = qsum l'.
Proof. induction 1 as [|x l l' P IH|x y l|l l' l'' P1 IH1 P2 IH2]; cbn [qsum]; [reflexivity|rewrite IH; reflexivity|ring|congruence]. Qed.

(** C324.  It does not matter in which order samples arrive and how they are split into batches: the running mean, variance
    and count are the same. *)
Lemma C324_order_lemma : forall mean std mean' std' (bs bs' : list (list Qc)),
  (forall b, In b bs -> b <> []) -> (forall b, In b bs' -> b <> []) -> bs <> [] -> Permutation (concat bs) (concat bs') ->
  exists r, foldM rms_update bs (rms_init mean std) = Ok r /\ foldM rms_update bs' (rms_init mean' std') = Ok r.
Proof.
  intros mean std mean' std' bs bs' H H' Hne P.
  assert (Hne' : bs' <> []).
  { intros ->. cbn in P. apply Permutation_sym, Permutation_nil in P. destruct bs as [|b bs]; [contradiction|]. destruct b; [apply (H []); [left; reflexivity|reflexivity]|discriminate]. }
  destruct (C45_running_stats_lemma mean std bs Hne H) as ([m v c] & E & C & M & V).
  destruct (C45_running_stats_lemma mean' std' bs' Hne' H') as ([m' v' c'] & E' & C' & M' & V'). cbn [r_mean r_var r_count] in *.
  rewrite (Permutation_length P) in *. rewrite (qsum_perm _ _ P) in *.
  rewrite (qsum_perm _ _ (Permutation_map (fun x => ((x - qsum (concat bs') / sq (length (concat bs'))) * (x - qsum (concat bs') / sq (length (concat bs'))))%Qc) P)) in V.
  exists (mkR m v c). split; [exact E|]. rewrite E'. subst. reflexivity.
Qed.

Lemma qsum_affine a b l : qsum (map (fun x => (a * x + b)%Qc) l) = (a * qsum l + sq (length l) * b)%Qc.
Proof.
  induction l as [|x l IH]; cbn [map qsum length]; [change (sq 0) with 0%Qc; ring|]. rewrite IH, sq_S. ring.
Qed.
Lemma qsum_scale a l : qsum (map (fun x => (a * x)%Qc) l) = (a * qsum l)%Qc.
Proof. induction l as [|x l IH]; cbn [map qsum]; [ring|]. rewrite IH. ring. Qed.

(** C324.  Samples in another unit: scaling and shifting all samples scales and shifts the mean and scales the variance. *)
Lemma C324_units_lemma : forall mean std a b (bs : list (list Qc)), (forall x, In x bs -> x <> []) -> bs <> [] ->
  exists r r', foldM rms_update bs (rms_init mean std) = Ok r
    /\ foldM rms_update (map (map (fun x => (a * x + b)%Qc)) bs) (rms_init mean std) = Ok r'
    /\ r_mean r' = (a * r_mean r + b)%Qc /\ r_var r' = (a * a * r_var r)%Qc /\ r_count r' = r_count r.
Proof.
  intros mean std a b bs H Hne.
  destruct (C45_running_stats_lemma mean std bs Hne H) as ([m v c] & E & C & M & V).
  destruct (C45_running_stats_lemma mean std (map (map (fun x => (a * x + b)%Qc)) bs)) as ([m' v' c'] & E' & C' & M' & V').
  { destruct bs; [contradiction|discriminate]. }
  { intros x Hx. apply in_map_iff in Hx as (y & <- & Hy). specialize (H y Hy). destruct y; [contradiction|discriminate]. }
  cbn [r_mean r_var r_count] in *. rewrite <- concat_map in C', M', V'.
  exists (mkR m v c), (mkR m' v' c'). split; [exact E|]. split; [exact E'|]. cbn [r_mean r_var r_count].
  assert (N : sq (length (concat bs)) <> 0%Qc).
  { apply sq_neq. destruct bs as [|[|y ys] bs]; [contradiction|exfalso; apply (H []); [left; reflexivity|reflexivity]|cbn; lia]. }
  rewrite map_length, map_map, qsum_affine in *.
  set (al := concat bs) in *. set (mu := (qsum al / sq (length al))%Qc) in *.
  assert (Em : ((a * qsum al + sq (length al) * b) / sq (length al) = a * mu + b)%Qc) by (unfold mu; field; exact N).
  rewrite Em in *.
  split; [congruence|]. split; [|congruence]. rewrite V', V.
  rewrite (map_ext _ (fun x => (a * a * ((x - mu) * (x - mu)))%Qc)) by (intro x; ring).
  rewrite <- (map_map (fun x => ((x - mu) * (x - mu))%Qc) (fun x => (a * a * x)%Qc)), qsum_scale. field. exact N.
Qed.

(** C324.  The variance is never negative, and the mean lies between bounds of the samples. *)
Lemma C324_range_lemma : forall mean std lo hi (bs : list (list Qc)), (forall x, In x bs -> x <> []) -> bs <> [] ->
  (forall x, In x (concat bs) -> (lo <= x <= hi)%Qc) ->
  exists r, foldM rms_update bs (rms_init mean std) = Ok r /\ (0 <= r_var r)%Qc /\ (lo <= r_mean r <= hi)%Qc.
Proof.
  intros mean std lo hi bs H Hne B.
  destruct (C45_running_stats_lemma mean std bs Hne H) as ([m v c] & E & C & M & V). cbn [r_mean r_var r_count] in *.
  exists (mkR m v c). split; [exact E|]. cbn [r_mean r_var].
  assert (N : 0 < length (concat bs)).
  { destruct bs as [|[|y ys] bs]; [contradiction|exfalso; apply (H []); [left; reflexivity|reflexivity]|cbn; lia]. }
  set (al := concat bs) in *. set (mu := (qsum al / sq (length al))%Qc) in *.
  assert (P : (0 < sq (length al))%Qc) by (apply sq_pos; exact N).
  assert (Nz : sq (length al) <> 0%Qc) by (apply sq_neq; lia).
  assert (G : forall f : Qc -> Qc, (forall x, (0 <= f x)%Qc) -> (0 <= qsum (map f al))%Qc).
  { intros f F. clear -F. induction al as [|x l IH]; cbn [map qsum]; [qclra|]. specialize (F x). qclra. }
  assert (D : forall x, (0 <= x)%Qc -> (0 <= x / sq (length al))%Qc).
  { intros x Hx. assert (Ex : (x / sq (length al) * sq (length al) = x)%Qc) by (field; exact Nz).
    destruct (Qclt_le_dec (x / sq (length al)) 0) as [F|F]; [|exact F]. exfalso. generalize dependent (x / sq (length al))%Qc. intros y Ey F. clear -P Hx Ey F. qcnra. }
  split.
  - rewrite V. apply D, G. intro x. generalize (x - mu)%Qc. intro y. clear. qcnra.
  - assert (S : (sq (length al) * lo <= qsum al)%Qc /\ (qsum al <= sq (length al) * hi)%Qc).
    { clear -B. induction al as [|x l IH]; cbn [length qsum]; [change (sq 0) with 0%Qc; split; qclra|].
      destruct IH as [I1 I2]; [intros y Hy; apply B; right; exact Hy|]. destruct (B x (or_introl eq_refl)) as [B1 B2]. rewrite sq_S. split; qclra. }
    destruct S as [S1 S2]. rewrite M. assert (Ex : (mu * sq (length al) = qsum al)%Qc) by (unfold mu; field; exact Nz).
    generalize dependent mu. intros mu _ _ Ex. split.
    + destruct (Qclt_le_dec mu lo) as [F|F]; [|exact F]. exfalso. rewrite <- Ex in S1. clear -P F S1. qcnra.
    + destruct (Qclt_le_dec hi mu) as [F|F]; [|exact F]. exfalso. rewrite <- Ex in S2. clear -P F S2. qcnra.
Qed.

Lemma skipn_app_all {T} (l1 l2 : list T) n : n <= length l1 -> skipn n (l1 ++ l2) = skipn n l1 ++ l2.
Proof. intro H. rewrite skipn_app. replace (n - length l1) with 0 by lia. reflexivity. Qed.
Lemma skipn_twice {T} (l : list T) : forall a b, skipn a (skipn b l) = skipn (b + a) l.
Proof.
  intros a b. revert l. induction b as [|b IH]; intros [|x l]; cbn [skipn Nat.add]; try reflexivity; [destruct a; reflexivity|apply IH].
Qed.
(** C325.  Numbers that are added to a moving average in one call could as well be added in two. *)
Lemma C325_chunks_lemma : forall m xs ys, ma_add (ma_add m xs) ys = ma_add m (xs ++ ys).
Proof.
  intros [s c] xs ys. unfold ma_add. cbn [ma_size ma_cache]. rewrite filter_app, app_assoc.
  set (x := filter _ xs). set (y := filter _ ys). clearbody x y.
  destruct (Z.ltb_spec 0 s) as [P|P]; cbn [andb]; [|cbn [ma_size ma_cache]; destruct (Z.ltb_spec 0 s); [lia|reflexivity]].
  destruct (Z.ltb_spec s (Z.of_nat (length (c ++ x)))) as [L|L]; cbn [ma_size ma_cache].
  - destruct (Z.ltb_spec 0 s); [|lia]. cbn [andb]. rewrite !app_length, skipn_length, ?app_length. rewrite app_length in L.
    destruct (Z.ltb_spec s (Z.of_nat (length c + length x - (length c + length x - Z.to_nat s) + length y))) as [L2|L2].
    + destruct (Z.ltb_spec s (Z.of_nat (length c + length x + length y))); [|lia]. f_equal.
      rewrite <- (skipn_app_all (c ++ x) y) by (rewrite app_length; lia). rewrite skipn_twice. f_equal. lia.
    + destruct (Z.ltb_spec s (Z.of_nat (length c + length x + length y))); [|lia]. f_equal.
      rewrite (skipn_app_all (c ++ x) y) by (rewrite app_length; lia). f_equal. f_equal. lia.
  - destruct (Z.ltb_spec 0 s); [|lia]. reflexivity.
Qed.
(** C325.  An average over a window of [size] numbers forgets everything before the last [size] of them. *)
Lemma C325_forgets_lemma : forall size ys c c', (0 < size)%Z -> (size <= Z.of_nat (length (filter (fun v => negb (banned v)) ys)))%Z ->
  ma_add (mkMA size c) ys = ma_add (mkMA size c') ys.
Proof.
  intros size ys c c' P L. unfold ma_add. cbn [ma_size ma_cache]. set (y := filter _ ys) in *. clearbody y.
  assert (G : forall d, (if (0 <? size)%Z && (size <? Z.of_nat (length (d ++ y)))%Z
    then mkMA size (skipn (length (d ++ y) - Z.to_nat size) (d ++ y)) else mkMA size (d ++ y)) = mkMA size (skipn (length y - Z.to_nat size) y)).
  { intro d. destruct (Z.ltb_spec 0 size); [|lia]. cbn [andb]. rewrite app_length. destruct (Z.ltb_spec size (Z.of_nat (length d + length y))).
    - f_equal. rewrite skipn_app, skipn_all2 by lia. cbn [app]. f_equal. lia.
    - assert (length d = 0 /\ length y = Z.to_nat size) as [E1 E2] by lia. destruct d; [|discriminate]. f_equal. rewrite E2, Nat.sub_diag. reflexivity. }
  rewrite !G. reflexivity.
Qed.

(** ** The C51 projection *)
Import DqnModel DqnProofs.
Section C51.
Variables (v_min v_max : Qc) (n : nat).
Hypotheses (Hv : (v_min < v_max)%Qc) (Hn : 1 < n).
Notation dz := (delta_z v_min v_max n).

Lemma qn_pos k : 0 < k -> (0 < qn k)%Qc.
Proof. clear Hv Hn. destruct k as [|k]; [lia|]. intros _. rewrite qn_S. pose proof (qn_nonneg k). qclra. Qed.
Lemma dz_pos : (0 < dz)%Qc.
Proof.
  assert (P : (0 < qn (n - 1))%Qc) by (apply qn_pos; lia).
  assert (E : (dz * qn (n - 1) = v_max - v_min)%Qc) by (unfold delta_z; field; intros E; rewrite E in P; qclra).
  destruct (Qclt_le_dec 0 dz) as [F|F]; [exact F|]. exfalso. generalize dependent dz. intros d E F.
  assert (d * qn (n - 1) <= 0)%Qc by qcnra. qclra.
Qed.
Lemma dz_neq : dz <> 0%Qc.
Proof. intro E. pose proof dz_pos as P. rewrite E in P. qclra. Qed.
Lemma dz_last : (v_min + qn (n - 1) * dz = v_max)%Qc.
Proof.
  assert (P : (0 < qn (n - 1))%Qc) by (apply qn_pos; lia). unfold delta_z. field. intros E; rewrite E in P; qclra.
Qed.
Lemma clamp_hat c j : clampq 0 1 (1 - qabs (c - (v_min + qn j * dz)) / dz) = hat ((c - v_min) / dz - qn j).
Proof.
  pose proof dz_neq as N. pose proof dz_pos as P. unfold hat. f_equal. f_equal. f_equal.
  set (y := ((c - v_min) / dz - qn j)%Qc). assert (Ey : (c - (v_min + qn j * dz) = y * dz)%Qc) by (unfold y; field; exact N).
  rewrite Ey. clear Ey. clearbody y. generalize dependent dz. intros d N P.
  unfold qabs. destruct (Qcleb_spec 0 (y * d)) as [F|F], (Qcleb_spec 0 y) as [G|G]; try (exfalso; qcnra); field; exact N.
Qed.
Lemma target_hat returns p : target_dist v_min v_max n returns p
  = map (fun j => qsum (map (fun tp => (hat ((clampq v_min v_max (fst tp) - v_min) / dz - qn j) * snd tp)%Qc) (combine returns p))) (seq 0 n).
Proof.
  unfold target_dist, support. rewrite map_map. apply map_ext. intro j. f_equal. revert p.
  induction returns as [|r rs IH]; intros [|x p]; try reflexivity. cbn [map combine fst snd]. rewrite IH, clamp_hat. reflexivity.
Qed.
Lemma clamp_in x : (v_min <= x)%Qc -> (x <= v_max)%Qc -> clampq v_min v_max x = x.
Proof.
  intros H1 H2. destruct (clampq_cases v_min v_max x ltac:(qclra)) as [[H E]|[(H & H' & E)|[H E]]]; rewrite E; try reflexivity; apply Qcle_antisym; assumption.
Qed.
Lemma qn_le i j : i <= j -> (qn i <= qn j)%Qc.
Proof. clear Hv Hn. intro H. induction H as [|j H IH]; [qclra|]. rewrite qn_S. qclra. Qed.
Lemma qn_lt i j : i < j -> (qn i + 1 <= qn j)%Qc.
Proof. clear Hv Hn. intro H. rewrite <- qn_S. apply qn_le. exact H. Qed.
Lemma hat_qn i j : hat (qn i - qn j) = if i =? j then 1%Qc else 0%Qc.
Proof.
  clear Hv Hn. destruct (Nat.eqb_spec i j) as [->|N].
  - assert (E : (qn j - qn j = 0)%Qc) by ring. rewrite E. rewrite hat_near by (rewrite qabs_pos by qclra; qclra). rewrite qabs_pos by qclra. ring.
  - apply hat_far. destruct (Nat.lt_ge_cases i j) as [H|H].
    + pose proof (qn_lt i j H). rewrite qabs_neg; qclra.
    + pose proof (qn_lt j i ltac:(lia)). rewrite qabs_pos; qclra.
Qed.
Lemma atom_in i : i < n -> (v_min <= v_min + qn i * dz)%Qc /\ (v_min + qn i * dz <= v_max)%Qc.
Proof.
  intro H. pose proof dz_pos as P. pose proof (qn_nonneg i) as Q. pose proof (qn_le i (n - 1) ltac:(lia)) as L.
  pose proof dz_last as E. generalize dependent dz. intros d P E. rewrite <- E. split; clear -P Q L; qcnra.
Qed.
Lemma sum_pick j : forall (p : list Qc) a, a <= j < a + length p ->
  qsum (map (fun tp => ((if fst tp =? j then 1 else 0) * snd tp)%Qc) (combine (seq a (length p)) p)) = nth (j - a) p 0%Qc.
Proof.
  clear Hv Hn.
  induction p as [|x p IH]; intros a H; cbn [length] in *; [lia|]. cbn [seq combine map qsum fst snd].
  destruct (Nat.eqb_spec a j) as [->|N].
  - rewrite Nat.sub_diag. cbn [nth].
    assert (Z : forall (p : list Qc) b, j < b -> qsum (map (fun tp => ((if fst tp =? j then 1 else 0) * snd tp)%Qc) (combine (seq b (length p)) p)) = 0%Qc).
    { clear. induction p as [|x p IH]; intros b H; [reflexivity|]. cbn [length seq combine map qsum fst snd].
      destruct (Nat.eqb_spec b j); [lia|]. rewrite IH by lia. ring. }
    rewrite Z by lia. ring.
  - rewrite IH by lia. replace (j - a) with (S (j - S a)) by lia. cbn [nth]. ring.
Qed.
Lemma project_support p : length p = n -> target_dist v_min v_max n (support v_min v_max n) p = p.
Proof.
  intro L. rewrite target_hat. transitivity (map (fun j => nth j p 0%Qc) (seq 0 n)).
  - apply map_ext_in. intros j Hj. apply in_seq in Hj. pose proof (sum_pick j p 0 ltac:(lia)) as S.
    rewrite Nat.sub_0_r in S. rewrite <- S. f_equal. rewrite L. unfold support.
    assert (G : forall l q, (forall i, In i l -> i < n) ->
      map (fun tp => (hat ((clampq v_min v_max (fst tp) - v_min) / dz - qn j) * snd tp)%Qc) (combine (map (fun i => (v_min + qn i * dz)%Qc) l) q)
      = map (fun tp => ((if fst tp =? j then 1 else 0) * snd tp)%Qc) (combine l q)).
    { induction l as [|i l IH]; intros [|x q] B; try reflexivity. cbn [map combine fst snd]. f_equal; [|apply IH; intros k Hk; apply B; right; exact Hk].
      destruct (atom_in i (B i (or_introl eq_refl))) as [A1 A2]. rewrite clamp_in by assumption.
      replace ((v_min + qn i * dz - v_min) / dz)%Qc with (qn i) by (field; exact dz_neq). rewrite hat_qn. reflexivity. }
    apply G. intros i Hi. apply in_seq in Hi. lia.
  - rewrite <- L. clear. apply (nth_ext _ _ 0%Qc 0%Qc); [rewrite map_length, seq_length; reflexivity|].
    intros k Hk. rewrite map_length, seq_length in Hk. rewrite (nth_indep _ _ (nth 0 p 0%Qc)) by (rewrite map_length, seq_length; exact Hk).
    rewrite (map_nth (fun j => nth j p 0%Qc)), seq_nth by exact Hk. reflexivity.
Qed.
End C51.

(** C326.  A distribution on the support is its own projection; so projecting twice is projecting once. *)
Lemma C326_identity_lemma : forall v_min v_max n p, (v_min < v_max)%Qc -> 1 < n -> length p = n ->
  target_dist v_min v_max n (support v_min v_max n) p = p.
Proof. intros v_min v_max n p Hv Hn L. apply project_support; assumption. Qed.
Lemma C326_idempotent_lemma : forall v_min v_max n returns p, (v_min < v_max)%Qc -> 1 < n ->
  target_dist v_min v_max n (support v_min v_max n) (target_dist v_min v_max n returns p) = target_dist v_min v_max n returns p.
Proof.
  intros v_min v_max n returns p Hv Hn. apply project_support; [assumption|assumption|].
  unfold target_dist, support. rewrite !map_length. apply seq_length.
Qed.

(** C326.  The projection is linear in the probabilities. *)
Lemma C326_linear_lemma : forall v_min v_max n returns a b p p', length returns = length p -> length returns = length p' ->
  target_dist v_min v_max n returns (map (fun x => (a * fst x + b * snd x)%Qc) (combine p p'))
  = map (fun x => (a * fst x + b * snd x)%Qc) (combine (target_dist v_min v_max n returns p) (target_dist v_min v_max n returns p')).
Proof.
  intros v_min v_max n returns a b p p' L L'. unfold target_dist. generalize (support v_min v_max n). intro zs.
  induction zs as [|z zs IH]; [reflexivity|]. cbn [map combine fst snd]. f_equal; [|exact IH]. clear IH.
  revert p p' L L'. induction returns as [|r rs IH]; intros [|x p] [|y p'] L L'; try discriminate; [cbn; ring|].
  cbn [map combine fst snd qsum]. rewrite IH by (cbn in *; lia). ring.
Qed.

(** C326.  The order of the atoms does not matter as long as each keeps its probability. *)
Lemma C326_order_lemma : forall v_min v_max n (xs ys : list (Qc * Qc)), Permutation xs ys ->
  target_dist v_min v_max n (map fst xs) (map snd xs) = target_dist v_min v_max n (map fst ys) (map snd ys).
Proof.
  intros v_min v_max n xs ys P. unfold target_dist. apply map_ext. intro z.
  assert (G : forall l : list (Qc * Qc), combine (map (clampq v_min v_max) (map fst l)) (map snd l) = map (fun x => (clampq v_min v_max (fst x), snd x)) l).
  { induction l as [|x l IH]; [reflexivity|]. cbn [map combine]. f_equal. exact IH. }
  rewrite !G. apply qsum_perm. apply Permutation_map, Permutation_map, P.
Qed.

Lemma clamp_affine a b lo hi x : (0 < a)%Qc -> clampq (a * lo + b) (a * hi + b) (a * x + b) = (a * clampq lo hi x + b)%Qc.
Proof.
  intro P. unfold clampq, Qcminb, Qcmaxb.
  assert (E : forall u w, Qcleb (a * u + b) (a * w + b) = Qcleb u w).
  { intros u w. destruct (Qcleb_spec u w) as [H|H], (Qcleb_spec (a * u + b) (a * w + b)) as [G|G]; try reflexivity; exfalso; clear -P H G; qcnra. }
  rewrite E. destruct (Qcleb lo x); rewrite E; destruct (Qcleb hi _); reflexivity.
Qed.
(** C326.  Values in another unit: scaling and shifting the support and the returns does not change the probabilities. *)
Lemma C326_units_lemma : forall v_min v_max n returns p a b, (v_min < v_max)%Qc -> 1 < n -> (0 < a)%Qc ->
  target_dist (a * v_min + b) (a * v_max + b) n (map (fun r => (a * r + b)%Qc) returns) p = target_dist v_min v_max n returns p.
Proof.
  intros v_min v_max n returns p a b Hv Hn Ha.
  assert (Na : a <> 0%Qc) by (intro E; rewrite E in Ha; qclra).
  assert (Hv' : (a * v_min + b < a * v_max + b)%Qc) by (clear -Hv Ha; qcnra).
  assert (Ed : delta_z (a * v_min + b) (a * v_max + b) n = (a * delta_z v_min v_max n)%Qc).
  { unfold delta_z. assert (Q : (0 < qn (n - 1))%Qc) by (apply qn_pos; lia). field. intro E. rewrite E in Q. qclra. }
  rewrite !target_hat by assumption. apply map_ext. intro j. f_equal. rewrite Ed. pose proof (dz_neq v_min v_max n Hv Hn) as Nd.
  revert p. induction returns as [|r rs IH]; intros [|x p]; try reflexivity. cbn [map combine fst snd]. rewrite IH, clamp_affine by exact Ha.
  f_equal. f_equal. f_equal. f_equal. field. auto.
Qed.

(** C326.  A return between two neighbouring atoms is split between them, the nearer one getting more; one outside of the
    support goes to the nearest end. *)
Lemma C326_local_lemma : forall v_min v_max n i t x, (v_min < v_max)%Qc -> S i < n -> (0 <= t)%Qc -> (t <= 1)%Qc ->
  target_dist v_min v_max n [(v_min + (qn i + t) * delta_z v_min v_max n)%Qc] [x]
  = map (fun j => if j =? i then ((1 - t) * x)%Qc else if j =? S i then (t * x)%Qc else 0%Qc) (seq 0 n).
Proof.
  intros v_min v_max n i t x Hv Hi T0 T1. rewrite target_hat by (try assumption; lia). apply map_ext_in. intros j Hj. apply in_seq in Hj.
  cbn [combine map qsum fst snd]. pose proof (dz_pos v_min v_max n Hv ltac:(lia)) as P. pose proof (dz_neq v_min v_max n Hv ltac:(lia)) as N.
  pose proof (atom_in v_min v_max n Hv ltac:(lia) i ltac:(lia)) as [A1 _]. pose proof (atom_in v_min v_max n Hv ltac:(lia) (S i) ltac:(lia)) as [_ A2].
  rewrite qn_S in A2. rewrite (clamp_in v_min v_max Hv) by (generalize dependent (delta_z v_min v_max n); intros d P N A1 A2; clear -P A1 A2 T0 T1; qcnra).
  replace ((v_min + (qn i + t) * delta_z v_min v_max n - v_min) / delta_z v_min v_max n)%Qc with (qn i + t)%Qc by (field; exact N).
  destruct (Nat.eqb_spec j i) as [->|N1]; [|destruct (Nat.eqb_spec j (S i)) as [->|N2]].
  - replace (qn i + t - qn i)%Qc with t by ring. rewrite hat_near; rewrite qabs_pos by exact T0; [ring|exact T1].
  - rewrite qn_S. replace (qn i + t - (qn i + 1))%Qc with (t - 1)%Qc by ring. rewrite hat_near; rewrite qabs_neg by qclra; [ring|qclra].
  - rewrite hat_far; [ring|]. destruct (Nat.lt_ge_cases j i) as [H|H].
    + pose proof (qn_lt j i H). rewrite qabs_pos; qclra.
    + pose proof (qn_lt (S i) j ltac:(lia)) as Q. rewrite qn_S in Q. rewrite qabs_neg; qclra.
Qed.
Lemma C326_ends_lemma : forall v_min v_max n r x, (v_min < v_max)%Qc -> 1 < n ->
  ((r <= v_min)%Qc -> target_dist v_min v_max n [r] [x] = map (fun j => if j =? 0 then x else 0%Qc) (seq 0 n))
  /\ ((v_max <= r)%Qc -> target_dist v_min v_max n [r] [x] = map (fun j => if j =? n - 1 then x else 0%Qc) (seq 0 n)).
Proof.
  intros v_min v_max n r x Hv Hn. pose proof (dz_neq v_min v_max n Hv Hn) as N.
  assert (G : forall i, i < n -> clampq v_min v_max r = (v_min + qn i * delta_z v_min v_max n)%Qc ->
    target_dist v_min v_max n [r] [x] = map (fun j => if j =? i then x else 0%Qc) (seq 0 n)).
  { intros i Hi E. rewrite target_hat by assumption. apply map_ext. intro j. cbn [combine map qsum fst snd]. rewrite E.
    replace ((v_min + qn i * delta_z v_min v_max n - v_min) / delta_z v_min v_max n)%Qc with (qn i) by (field; exact N).
    rewrite hat_qn, Nat.eqb_sym. destruct (j =? i); ring. }
  split; intro H; apply G; try lia.
  - rewrite qn_0. destruct (clampq_cases v_min v_max r ltac:(qclra)) as [[H1 E]|[(H1 & H2 & E)|[H1 E]]]; rewrite E; try ring; [|exfalso; qclra].
    apply Qcle_antisym; qclra.
  - rewrite dz_last by assumption. destruct (clampq_cases v_min v_max r ltac:(qclra)) as [[H1 E]|[(H1 & H2 & E)|[H1 E]]]; rewrite E; try reflexivity; [exfalso; qclra|].
    apply Qcle_antisym; assumption.
Qed.
