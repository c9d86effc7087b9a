From Coq Require Import Permutation.
From Verif Require Import Py PyLemmas Num StatModel StatProofs EvalModel EvalSpec.
Open Scope nat_scope.
Open Scope list_scope.

(** ** Summary statistics *)
Lemma max_spec l : l <> [] -> In (np_max l) l /\ forall x, In x l -> (x <= np_max l)%Qc.
Proof.
  destruct l as [|x l]; [contradiction|]. intros _. unfold np_max.
  assert (G : forall l x, let m := fold_left (fun m y => if Qcleb m y then y else m) l x in
    In m (x :: l) /\ (x <= m)%Qc /\ forall y, In y l -> (y <= m)%Qc).
  { clear. induction l as [|y l IH]; intros x; cbn.
    - split; [left; reflexivity|]. split; [apply Qcle_refl|intros y []].
    - destruct (Qcleb_spec x y) as [H|H].
      + destruct (IH y) as (A & B & C). split; [right; exact A|]. split; [eapply Qcle_trans; eassumption|].
        intros z [<-|Hz]; [exact B|exact (C z Hz)].
      + destruct (IH x) as (A & B & C). split; [destruct A as [A|A]; [left; exact A|right; right; exact A]|]. split; [exact B|].
        intros z [<-|Hz]; [|exact (C z Hz)]. apply Qcle_trans with x; [apply Qclt_le_weak; exact H|exact B]. }
  destruct (G l x) as (A & B & C). split; [exact A|]. intros y [<-|Hy]; [exact B|exact (C y Hy)].
Qed.
Lemma min_spec l : l <> [] -> In (np_min l) l /\ forall x, In x l -> (np_min l <= x)%Qc.
Proof.
  destruct l as [|x l]; [contradiction|]. intros _. unfold np_min.
  assert (G : forall l x, let m := fold_left (fun m y => if Qcleb y m then y else m) l x in
    In m (x :: l) /\ (m <= x)%Qc /\ forall y, In y l -> (m <= y)%Qc).
  { clear. induction l as [|y l IH]; intros x; cbn.
    - split; [left; reflexivity|]. split; [apply Qcle_refl|intros y []].
    - destruct (Qcleb_spec y x) as [H|H].
      + destruct (IH y) as (A & B & C). split; [right; exact A|]. split; [eapply Qcle_trans; eassumption|].
        intros z [<-|Hz]; [exact B|exact (C z Hz)].
      + destruct (IH x) as (A & B & C). split; [destruct A as [A|A]; [left; exact A|right; right; exact A]|]. split; [exact B|].
        intros z [<-|Hz]; [|exact (C z Hz)]. apply Qcle_trans with x; [exact B|apply Qclt_le_weak; exact H]. }
  destruct (G l x) as (A & B & C). split; [exact A|]. intros y [<-|Hy]; [exact B|exact (C y Hy)].
Qed.
Lemma sum_bound (f g : Qc -> Qc) l : (forall x, In x l -> (f x <= g x)%Qc) -> (qsum (map f l) <= qsum (map g l))%Qc.
Proof.
  induction l as [|x l IH]; intros H; [apply Qcle_refl|]. cbn.
  assert (H1 : (f x <= g x)%Qc) by (apply H; left; reflexivity).
  assert (H2 : (qsum (map f l) <= qsum (map g l))%Qc) by (apply IH; intros y Hy; apply H; right; exact Hy).
  revert H1 H2. generalize (f x) (g x) (qsum (map f l)) (qsum (map g l)). intros. qclra.
Qed.
Lemma sum_const c (l : list Qc) : qsum (map (fun _ => c) l) = (c * sq (length l))%Qc.
Proof. induction l as [|x l IH]; [cbn; change (sq 0) with 0%Qc; ring|]. cbn [map qsum length]. rewrite IH, sq_S. ring. Qed.
Lemma sum_scale c (f : Qc -> Qc) l : qsum (map (fun x => (c * f x)%Qc) l) = (c * qsum (map f l))%Qc.
Proof. induction l as [|x l IH]; cbn; [ring|]. rewrite IH. ring. Qed.
Lemma sum_add (f g : Qc -> Qc) l : qsum (map (fun x => (f x + g x)%Qc) l) = (qsum (map f l) + qsum (map g l))%Qc.
Proof. induction l as [|x l IH]; cbn; [ring|]. rewrite IH. ring. Qed.
Lemma sum_ext (f g : Qc -> Qc) l : (forall x, f x = g x) -> qsum (map f l) = qsum (map g l).
Proof. intros H. induction l as [|x l IH]; cbn; [reflexivity|]. rewrite IH, H. reflexivity. Qed.
Lemma len_pos {X} (l : list X) : l <> [] -> 0 < length l.
Proof. destruct l; [contradiction|cbn; lia]. Qed.
Lemma sum_mono_eq l c : (forall x, In x l -> (0 <= x)%Qc) -> qsum l = 0%Qc -> In c l -> c = 0%Qc.
Proof.
  induction l as [|x l IH]; intros H E; [intros []|]. cbn in E.
  assert (Hx : (0 <= x)%Qc) by (apply H; left; reflexivity).
  assert (Hl : (0 <= qsum l)%Qc).
  { assert (H' : forall y, In y l -> (0 <= y)%Qc) by (intros y Hy; apply H; right; exact Hy). clear - H'.
    induction l as [|y l IH]; [apply Qcle_refl|]. cbn. assert (0 <= y)%Qc by (apply H'; left; reflexivity).
    assert (0 <= qsum l)%Qc by (apply IH; intros z Hz; apply H'; right; exact Hz). generalize dependent (qsum l). intros. qclra. }
  revert E Hx Hl IH. generalize (qsum l). intros s E Hx Hl IH [<-|Hc].
  - qclra.
  - apply IH; [intros y Hy; apply H; right; exact Hy| |exact Hc]. qclra.
Qed.
Lemma mean_le l lo hi : l <> [] -> (forall x, In x l -> (lo <= x)%Qc /\ (x <= hi)%Qc) -> (lo <= np_mean l)%Qc /\ (np_mean l <= hi)%Qc.
Proof.
  intros Hl H. pose proof (mean_eq l Hl) as E. pose proof (sq_pos _ (len_pos l Hl)) as P.
  assert (A : (qsum (map (fun _ => lo) l) <= qsum (map (fun x => x) l))%Qc) by (apply sum_bound; intros x Hx; apply (H x Hx)).
  assert (B : (qsum (map (fun x => x) l) <= qsum (map (fun _ => hi) l))%Qc) by (apply sum_bound; intros x Hx; apply (H x Hx)).
  rewrite sum_const in A, B. rewrite map_id in A, B. rewrite <- E in A, B. clear E H Hl.
  revert P A B. generalize (sq (length l)) (np_mean l). intros n m P A B.
  split; apply Qcnot_lt_le; intros C.
  - apply (Qcmult_lt_compat_r _ _ n P) in C. qclra.
  - apply (Qcmult_lt_compat_r _ _ n P) in C. qclra.
Qed.
Lemma var_mul l : l <> [] -> (np_var l * sq (length l) = qsum (map (fun x => (x - np_mean l) * (x - np_mean l)) l))%Qc.
Proof.
  intros Hl. pose proof (sq_neq _ (len_pos l Hl)) as N. unfold np_var, Qcdiv. rewrite <- Qcmult_assoc, (Qcmult_comm (/ _)), Qcmult_inv_r by exact N. ring.
Qed.
Lemma sum_dev l : l <> [] -> qsum (map (fun x => (x - np_mean l)%Qc) l) = 0%Qc.
Proof.
  intros Hl. transitivity (qsum (map (fun x => x) l) + qsum (map (fun _ => (- np_mean l)%Qc) l))%Qc.
  - rewrite <- sum_add. apply sum_ext. intros x. ring.
  - rewrite map_id, sum_const, <- (mean_eq l Hl). ring.
Qed.
Lemma sq_nn (x : Qc) : (0 <= x * x)%Qc.
Proof. qcnra. Qed.
Lemma mul_nn (x y : Qc) : (0 <= x)%Qc -> (0 <= y)%Qc -> (0 <= x * y)%Qc.
Proof. intros. qcnra. Qed.
Lemma le_cancel n a b : (0 < n)%Qc -> (a * n <= b * n)%Qc -> (a <= b)%Qc.
Proof. intros P H. apply Qcnot_lt_le. intros C. apply (Qcmult_lt_compat_r _ _ n P) in C. revert H C. generalize (a * n)%Qc (b * n)%Qc. intros. qclra. Qed.
Lemma from_sequence_ne l : l <> [] -> from_sequence l = mkSum (np_mean l) (np_var l) (np_max l) (np_min l).
Proof. destruct l; [contradiction|reflexivity]. Qed.

(** C217. Minimum and maximum are elements that bound all the others, the mean lies between them, and the
    variance is at most (max - mean) (mean - min); it is zero exactly for constant sequences. *)
Lemma C217_bounds_lemma : forall l, l <> [] -> let s := from_sequence l in
  In (s_max s) l /\ In (s_min s) l /\ (forall x, In x l -> (s_min s <= x)%Qc /\ (x <= s_max s)%Qc) /\
  (s_mean s * sq (length l) = qsum l)%Qc /\ (s_min s <= s_mean s)%Qc /\ (s_mean s <= s_max s)%Qc /\
  (0 <= s_var s)%Qc /\ (s_var s <= (s_max s - s_mean s) * (s_mean s - s_min s))%Qc /\
  (s_var s = 0%Qc <-> forall x y, In x l -> In y l -> x = y).
Proof.
  intros l Hl. cbn zeta. rewrite (from_sequence_ne l Hl). cbn [s_mean s_var s_max s_min].
  destruct (max_spec l Hl) as [M1 M2]. destruct (min_spec l Hl) as [N1 N2].
  pose proof (sq_pos _ (len_pos l Hl)) as P. pose proof (var_mul l Hl) as V. pose proof (mean_eq l Hl) as E.
  assert (Nn : forall x, In x (map (fun x => (x - np_mean l) * (x - np_mean l))%Qc l) -> (0 <= x)%Qc).
  { intros x Hx. apply in_map_iff in Hx. destruct Hx as (y & <- & _). apply sq_nn. }
  assert (B : forall x, In x l -> (np_min l <= x)%Qc /\ (x <= np_max l)%Qc) by (intros x Hx; split; [apply N2|apply M2]; exact Hx).
  destruct (mean_le l _ _ Hl B) as [B1 B2].
  split; [exact M1|]. split; [exact N1|]. split; [exact B|]. split; [exact E|]. split; [exact B1|]. split; [exact B2|].
  split; [|split].
  - apply (le_cancel _ _ _ P). rewrite V. replace (0 * sq (length l))%Qc with (qsum (map (fun _ => 0%Qc) l)) by (rewrite sum_const; reflexivity).
    apply sum_bound. intros x _. apply sq_nn.
  - apply (le_cancel _ _ _ P). rewrite V.
    (* (max - x) (x - min) >= 0, summed up *)
    set (mu := np_mean l) in *. set (a := np_min l) in *. set (b := np_max l) in *.
    replace ((b - mu) * (mu - a) * sq (length l))%Qc with (qsum (map (fun x => ((b - mu) * (mu - a) + (a + b - (1 + 1) * mu) * (x - mu))%Qc) l)).
    + apply sum_bound. intros x Hx. destruct (B x Hx) as [X1 X2].
      assert (Q : (0 <= (b - x) * (x - a))%Qc) by (apply mul_nn; clearbody a b mu; qclra).
      replace (((b - mu) * (mu - a) + (a + b - (1 + 1) * mu) * (x - mu)))%Qc with ((x - mu) * (x - mu) + (b - x) * (x - a))%Qc by ring.
      revert Q. generalize ((x - mu) * (x - mu))%Qc ((b - x) * (x - a))%Qc. intros. qclra.
    + rewrite (sum_add (fun _ => ((b - mu) * (mu - a))%Qc) (fun x => ((a + b - (1 + 1) * mu) * (x - mu))%Qc)), sum_const.
      rewrite (sum_scale (a + b - (1 + 1) * mu) (fun x => (x - mu)%Qc)). unfold mu at 4. rewrite (sum_dev l Hl). ring.
  - split.
    + intros Z. rewrite Z in V. assert (S0 : qsum (map (fun x => (x - np_mean l) * (x - np_mean l))%Qc l) = 0%Qc) by (rewrite <- V; ring).
      assert (C : forall x, In x l -> x = np_mean l).
      { intros x Hx. assert (Q : ((x - np_mean l) * (x - np_mean l) = 0)%Qc).
        { apply (sum_mono_eq _ _ Nn S0). apply in_map_iff. exists x. split; [reflexivity|exact Hx]. }
        apply Qcmult_integral in Q. destruct Q as [Q|Q]; revert Q; generalize (np_mean l); intros; qclra. }
      intros x y Hx Hy. rewrite (C x Hx), (C y Hy). reflexivity.
    + intros C. apply (Qc_cancel _ _ (sq (length l))); [apply sq_neq, len_pos, Hl|]. rewrite V.
      assert (Em : forall x, In x l -> x = np_mean l).
      { intros x Hx. assert (Ab : (np_min l <= np_mean l)%Qc /\ (np_mean l <= np_max l)%Qc) by (split; assumption).
        rewrite (C _ x N1 Hx), (C _ x M1 Hx) in Ab. destruct Ab. apply Qcle_antisym; assumption. }
      transitivity (qsum (map (fun _ => 0%Qc) l)); [|rewrite sum_const; reflexivity].
      f_equal. apply map_ext_in. intros x Hx. rewrite (Em x Hx) at 1 2. ring.
Qed.
Lemma perm_sum l l' : Permutation l l' -> qsum l = qsum l'.
Proof. induction 1; cbn; [reflexivity| congruence | ring | congruence]. Qed.
(** C217. The order of the elements is irrelevant. *)
Lemma C217_permutation_lemma : forall l l', Permutation l l' -> from_sequence l = from_sequence l'.
Proof.
  intros l l' P. destruct l as [|x l0]; [apply Permutation_nil in P; subst; reflexivity|]. set (l := x :: l0) in *.
  assert (Hl : l <> []) by discriminate.
  assert (Hl' : l' <> []) by (intros ->; apply Permutation_sym, Permutation_nil in P; discriminate).
  rewrite (from_sequence_ne l Hl), (from_sequence_ne l' Hl').
  assert (Em : np_mean l = np_mean l') by (unfold np_mean; rewrite (perm_sum _ _ P), (Permutation_length P); reflexivity).
  destruct (max_spec l Hl) as [A1 A2]. destruct (max_spec l' Hl') as [B1 B2].
  destruct (min_spec l Hl) as [C1 C2]. destruct (min_spec l' Hl') as [D1 D2].
  f_equal.
  - exact Em.
  - unfold np_var. rewrite Em, (Permutation_length P). f_equal. apply perm_sum, Permutation_map, P.
  - apply Qcle_antisym; [apply B2, (Permutation_in _ P), A1|apply A2, (Permutation_in _ (Permutation_sym P)), B1].
  - apply Qcle_antisym; [apply C2, (Permutation_in _ (Permutation_sym P)), D1|apply D2, (Permutation_in _ P), C1].
Qed.
Lemma mean_affine l a b : l <> [] -> np_mean (map (fun x => (a * x + b)%Qc) l) = (a * np_mean l + b)%Qc.
Proof.
  intros Hl. apply (Qc_cancel _ _ (sq (length l))); [apply sq_neq, len_pos, Hl|].
  transitivity (qsum (map (fun x => (a * x + b)%Qc) l)).
  - rewrite <- (mean_eq (map _ l)); [rewrite map_length; reflexivity|destruct l; [contradiction|discriminate]].
  - rewrite (sum_add (fun x => (a * x)%Qc) (fun _ => b)), (sum_scale a (fun x => x)), map_id, sum_const, <- (mean_eq l Hl). ring.
Qed.
Lemma var_affine l a b : l <> [] -> np_var (map (fun x => (a * x + b)%Qc) l) = (a * a * np_var l)%Qc.
Proof.
  intros Hl. apply (Qc_cancel _ _ (sq (length l))); [apply sq_neq, len_pos, Hl|].
  rewrite <- Qcmult_assoc, (var_mul l Hl).
  assert (Hm : map (fun x => (a * x + b)%Qc) l <> []) by (destruct l; [contradiction|discriminate]).
  pose proof (var_mul _ Hm) as V. rewrite map_length in V. rewrite V, map_map, (mean_affine l a b Hl).
  rewrite <- (sum_scale (a * a) (fun x => ((x - np_mean l) * (x - np_mean l))%Qc)). apply sum_ext. intros x. ring.
Qed.
Lemma extremes_unique l m m' : l <> [] -> In m l -> (forall x, In x l -> (x <= m)%Qc) -> In m' l -> (forall x, In x l -> (m' <= x)%Qc) -> np_max l = m /\ np_min l = m'.
Proof.
  intros Hl A1 A2 B1 B2. destruct (max_spec l Hl) as [M1 M2]. destruct (min_spec l Hl) as [N1 N2].
  split; apply Qcle_antisym; auto.
Qed.
(** C217. Rescaled and shifted data; a negative factor exchanges minimum and maximum. *)
Lemma C217_affine_lemma : forall l a b, l <> [] -> let s := from_sequence l in
  from_sequence (map (fun x => (a * x + b)%Qc) l) =
  mkSum (a * s_mean s + b) (a * a * s_var s)
    (a * (if Qcleb 0 a then s_max s else s_min s) + b) (a * (if Qcleb 0 a then s_min s else s_max s) + b).
Proof.
  intros l a b Hl. cbn zeta. assert (Hm : map (fun x => (a * x + b)%Qc) l <> []) by (destruct l; [contradiction|discriminate]).
  rewrite (from_sequence_ne _ Hm), (from_sequence_ne l Hl). cbn [s_mean s_var s_max s_min].
  rewrite (mean_affine l a b Hl), (var_affine l a b Hl).
  destruct (max_spec l Hl) as [M1 M2]. destruct (min_spec l Hl) as [N1 N2].
  assert (I : forall x, In x l -> In (a * x + b)%Qc (map (fun x => (a * x + b)%Qc) l)) by (intros x Hx; apply in_map_iff; exists x; auto).
  destruct (Qcleb_spec 0 a) as [H|H].
  - destruct (extremes_unique _ (a * np_max l + b)%Qc (a * np_min l + b)%Qc Hm) as [-> ->]; [apply I, M1| |apply I, N1| |reflexivity].
    + intros y Hy. apply in_map_iff in Hy. destruct Hy as (x & <- & Hx). specialize (M2 x Hx). qcnra.
    + intros y Hy. apply in_map_iff in Hy. destruct Hy as (x & <- & Hx). specialize (N2 x Hx). qcnra.
  - destruct (extremes_unique _ (a * np_min l + b)%Qc (a * np_max l + b)%Qc Hm) as [-> ->]; [apply I, N1| |apply I, M1| |reflexivity].
    + intros y Hy. apply in_map_iff in Hy. destruct Hy as (x & <- & Hx). specialize (N2 x Hx). qcnra.
    + intros y Hy. apply in_map_iff in Hy. destruct Hy as (x & <- & Hx). specialize (M2 x Hx). qcnra.
Qed.
(** C217. Two sequences put together: the mean is the weighted mean, the variance is the weighted variance
    plus the variance between the two. *)
Lemma C217_concatenation_lemma : forall l l', l <> [] -> l' <> [] ->
  let s := from_sequence l in let s' := from_sequence l' in let t := from_sequence (l ++ l') in
  let n := sq (length l) in let n' := sq (length l') in
  (s_mean t * (n + n') = s_mean s * n + s_mean s' * n')%Qc /\
  (s_var t * (n + n') = s_var s * n + s_var s' * n' + n * (s_mean s - s_mean t) * (s_mean s - s_mean t) + n' * (s_mean s' - s_mean t) * (s_mean s' - s_mean t))%Qc /\
  s_max t = Qcmaxb (s_max s) (s_max s') /\ s_min t = Qcminb (s_min s) (s_min s').
Proof.
  intros l l' Hl Hl'. cbn zeta. assert (Ha : l ++ l' <> []) by (destruct l; [contradiction|discriminate]).
  rewrite (from_sequence_ne _ Ha), (from_sequence_ne l Hl), (from_sequence_ne l' Hl'). cbn [s_mean s_var s_max s_min].
  rewrite <- sq_plus, <- app_length.
  split; [|split].
  - rewrite (mean_eq _ Ha), (mean_eq l Hl), (mean_eq l' Hl'). apply qsum_app.
  - rewrite (var_mul _ Ha), (var_mul l Hl), (var_mul l' Hl'), map_app, qsum_app.
    set (m := np_mean (l ++ l')).
    assert (D : forall l, l <> [] -> (qsum (map (fun x => (x - m) * (x - m)) l) = qsum (map (fun x => (x - np_mean l) * (x - np_mean l)) l) + sq (length l) * (np_mean l - m) * (np_mean l - m))%Qc).
    { clearbody m. clear. intros k Hk. transitivity (qsum (map (fun x => ((x - np_mean k) * (x - np_mean k) + ((1 + 1) * (np_mean k - m) * (x - np_mean k) + (np_mean k - m) * (np_mean k - m)))%Qc) k)).
      - apply sum_ext. intros x. ring.
      - rewrite (sum_add (fun x => ((x - np_mean k) * (x - np_mean k))%Qc) (fun x => ((1 + 1) * (np_mean k - m) * (x - np_mean k) + (np_mean k - m) * (np_mean k - m))%Qc)).
        rewrite (sum_add (fun x => ((1 + 1) * (np_mean k - m) * (x - np_mean k))%Qc) (fun _ => ((np_mean k - m) * (np_mean k - m))%Qc)).
        rewrite (sum_scale ((1 + 1) * (np_mean k - m)) (fun x => (x - np_mean k)%Qc)), (sum_dev k Hk), sum_const. ring. }
    rewrite (D l Hl), (D l' Hl'). ring.
  - destruct (max_spec l Hl) as [A1 A2]. destruct (max_spec l' Hl') as [B1 B2]. destruct (min_spec l Hl) as [C1 C2]. destruct (min_spec l' Hl') as [D1 D2].
    apply (extremes_unique _ (Qcmaxb (np_max l) (np_max l')) (Qcminb (np_min l) (np_min l')) Ha).
    + apply in_or_app. unfold Qcmaxb. destruct (Qcleb_spec (np_max l) (np_max l')); [right; exact B1|left; exact A1].
    + intros x Hx. apply in_app_or in Hx. unfold Qcmaxb. destruct (Qcleb_spec (np_max l) (np_max l')) as [Q|Q]; destruct Hx as [Hx|Hx];
        [specialize (A2 x Hx)|specialize (B2 x Hx)|specialize (A2 x Hx)|specialize (B2 x Hx)]; qclra.
    + apply in_or_app. unfold Qcminb. destruct (Qcleb_spec (np_min l) (np_min l')); [left; exact C1|right; exact D1].
    + intros x Hx. apply in_app_or in Hx. unfold Qcminb. destruct (Qcleb_spec (np_min l) (np_min l')) as [Q|Q]; destruct Hx as [Hx|Hx];
        [specialize (C2 x Hx)|specialize (D2 x Hx)|specialize (C2 x Hx)|specialize (D2 x Hx)]; qclra.
Qed.
(** C217. An empty sequence gives zeros; the rows of an array are summarised one by one. *)
Lemma C217_rows_lemma : from_sequence [] = mkSum 0 0 0 0 /\
  forall rows, map fst (dim_stats rows) = seq 0 (length rows) /\
    forall i r, nth_error rows i = Some r -> nth_error (dim_stats rows) i = Some (i, from_sequence r).
Proof.
  split; [reflexivity|]. intros rows. unfold dim_stats.
  assert (G : forall (rows : list (list Qc)) k, map fst (combine (seq k (length rows)) (map from_sequence rows)) = seq k (length rows) /\
    forall i r, nth_error rows i = Some r -> nth_error (combine (seq k (length rows)) (map from_sequence rows)) i = Some (k + i, from_sequence r)).
  { clear. induction rows as [|r rows IH]; intros k; [split; [reflexivity|intros [|i] r; discriminate]|].
    cbn. destruct (IH (S k)) as [A B]. split; [f_equal; exact A|]. intros [|i] r'; cbn.
    - intros [= <-]. rewrite Nat.add_0_r. reflexivity.
    - intros H. rewrite (B i r' H). do 2 f_equal. lia. }
  exact (G rows 0).
Qed.
