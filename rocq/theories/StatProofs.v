(** * Proofs about MovAvg and RunningMeanStd *)
From Verif Require Import Py PyLemmas Num StatModel.
Open Scope nat_scope.

Definition is_fin (v : num) : bool := match v with VFin _ => true | _ => false end.
(** The finite values of a list of numbers. *)
Definition fin_values (l : list num) : list Qc := flat_map (fun v => match v with VFin x => [x] | _ => [] end) l.
Definition last_n {A} (n : nat) (l : list A) : list A := skipn (length l - n) l.

Lemma fin_filter l : (forall v, In v l -> v <> VNan false) -> filter (fun v => negb (banned v)) l = map VFin (fin_values l).
Proof.
  induction l as [|v l IH]; intros H; [reflexivity|]. specialize (IH ltac:(intros w Hw; apply H; right; exact Hw)).
  destruct v as [x| | |[]]; cbn; try (f_equal; exact IH); try exact IH. exfalso. apply (H (VNan false)); [left; reflexivity|reflexivity].
Qed.
Lemma finites_map xs : finites (map VFin xs) = Some xs.
Proof. induction xs as [|x xs IH]; [reflexivity|]. cbn. rewrite IH. reflexivity. Qed.
Lemma last_n_app {A} n (l m : list A) : last_n n (last_n n l ++ m) = last_n n (l ++ m).
Proof.
  unfold last_n. rewrite !skipn_app, !app_length, !skipn_length.
  assert (F : forall a b (l : list A), skipn a (skipn b l) = skipn (b + a) l).
  { intros a b. induction b as [|b IH]; intros [|x l']; cbn [skipn Nat.add]; try reflexivity; [destruct a; reflexivity|apply IH]. }
  rewrite F. f_equal; f_equal; lia.
Qed.
Lemma last_n_map {A B} (f : A -> B) n l : last_n n (map f l) = map f (last_n n l).
Proof. unfold last_n. rewrite map_length. apply skipn_map. Qed.

(** C44 (restricted: no NaN other than the object [np.nan] itself is added).  After any sequence
    of add calls the cache is the last [size] finite values (all of them if size <= 0), in
    order, and get() is their mean, 0 if there are none. *)
Lemma C44_movavg_partial_lemma : forall size (adds : list (list num)),
  (forall l v, In l adds -> In v l -> v <> VNan false) ->
  let m := fold_left ma_add adds (ma_init size) in
  let all := fin_values (concat adds) in
  let kept := if (0 <? size)%Z then last_n (Z.to_nat size) all else all in
  ma_cache m = map VFin kept
  /\ ma_get m = Some (match kept with [] => 0%Qc | _ => (qsum kept / sq (length kept))%Qc end).
Proof.
  intros size adds H. cbv zeta.
  assert (Hc : ma_size (fold_left ma_add adds (ma_init size)) = size
    /\ ma_cache (fold_left ma_add adds (ma_init size)) = map VFin (if (0 <? size)%Z then last_n (Z.to_nat size) (fin_values (concat adds)) else fin_values (concat adds))).
  { induction adds as [|l adds IH] using rev_ind.
    - cbn. split; [reflexivity|]. destruct (0 <? size)%Z; reflexivity.
    - destruct IH as [IH1 IH2]; [intros l' v Hl Hv; apply (H l' v); [apply in_or_app; left; exact Hl|exact Hv]|].
      rewrite fold_left_app. cbn [fold_left]. unfold ma_add at 1 3. rewrite IH1, IH2.
      rewrite fin_filter by (intros v Hv; apply (H l v); [apply in_or_app; right; left; reflexivity|exact Hv]).
      assert (Ec : fin_values (concat (adds ++ [l])) = fin_values (concat adds) ++ fin_values l).
      { rewrite concat_app. cbn [concat]. rewrite app_nil_r. unfold fin_values. rewrite flat_map_concat_map, map_app, concat_app, <- !flat_map_concat_map. reflexivity. }
      rewrite Ec, <- map_app. set (a := fin_values (concat adds)). set (b := fin_values l).
      destruct (Z.ltb_spec 0 size) as [Hs|Hs]; cbn [andb]; [|split; reflexivity].
      rewrite map_length. destruct (Z.ltb_spec size (Z.of_nat (length (last_n (Z.to_nat size) a ++ b)))) as [Hl|Hl]; cbn [ma_size ma_cache]; (split; [reflexivity|]).
      + rewrite skipn_map. f_equal. apply last_n_app.
      + f_equal. rewrite <- last_n_app. unfold last_n at 2. rewrite (proj2 (Nat.sub_0_le _ _)) by lia. reflexivity. }
  destruct Hc as [_ Hc]. split; [exact Hc|]. unfold ma_get. rewrite Hc. set (kept := if (0 <? size)%Z then _ else _).
  destruct kept as [|x kept]; [reflexivity|]. cbn [map]. change (VFin x :: map VFin kept) with (map VFin (x :: kept)). rewrite finites_map. reflexivity.
Qed.

(** C44.  Infinities never enter, whatever is added. *)
Lemma C44_no_infinity_lemma : forall size (adds : list (list num)) v,
  In v (ma_cache (fold_left ma_add adds (ma_init size))) -> v <> VInf /\ v <> VNegInf.
Proof.
  intros size adds. induction adds as [|l adds IH] using rev_ind; intros v Hv; [destruct Hv|].
  rewrite fold_left_app in Hv. cbn [fold_left] in Hv. unfold ma_add at 1 in Hv.
  set (m := fold_left ma_add adds (ma_init size)) in *.
  assert (Hin : In v (ma_cache m ++ filter (fun v => negb (banned v)) l)).
  { destruct (_ && _); cbn [ma_cache] in Hv; [|exact Hv]. rewrite <- (firstn_skipn (length (ma_cache m ++ filter (fun v => negb (banned v)) l) - Z.to_nat (ma_size m)) (ma_cache m ++ _)). apply in_or_app. right. exact Hv. }
  apply in_app_or in Hin as [Hin|Hin]; [apply IH, Hin|]. apply filter_In in Hin as [_ Hb]. destruct v; cbn in Hb; split; discriminate.
Qed.

(** C44.  A NaN that is not the object [np.nan] (an element of an array or tensor, float('nan'))
    enters the cache and makes the average NaN. *)
Lemma C44_nan_refuted_lemma : exists adds m, m = fold_left ma_add adds (ma_init 100) /\ In (VNan false) (ma_cache m) /\ ma_get m = None.
Proof. exists [[VFin 1%Qc]; [VNan false]]. eexists. split; [reflexivity|]. split; [right; left; reflexivity|reflexivity]. Qed.

(** ** RunningMeanStd *)
Lemma sq_S n : (sq (S n) = sq n + 1)%Qc.
Proof. unfold sq. apply Qc_is_canon. rewrite this_plus, !this_Q2Qc. rewrite Nat2Z.inj_succ. unfold Z.succ. rewrite inject_Z_plus. reflexivity. Qed.
Lemma sq_plus a b : (sq (a + b) = sq a + sq b)%Qc.
Proof. induction a as [|a IH]; [change (sq 0) with 0%Qc; cbn [Nat.add]; ring|]. cbn [Nat.add]. rewrite !sq_S, IH. ring. Qed.
Lemma sq_nonneg n : (0 <= sq n)%Qc.
Proof. induction n as [|n IH]; [apply Qcle_refl|]. rewrite sq_S. qclra. Qed.
Lemma sq_pos n : 0 < n -> (0 < sq n)%Qc.
Proof. intros H. destruct n; [lia|]. rewrite sq_S. pose proof (sq_nonneg n). qclra. Qed.
Lemma sq_neq n : 0 < n -> sq n <> 0%Qc.
Proof. intros H E. pose proof (sq_pos n H) as F. rewrite E in F. qclra. Qed.

Lemma sum_sq_dev l c : qsum (map (fun x => (x - c) * (x - c))%Qc l)
  = (qsum (map (fun x => x * x)%Qc l) - (c + c) * qsum l + sq (length l) * (c * c))%Qc.
Proof.
  induction l as [|x l IH]; cbn [map qsum length]; [change (sq 0) with 0%Qc; ring|]. rewrite IH, sq_S. ring.
Qed.
(** n * var = sum of squares - sum^2 / n *)
Lemma var_eq l : l <> [] -> (np_var l * sq (length l) = qsum (map (fun x => x * x) l) - qsum l * qsum l / sq (length l))%Qc.
Proof.
  intros H. assert (Hn : sq (length l) <> 0%Qc) by (apply sq_neq; destruct l; [contradiction|cbn; lia]).
  unfold np_var. rewrite sum_sq_dev. unfold np_mean. field. exact Hn.
Qed.
Lemma mean_eq l : l <> [] -> (np_mean l * sq (length l) = qsum l)%Qc.
Proof.
  intros H. assert (Hn : sq (length l) <> 0%Qc) by (apply sq_neq; destruct l; [contradiction|cbn; lia]). unfold np_mean. field. exact Hn.
Qed.
Lemma Qc_cancel a b c : c <> 0%Qc -> (a * c = b * c)%Qc -> a = b.
Proof. intros H E. rewrite <- (Qcmult_1_r a), <- (Qcmult_1_r b), <- (Qcmult_inv_r c H), !Qcmult_assoc, E. reflexivity. Qed.

Lemma update_mean_var r l data : l <> [] -> data <> [] -> r_mean r = np_mean l -> r_var r = np_var l -> r_count r = length l ->
  exists r', rms_update r data = Ok r' /\ r_mean r' = np_mean (l ++ data) /\ r_var r' = np_var (l ++ data) /\ r_count r' = length (l ++ data).
Proof.
  intros Hl Hd Em Ev Ec. unfold rms_update. destruct (Nat.eqb_spec (length data) 0) as [E|E]; [destruct data; [contradiction|discriminate]|].
  eexists. split; [reflexivity|]. cbn [r_mean r_var r_count]. rewrite Em, Ev, Ec, app_length.
  assert (Hl0 : 0 < length l) by (destruct l; [contradiction|cbn; lia]).
  pose proof (sq_neq _ Hl0) as Nl. assert (Hd0 : 0 < length data) by lia. pose proof (sq_neq _ Hd0) as Nd.
  assert (Nt : sq (length l + length data) <> 0%Qc) by (apply sq_neq; lia).
  assert (Nt' : (sq (length l) + sq (length data))%Qc <> 0%Qc) by (rewrite <- sq_plus; exact Nt).
  assert (Hne : l ++ data <> []) by (destruct l; [contradiction|discriminate]).
  pose proof (mean_eq l Hl) as M1. pose proof (mean_eq data Hd) as M2. pose proof (mean_eq (l ++ data) Hne) as M3.
  pose proof (var_eq l Hl) as V1. pose proof (var_eq data Hd) as V2. pose proof (var_eq (l ++ data) Hne) as V3.
  rewrite app_length in M3, V3. rewrite map_app, !qsum_app in V3. rewrite qsum_app in M3. rewrite sq_plus in M3, V3 |- *.
  set (a := np_mean l) in *. set (b := np_mean data) in *. set (va := np_var l) in *. set (vb := np_var data) in *.
  set (n := sq (length l)) in *. set (k := sq (length data)) in *.
  set (s1 := qsum l) in *. set (s2 := qsum data) in *. set (q1 := qsum (map _ l)) in *. set (q2 := qsum (map _ data)) in *.
  split; [|split; [|reflexivity]].
  - apply (Qc_cancel _ _ _ Nt'). rewrite M3, <- M1, <- M2. field. exact Nt'.
  - apply (Qc_cancel _ _ _ Nt'). rewrite V3.
    transitivity (va * n + vb * k + (b - a) * (b - a) * n * k / (n + k))%Qc; [field; exact Nt'|].
    rewrite V1, V2, <- M1, <- M2. field. auto.
Qed.

(** C45.  After any sequence of non-empty batches, mean, var and count are the population
    statistics of all the samples seen, whatever the initial values. *)
Lemma C45_running_stats_lemma : forall mean std (batches : list (list Qc)), batches <> [] -> (forall b, In b batches -> b <> []) ->
  exists r, foldM rms_update batches (rms_init mean std) = Ok r
    /\ let all := concat batches in
       let mu := (qsum all / sq (length all))%Qc in
       r_count r = length all /\ r_mean r = mu
       /\ r_var r = (qsum (map (fun x => (x - mu) * (x - mu))%Qc all) / sq (length all))%Qc.
Proof.
  intros mean std batches Hne Hb.
  assert (G : exists r, foldM rms_update batches (rms_init mean std) = Ok r
     /\ r_mean r = np_mean (concat batches) /\ r_var r = np_var (concat batches) /\ r_count r = length (concat batches)).
  { destruct batches as [|b bs]; [contradiction|]. cbn [foldM concat].
    assert (Hb0 : b <> []) by (apply Hb; left; reflexivity).
    assert (H1 : exists r, rms_update (rms_init mean std) b = Ok r /\ r_mean r = np_mean b /\ r_var r = np_var b /\ r_count r = length b).
    { unfold rms_update. destruct (Nat.eqb_spec (length b) 0) as [E|E]; [destruct b; [contradiction|discriminate]|].
      eexists. split; [reflexivity|]. cbn [rms_init r_mean r_var r_count Nat.add]. change (sq 0) with 0%Qc.
      assert (Nd : sq (length b) <> 0%Qc) by (apply sq_neq; lia).
      split; [field; exact Nd|]. split; [field; exact Nd|reflexivity]. }
    destruct H1 as (r1 & E1 & Hm & Hv & Hc). rewrite E1. cbn [bind].
    assert (Hbs : forall b', In b' bs -> b' <> []) by (intros b' H'; apply Hb; right; exact H').
    clear - Hb0 Hm Hv Hc Hbs. revert b r1 Hb0 Hm Hv Hc. induction bs as [|d bs IH]; intros b r Hb0 Hm Hv Hc.
    - cbn [foldM concat]. rewrite app_nil_r. eauto.
    - cbn [foldM concat]. destruct (update_mean_var r b d Hb0 ltac:(apply Hbs; left; reflexivity) Hm Hv Hc) as (r' & E & H1 & H2 & H3).
      rewrite E. cbn [bind]. rewrite app_assoc. apply IH; try assumption; [intros b' H'; apply Hbs; right; exact H'|]. destruct b; [contradiction|discriminate]. }
  destruct G as (r & E & Hm & Hv & Hc). exists r. split; [exact E|]. cbv zeta. auto.
Qed.

(** C45.  norm() clips to [-clip_max, clip_max]. *)
Lemma C45_norm_clipped_lemma : forall sqrt eps c r x, (0 < c)%Qc ->
  (- c <= rms_norm sqrt eps (Some c) r x)%Qc /\ (rms_norm sqrt eps (Some c) r x <= c)%Qc.
Proof.
  intros sqrt eps c r x Hc. unfold rms_norm. destruct (Qceqb_spec c 0) as [->|_]; [qclra|].
  unfold Qcminb, Qcmaxb. set (y := ((x - r_mean r) / sqrt (r_var r + eps))%Qc). clearbody y.
  destruct (Qcleb_spec y (- c)); [destruct (Qcleb_spec (- c) c); split; qclra|]. destruct (Qcleb_spec y c); split; qclra.
Qed.

(** C71.  The [std] given to the constructor is used as a variance: before any update, norm()
    divides by its square root. *)
Lemma C71_initial_std_refuted_lemma : exists sqrt std x,
  (forall y, y = (std * std)%Qc -> sqrt y = std) /\ (sqrt std * sqrt std = std)%Qc
  /\ rms_norm sqrt 0 None (rms_init 0 std) x <> ((x - 0) / std)%Qc.
Proof.
  exists (fun y => if Qceqb y (Q2Qc 16) then Q2Qc 4 else Q2Qc 2), (Q2Qc 4), (Q2Qc 4).
  split; [intros y ->; vm_compute; reflexivity|]. split; [apply Qc_is_canon; vm_compute; reflexivity|].
  intros E. apply (f_equal this) in E. vm_compute in E. discriminate E.
Qed.

(** C71 (restricted: after at least one update the initial value no longer matters). *)
Lemma C71_forgotten_partial_lemma : forall mean std mean' std' batches, batches <> [] -> (forall b, In b batches -> b <> []) ->
  foldM rms_update batches (rms_init mean std) = foldM rms_update batches (rms_init mean' std').
Proof.
  intros mean std mean' std' batches Hne Hb.
  destruct (C45_running_stats_lemma mean std batches Hne Hb) as ([m1 v1 c1] & E1 & H1 & H2 & H3).
  destruct (C45_running_stats_lemma mean' std' batches Hne Hb) as ([m2 v2 c2] & E2 & H4 & H5 & H6).
  rewrite E1, E2. cbn [r_mean r_var r_count] in *. subst. reflexivity.
Qed.
