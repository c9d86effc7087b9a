(** * Properties C44, C45, C71: statistics *)
From Verif Require Import Py Num StatModel StatProofs.
Open Scope nat_scope.

(** C44 (restricted: no NaN other than the object [np.nan] itself is added).  After any sequence
    of add calls the cache is the last [size] finite values (all of them if size <= 0), in
    order, and get() is their mean, 0 if there are none. *)
Theorem C44_movavg_partial : forall size (adds : list (list num)),
  (forall l v, In l adds -> In v l -> v <> VNan false) ->
  let m := fold_left ma_add adds (ma_init size) in
  let all := fin_values (concat adds) in
  let kept := if (0 <? size)%Z then last_n (Z.to_nat size) all else all in
  ma_cache m = map VFin kept
  /\ ma_get m = Some (match kept with [] => 0%Qc | _ => (qsum kept / sq (length kept))%Qc end).
Proof. exact C44_movavg_partial_lemma. Qed.
Print Assumptions C44_movavg_partial.

(** C44.  Infinities never enter, whatever is added. *)
Theorem C44_no_infinity : forall size (adds : list (list num)) v,
  In v (ma_cache (fold_left ma_add adds (ma_init size))) -> v <> VInf /\ v <> VNegInf.
Proof. exact C44_no_infinity_lemma. Qed.
Print Assumptions C44_no_infinity.

(** C44.  A NaN that is not the object [np.nan] (an element of an array or tensor, float('nan'))
    enters the cache and makes the average NaN. *)
Theorem C44_nan_refuted : exists adds m, m = fold_left ma_add adds (ma_init 100) /\ In (VNan false) (ma_cache m) /\ ma_get m = None.
Proof. exact C44_nan_refuted_lemma. Qed.
Print Assumptions C44_nan_refuted.

(** C45.  After any sequence of non-empty batches, mean, var and count are the population
    statistics of all the samples seen, whatever the initial values. *)
Theorem C45_running_stats : forall mean std (batches : list (list Qc)), batches <> [] -> (forall b, In b batches -> b <> []) ->
  exists r, foldM rms_update batches (rms_init mean std) = Ok r
    /\ let all := concat batches in
       let mu := (qsum all / sq (length all))%Qc in
       r_count r = length all /\ r_mean r = mu
       /\ r_var r = (qsum (map (fun x => (x - mu) * (x - mu))%Qc all) / sq (length all))%Qc.
Proof. exact C45_running_stats_lemma. Qed.
Print Assumptions C45_running_stats.

(** C45.  norm() clips to [-clip_max, clip_max]. *)
Theorem C45_norm_clipped : forall sqrt eps c r x, (0 < c)%Qc ->
  (- c <= rms_norm sqrt eps (Some c) r x)%Qc /\ (rms_norm sqrt eps (Some c) r x <= c)%Qc.
Proof. exact C45_norm_clipped_lemma. Qed.
Print Assumptions C45_norm_clipped.

(** C71.  The [std] given to the constructor is used as a variance: before any update, norm()
    divides by its square root. *)
Theorem C71_initial_std_refuted : exists sqrt std x,
  (forall y, y = (std * std)%Qc -> sqrt y = std) /\ (sqrt std * sqrt std = std)%Qc
  /\ rms_norm sqrt 0 None (rms_init 0 std) x <> ((x - 0) / std)%Qc.
Proof. exact C71_initial_std_refuted_lemma. Qed.
Print Assumptions C71_initial_std_refuted.

(** C71 (restricted: after at least one update the initial value no longer matters). *)
Theorem C71_forgotten_partial : forall mean std mean' std' batches, batches <> [] -> (forall b, In b batches -> b <> []) ->
  foldM rms_update batches (rms_init mean std) = foldM rms_update batches (rms_init mean' std').
Proof. exact C71_forgotten_partial_lemma. Qed.
Print Assumptions C71_forgotten_partial.

Example C44_ex : let m := fold_left ma_add [[VFin 1%Qc; VInf; VFin (Q2Qc 2)]; [VNan true]; [VFin (Q2Qc 3); VNegInf; VFin (Q2Qc 4)]] (ma_init 3) in
  ma_cache m = [VFin (Q2Qc 2); VFin (Q2Qc 3); VFin (Q2Qc 4)] /\ option_map this (ma_get m) = Some (3 # 1)%Q.
Proof. split; vm_compute; reflexivity. Qed.
Example C45_ex : exists r, foldM rms_update [[1%Qc; Q2Qc 3]; [Q2Qc 5; Q2Qc 7]] (rms_init (Q2Qc 9) 1) = Ok r
  /\ this (r_mean r) = (4 # 1)%Q /\ this (r_var r) = (5 # 1)%Q /\ r_count r = 4.
Proof. eexists. split; [reflexivity|]. split; [|split]; vm_compute; reflexivity. Qed.
Example C45_ex_norm : this (rms_norm (fun _ => 1%Qc) 0 (Some (Q2Qc 10)) (rms_init 0 1) (Q2Qc 12)) = (10 # 1)%Q.
Proof. vm_compute. reflexivity. Qed.
