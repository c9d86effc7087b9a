(** * Evaluation plots: properties *)
From Verif Require Import Py PyLemmas Num StatModel EvalModel RliModel RliSpec RliProofs.
From Coq Require Import Permutation.
Open Scope nat_scope.

(** C317. The interquartile mean of the runs lies between the smallest and the largest of them, does not depend on their order, follows
    every change of unit, and is the mean if there are fewer than four runs. *)
Theorem C317_iqm : forall l : list Qc, l <> [] ->
  (forall lo hi, (forall x, In x l -> (lo <= x)%Qc /\ (x <= hi)%Qc) -> (lo <= iqm l)%Qc /\ (iqm l <= hi)%Qc)
  /\ (forall l', Permutation l l' -> iqm l' = iqm l)
  /\ (forall a b, (0 < a)%Qc -> iqm (map (fun x => (a * x + b)%Qc) l) = (a * iqm l + b)%Qc)
  /\ (length l < 4 -> iqm l = np_mean l).
Proof. exact C317_iqm_lemma. Qed.
Print Assumptions C317_iqm.

(** C317. The best run among four or more does not count: however much larger its return is, the interquartile mean is the same. *)
Theorem C317_outlier : forall (l : list Qc) (m m' : Qc), 3 <= length l ->
  (forall x, In x l -> (x <= m)%Qc /\ (x <= m')%Qc) -> iqm (m :: l) = iqm (m' :: l).
Proof. exact C317_outlier_lemma. Qed.
Print Assumptions C317_outlier.

(** C317. The curve has one value for each column, the interquartile mean of the returns of all runs in that column. *)
Theorem C317_curve : forall (t : list (list Qc)) (n k : nat), table t n k ->
  length (iqm_curve t) = k /\
  forall j, j < k -> nth_error (iqm_curve t) j = Some (iqm (map (fun row => nth j row 0%Qc) t)).
Proof. exact C317_curve_lemma. Qed.
Print Assumptions C317_curve.

(** C316. Without given thresholds there are 101, evenly spaced, from the smallest to the largest return of the scope. *)
Theorem C316_thresholds : forall dir (r : result) name s n returns steps th,
  rliable_data dir r name None s = Ok (n, returns, steps, th) ->
  returns = scope_returns r s /\ steps = scope_steps r s /\ length th = 101 /\ ascending th /\
  exists lo hi, least lo (concat returns) /\ greatest hi (concat returns) /\ nth_error th 0 = Some lo /\ nth_error th 100 = Some hi /\
    forall i x y, nth_error th i = Some x -> nth_error th (S i) = Some y -> ((y - x) * sq 100 = hi - lo)%Qc.
Proof. exact C316_thresholds_lemma. Qed.
Print Assumptions C316_thresholds.

(** C316. The profile gives for each threshold the fraction of the runs whose final score is larger: it lies between 0 and 1, is 1 below and
    0 from the largest score on, and falls with the threshold. *)
Theorem C316_profile : forall scores th : list Qc, scores <> [] ->
  length (profile scores th) = length th /\
  (forall i t y, nth_error th i = Some t -> nth_error (profile scores th) i = Some y ->
     (y * sq (length scores) = sq (length (filter (fun x => Qcltb t x) scores)))%Qc /\ (0 <= y)%Qc /\ (y <= 1)%Qc
     /\ ((forall x, In x scores -> (t < x)%Qc) <-> y = 1%Qc) /\ ((forall x, In x scores -> (x <= t)%Qc) <-> y = 0%Qc))
  /\ (ascending th -> descending (profile scores th)).
Proof. exact C316_profile_lemma. Qed.
Print Assumptions C316_profile.

(** C318. Both figures show the returns of the requested scope: the curve of the interquartile means over the steps of that scope and the
    profile of the returns in the last column, under the given name, or that of the experiment directory (a path that does not end with a slash). *)
Theorem C318_figures_partial : forall (parent base : list char) (r : result) name th save show s colors (w : world) n k,
  s <> OtherScope -> table (scope_returns r s) n (S k) -> ~ In Slash base -> base <> [] ->
  exists w' f g thr, eval_results (parent ++ Slash :: base) r name th save show s colors w = (w', Ok (f, g)) /\
    g_x f = scope_steps r s /\ g_y f = iqm_curve (scope_returns r s) /\ g_y g = profile (map (fun row => nth k row 0%Qc) (scope_returns r s)) thr /\ g_x g = thr /\
    (forall t, th = Some t -> thr = t) /\ g_name f = match name with Some m => m | None => base end /\ g_name g = g_name f.
Proof. exact C318_figures_partial_lemma. Qed.
Print Assumptions C318_figures_partial.

(** C318. The colours given by the caller are not used in the performance profile. *)
Theorem C318_colors_refuted : forall dir (r : result) name th save show s (colors : list char -> option nat) (w w' : world) f g,
  eval_results dir r name th save show s (Some colors) w = (w', Ok (f, g)) -> g_color f = colors (g_name f) /\ g_color g = None.
Proof. exact C318_colors_refuted_lemma. Qed.
Print Assumptions C318_colors_refuted.

(** C318. A directory given with a slash at its end: the legend is empty. *)
Theorem C318_name_refuted : forall (dir : list char) (r : result) th save show s colors (w w' : world) f g,
  eval_results (dir ++ [Slash]) r None th save show s colors w = (w', Ok (f, g)) -> g_name f = [] /\ g_name g = [].
Proof. exact C318_name_refuted_lemma. Qed.
Print Assumptions C318_name_refuted.

(** C319. With one scope: the result is what was loaded, files are written exactly if [save_plots], figures shown exactly if [show_plots]. *)
Theorem C319_scope_partial : forall dir entries show save s max (w w' : world) r,
  load_and_eval dir entries show save (Some s) max w = (w', Ok r) ->
  load entries max = Ok r /\ exists f g, g_y f = iqm_curve (scope_returns r s) /\
    (w_iqm w', w_profile w') = (if save then (Some f, Some g) else (w_iqm w, w_profile w)) /\ w_shown w' = w_shown w ++ (if show then [f; g] else []).
Proof. exact C319_scope_partial_lemma. Qed.
Print Assumptions C319_scope_partial.

(** C319. "both": whatever the flags are, the figures of both scopes are shown and files are written; the files show the training data only. *)
Theorem C319_both_refuted : forall dir entries show save max (w w' : world) r,
  load_and_eval dir entries show save None max w = (w', Ok r) ->
  exists f g f' g', g_y f = iqm_curve (r_test r) /\ g_y f' = iqm_curve (r_train r) /\
    w_iqm w' = Some f' /\ w_profile w' = Some g' /\ w_shown w' = w_shown w ++ [f; g; f'; g'].
Proof. exact C319_both_refuted_lemma. Qed.
Print Assumptions C319_both_refuted.

(** ** Examples *)
Definition ex_q (z : Z) : Qc := Q2Qc (inject_Z z).
Definition ex_r : result := mkRes [[ex_q 1; ex_q 4]; [ex_q 3; ex_q 8]] [ex_q 10; ex_q 20] [[ex_q 0]; [ex_q 2]] [ex_q 5].
Definition ex_dir : list char := [Ch 1; Slash; Ch 2; Ch 3].
Example C316_case : exists n ret st th, rliable_data ex_dir ex_r None None Test = Ok (n, ret, st, th) /\ n = [Ch 2; Ch 3] /\
  nth_error th 0 = Some (ex_q 1) /\ nth_error th 100 = Some (ex_q 8) /\ table (scope_returns ex_r Test) 2 2 /\
  profile [ex_q 4; ex_q 8] [ex_q 3; ex_q 4; ex_q 8] = [1%Qc; Q2Qc (1 # 2); 0%Qc] /\
  rliable_data ex_dir ex_r None None OtherScope = Err ValueError /\ rliable_data ex_dir (mkRes [[]] [] [[]] []) None None Test = Err ValueError.
Proof.
  do 4 eexists. split; [reflexivity|]. split; [reflexivity|]. split; [vm_compute; f_equal; now apply Qc_is_canon|]. split; [vm_compute; f_equal; now apply Qc_is_canon|].
  split; [split; [reflexivity|]; split; [repeat constructor|]; intros row [<-|[<-|[]]]; reflexivity|]. split; [|split; reflexivity].
  unfold profile. cbn [map]. repeat (apply (f_equal2 (@cons Qc)); [apply Qc_is_canon; vm_compute; reflexivity|]). reflexivity.
Qed.
Example C317_case : iqm [ex_q 9; ex_q 1; ex_q 3; ex_q 5] = ex_q 4 /\ iqm [ex_q 99; ex_q 1; ex_q 3; ex_q 5] = ex_q 4 /\ iqm [ex_q 9; ex_q 1; ex_q 2] = ex_q 4.
Proof. repeat split; apply Qc_is_canon; vm_compute; reflexivity. Qed.
Definition ex_w : world := mkWorld None None [].
(** The legend of the same data in a directory given with a slash at its end, with a colour for every name. *)
Example C318_case : match eval_results ex_dir ex_r None None false false Train (Some (fun _ => Some 7)) ex_w with
    | (w, Ok (f, g)) => w = ex_w /\ g_name f = [Ch 2; Ch 3] /\ g_color f = Some 7 /\ g_color g = None /\ g_x f = [ex_q 5] | _ => False end /\
  match eval_results (ex_dir ++ [Slash]) ex_r None None true false Train None ex_w with (w, Ok (f, g)) => g_name f = [] /\ w_iqm w = Some f | _ => False end.
Proof. repeat split. Qed.
Definition ex_entries : list dirent := [run_of [(ex_q 10, Some (ex_q 1)); (ex_q 20, Some (ex_q 4))] [(ex_q 5, Some (ex_q 2))]].
Example C319_case : match load_and_eval ex_dir ex_entries false false None None ex_w with
    | (w, Ok r) => length (w_shown w) = 4 /\ w_iqm w <> None | _ => False end /\
  match load_and_eval ex_dir ex_entries false false (Some Train) None ex_w with (w, Ok r) => w = ex_w | _ => False end.
Proof. split; [split; [reflexivity|discriminate]|reflexivity]. Qed.
