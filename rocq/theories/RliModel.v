(** * Model of the plots of RLiableExperimentResult (tianshou/evaluation/rliable_evaluation_hl.py)

    The bootstrap confidence intervals are left out, as are the axes given by the caller (new figures are made). *)
From Verif Require Export Py Num StatModel EvalModel.
Open Scope nat_scope.

(** np.linspace(lo, hi, n) for [n] at least 2. *)
Definition linspace (lo hi : Qc) (n : nat) : list Qc :=
  map (fun i => (lo + sq i * ((hi - lo) / sq (n - 1)))%Qc) (seq 0 n).
(** os.path.basename: what follows the last slash. *)
Fixpoint basename (k : list char) : list char :=
  match k with
  | [] => []
  | c :: k' => if existsb (char_eqb Slash) k then basename k' else k
  end.
(** np.min and np.max of a two-dimensional array: ValueError if it has no elements. *)
Definition table_min (t : list (list Qc)) : res Qc := match concat t with [] => Err ValueError | l => Ok (np_min l) end.
Definition table_max (t : list (list Qc)) : res Qc := match concat t with [] => Err ValueError | l => Ok (np_max l) end.

(** _get_rliable_data (200-233): the name and its returns, the steps and the thresholds. *)
Definition rliable_data (dir : list char) (r : result) (name : option (list char)) (th : option (list Qc)) (s : scope)
    : res (list char * list (list Qc) * list Qc * list Qc) :=
  let* x := match s with
            | Test => Ok (r_steps r, r_test r)
            | Train => Ok (r_steps_train r, r_train r)
            | OtherScope => Err ValueError
            end in
  let '(steps, returns) := x in
  let* th := match th with
             | Some th => Ok th
             | None => let* lo := table_min returns in let* hi := table_max returns in Ok (linspace lo hi 101)
             end in
  Ok (match name with Some n => n | None => basename dir end, returns, steps, th).

(** np.sort *)
Fixpoint insert (x : Qc) (l : list Qc) : list Qc :=
  match l with [] => [x] | y :: l' => if Qcleb x y then x :: l else y :: insert x l' end.
Fixpoint sort (l : list Qc) : list Qc := match l with [] => [] | x :: l => insert x (sort l) end.
(** scipy.stats.trim_mean(scores, proportiontocut=0.25) of one column (269): the mean without the first and the last
    [int(0.25 * n)] of the sorted scores. *)
Definition iqm (l : list Qc) : Qc :=
  let c := length l / 4 in
  np_mean (firstn (length l - c - c) (skipn c (sort l))).
(** [scores[:, j]] of a table with rows of equal lengths. *)
Definition column (t : list (list Qc)) (j : nat) : list Qc := map (fun row => nth j row 0%Qc) t.
(** The IQM along axis 0: one value for each column (269-270; rly.get_interval_estimates). *)
Definition iqm_curve (t : list (list Qc)) : list Qc :=
  map (fun j => iqm (column t j)) (seq 0 (match t with [] => 0 | row :: _ => length row end)).
(** [returns[:, [-1]]] (301): IndexError if there are no columns. *)
Definition final_scores (t : list (list Qc)) : res (list Qc) :=
  mapM (fun row : list Qc => match rev row with x :: _ => Ok x | [] => Err IndexError end) t.
(** rly.create_performance_profile (302-305): for each threshold the fraction of scores above it. *)
Definition profile (scores th : list Qc) : list Qc :=
  map (fun t => (sq (length (filter (fun x => Qcltb t x) scores)) / sq (length scores))%Qc) th.

(** A figure: the name in the legend, its colour (None: the default colours of the plotting library), horizontal and vertical values. *)
Record figure := mkFig { g_name : list char; g_color : option nat; g_x : list Qc; g_y : list Qc }.
(** The files in the experiment directory, and the figures shown. *)
Record world := mkWorld { w_iqm : option figure; w_profile : option figure; w_shown : list figure }.
(** eval_results (235-329).  plt.show shows all figures made so far that have not been closed; here the one just made. *)
Definition eval_results (dir : list char) (r : result) (name : option (list char)) (th : option (list Qc)) (save show : bool) (s : scope)
    (colors : option (list char -> option nat)) (w : world) : world * res (figure * figure) :=
  match rliable_data dir r name th s with
  | Err e => (w, Err e)
  | Ok (n, returns, steps, th) =>
      let fig := mkFig n (match colors with Some f => f n | None => None end) steps (iqm_curve returns) in
      let w := if show then mkWorld (w_iqm w) (w_profile w) (w_shown w ++ [fig]) else w in
      let w := if save then mkWorld (Some fig) (w_profile w) (w_shown w) else w in
      match final_scores returns with
      | Err e => (w, Err e)
      | Ok final =>
          let fig' := mkFig n None th (profile final th) in
          let w := if save then mkWorld (w_iqm w) (Some fig') (w_shown w) else w in
          let w := if show then mkWorld (w_iqm w) (w_profile w) (w_shown w ++ [fig']) else w in
          (w, Ok (fig, fig'))
      end
  end.
(** load_and_eval_experiments (332-356), [scope] None: "both".  [entries]: what the directory contains. *)
Definition load_and_eval (dir : list char) (entries : list dirent) (show save : bool) (s : option scope) (max : option nat) (w : world)
    : world * res result :=
  match load entries max with
  | Err e => (w, Err e)
  | Ok r =>
      match s with
      | Some s => let '(w, x) := eval_results dir r None None save show s None w in (w, let* _ := x in Ok r)
      | None =>
          match eval_results dir r None None true true Test None w with
          | (w, Err e) => (w, Err e)
          | (w, Ok _) => let '(w, x) := eval_results dir r None None true true Train None w in (w, let* _ := x in Ok r)
          end
      end
  end.
