(** * Evaluation of several runs, loggers and their factory: properties *)
From Verif Require Import Py PyLemmas Num StatModel EvalModel EvalSpec EvalRunProofs.
Open Scope nat_scope.
Open Scope list_scope.

(** C222. Data of known fields only: every field gets its value, dictionaries become summaries. *)
Theorem C222_fields : forall data, (forall k v, In (k, v) data -> known k = true /\ v <> EDict) ->
  exists s, from_data_dict data = Ok s /\ length s = length data /\
    forall i k v, nth_error data i = Some (k, v) -> exists x, conv v = Some x /\ nth_error s i = Some (k, x).
Proof. exact C222_fields_lemma. Qed.
Print Assumptions C222_fields.

(** C222. "Ignores fields that are not present": a single unknown key makes the conversion fail. The statistics of
    the standard deviations of Gaussian policies (a dictionary by dimension) are of this kind. *)
Theorem C222_unknown_refuted : forall data n v, In (FUnknown n, v) data -> is_ok (from_data_dict data) = false.
Proof. exact C222_unknown_refuted_lemma. Qed.
Print Assumptions C222_unknown_refuted.

(** C223. Runs that have test and training returns: every row holds the first columns of a run, the steps are
    those of the last run, as many columns as every run has (without a bound, as the shortest run has), and with a
    bound only steps below it. *)
Theorem C223_columns : forall runs max, runs <> [] -> (forall r, In r runs -> rets (fst r) <> [] /\ rets (snd r) <> []) ->
  exists r n m, load (runs_of runs) max = Ok r /\
    r_test r = map (fun run => firstn n (rets (fst run))) runs /\ r_steps r = firstn n (map fst (fst (last runs ([], [])))) /\
    r_train r = map (fun run => firstn m (rets (snd run))) runs /\ r_steps_train r = firstn m (map fst (snd (last runs ([], [])))) /\
    length (r_steps r) = n /\ length (r_steps_train r) = m /\
    (forall run, In run runs -> n <= length (rets (fst run)) /\ m <= length (rets (snd run))) /\
    (max = None -> (exists run, In run runs /\ n = length (rets (fst run))) /\ exists run, In run runs /\ m = length (rets (snd run))) /\
    (forall b, max = Some (S b) -> forall s, In s (r_steps r) \/ In s (r_steps_train r) -> (s < sq (S b))%Qc).
Proof. exact C223_columns_lemma. Qed.
Print Assumptions C223_columns.

(** C223. If every collect finished episodes and all runs were logged at the same steps, each cell of the test
    table is what that run logged at the step of the column. *)
Theorem C223_aligned : forall runs max, runs <> [] -> (forall r, In r runs -> fst r <> [] /\ snd r <> []) ->
  (forall r j, In r runs -> j < length (fst r) -> j < length (fst (last runs ([], []))) -> nth_error (map fst (fst r)) j = nth_error (map fst (fst (last runs ([], [])))) j) ->
  exists res, load (runs_of (map (fun r => (full (fst r), full (snd r))) runs)) max = Ok res /\
    forall i j run row s x, nth_error runs i = Some run -> nth_error (r_test res) i = Some row -> nth_error (r_steps res) j = Some s -> nth_error row j = Some x ->
      nth_error (fst run) j = Some (s, x).
Proof. exact C223_aligned_lemma. Qed.
Print Assumptions C223_aligned.

(** C223. A training collect without a finished episode: the returns that follow are shown at the steps of
    earlier collects. *)
Theorem C223_shifted_refuted : forall test s0 s1 x rest, rets test <> [] ->
  exists r, load (runs_of [(test, (s0, None) :: (s1, Some x) :: rest)]) None = Ok r /\
    nth_error (r_steps_train r) 0 = Some s0 /\ option_map (fun row => nth_error row 0) (nth_error (r_train r) 0) = Some (Some x).
Proof. exact C223_shifted_refuted_lemma. Qed.
Print Assumptions C223_shifted_refuted.

(** C223. Runs evaluated at different steps: the returns of all of them are shown at the steps of the last one. *)
Theorem C223_other_steps_refuted : forall s s' x x' train train', rets train <> [] -> rets train' <> [] ->
  exists r, load (runs_of [([(s, Some x)], train); ([(s', Some x')], train')]) None = Ok r /\
    r_test r = [[x]; [x']] /\ r_steps r = [s'].
Proof. exact C223_other_steps_refuted_lemma. Qed.
Print Assumptions C223_other_steps_refuted.

(** C224. No directory with test data: RuntimeError. *)
Theorem C224_nothing : forall entries max,
  (forall e, In e entries -> d_skip e = true \/ (d_data e <> [] /\ (look Test (d_data e) = None \/ look Test (d_data e) = Some []))) ->
  load entries max = Err RuntimeError.
Proof. exact C224_nothing_lemma. Qed.
Print Assumptions C224_nothing.

(** C224. An entry without data of its own counts as its only subdirectory; with none, with several, or with an empty
    one the function never returns (ValueError unless an earlier entry has failed). *)
Theorem C224_layout : forall (pre post : list dirent) (max : option nat),
  (forall d subs, d <> [] -> load (pre ++ mkD false [] [d] :: post) max = load (pre ++ mkD false d subs :: post) max) /\
  (forall subs, length subs <> 1 \/ subs = [[]] ->
     load (mkD false [] subs :: post) max = Err ValueError /\ exists e, load (pre ++ mkD false [] subs :: post) max = Err e).
Proof. exact C224_layout_lemma. Qed.
Print Assumptions C224_layout.

(** C224. Test data only: without training returns the function fails with ValueError although the missing data
    were only to be warned about; without any training data (offline learning) it fails with KeyError. *)
Theorem C224_no_train_refuted : 
  (forall runs max, runs <> [] -> (forall r, In r runs -> rets (fst r) <> [] /\ rets (snd r) = []) -> load (runs_of runs) max = Err ValueError) /\
  (forall test rest max, rets test <> [] -> load (mkD false [(Test, scope_data test)] [] :: rest) max = Err KeyError).
Proof. exact C224_no_train_refuted_lemma. Qed.
Print Assumptions C224_no_train_refuted.

(** C225. The wandb logger writes what it is given once it is loaded, and the intervals of training, test and update
    are passed on; before that every write fails. *)
Theorem C225_intervals : forall w, w_tb w = None ->
  (forall st n, wandb_write w st n = Err RuntimeError) /\
  exists o, w_tb (wandb_load w) = Some o /\ tb_train o = w_train w /\ tb_test o = w_test w /\ tb_update o = w_update w /\
    forall st n, exists f, wandb_write (wandb_load w) st n = Ok (fst st + S n, f).
Proof. exact C225_intervals_lemma. Qed.
Print Assumptions C225_intervals.

(** C225. The arguments are shifted by one: [save_interval] becomes the info interval, [write_flush] the save
    interval, and every write is flushed whatever [write_flush] says. *)
Theorem C225_flush_refuted : forall w, exists o, w_tb (wandb_load w) = Some o /\
  tb_info o = w_save w /\ tb_save o = (if w_flush w then 1 else 0)%Z /\ tb_flush o = true /\
  forall st n, wandb_write (wandb_load w) st n = Ok (fst st + S n, S (snd st)).
Proof. exact C225_flush_refuted_lemma. Qed.
Print Assumptions C225_flush_refuted.

(** C226. The wandb logger of the factory saves at the interval of the factory; a project is needed. *)
Theorem C226_wandb : forall n p, new_factory WB None n = Err ValueError /\
  exists f l, new_factory WB (Some p) n = Ok f /\ create_logger f = Ok l /\ save_of l = n /\ logger_class f = Ok WB.
Proof. exact C226_wandb_lemma. Qed.
Print Assumptions C226_wandb.

(** C226. The tensorboard logger of the factory is made without the interval: every epoch is saved. "pandas" is
    accepted by the constructor and refused later. *)
Theorem C226_interval_refuted : forall n p,
  (exists f l, new_factory TB p n = Ok f /\ create_logger f = Ok l /\ save_of l = 1%Z /\
    (forall es, strictly (-1) es -> saved_epochs (save_of l) (-1) es = es)) /\
  saved_epochs 2 (-1) [1; 2; 3; 4]%Z = [1; 3]%Z /\
  exists f, new_factory PD p n = Ok f /\ create_logger f = Err ValueError /\ logger_class f = Err ValueError.
Proof. exact C226_interval_refuted_lemma. Qed.
Print Assumptions C226_interval_refuted.

(** C227. Checkpoints of the wandb logger: what is restored is the last one that was saved. *)
Theorem C227_restore : forall interval saves s, saved_triples interval (ws_last_save s) saves <> [] ->
  let s' := fold_left (wandb_save interval true) saves s in
  let e := last (saved_triples interval (ws_last_save s) saves) (0, 0, 0)%Z in
  forall fresh, wandb_restore (mkWs fresh (ws_artifact s')) = Ok (mkWs (fst (fst e)) (Some e), e).
Proof. exact C227_restore_lemma. Qed.
Print Assumptions C227_restore.

(** C227. "If it finds nothing, it will return the default parameters": without a saved checkpoint the wandb logger fails. *)
Theorem C227_default_refuted : forall fresh saves s interval, ws_artifact s = None ->
  is_ok (wandb_restore (mkWs fresh (ws_artifact (fold_left (wandb_save interval false) saves s)))) = false.
Proof. exact C227_default_refuted_lemma. Qed.
Print Assumptions C227_default_refuted.

(** ** Examples *)
Definition q (z : Z) : Qc := Q2Qc (inject_Z z).
Example C222_ex : from_data_dict [(FEnvStep, EArr [q 3]); (FReturns, EStat [q 1] [q 0] [q 1] [q 1])] = Ok [(FEnvStep, VArray [q 3]); (FReturns, VSummary [q 1] [q 0] [q 1] [q 1])] /\
  from_data_dict [(FEnvStep, EArr [q 3]); (FUnknown 0, EArr [q 3])] = Err RuntimeError /\
  from_data_dict [(FEnvStep, EArr [q 3]); (FUnknown 0, EDict)] = Err TypeError.
Proof. repeat split. Qed.
Definition ex_runs : list (list (Qc * Qc) * list (Qc * Qc)) :=
  [([(q 10, q 1); (q 20, q 2); (q 30, q 3)], [(q 5, q 1); (q 15, q 2)]); ([(q 10, q 4); (q 20, q 5)], [(q 5, q 3); (q 15, q 4)])].
Example C223_ex : load (runs_of (map (fun r => (full (fst r), full (snd r))) ex_runs)) None =
    Ok (mkRes [[q 1; q 2]; [q 4; q 5]] [q 10; q 20] [[q 1; q 2]; [q 3; q 4]] [q 5; q 15]) /\
  load (runs_of (map (fun r => (full (fst r), full (snd r))) ex_runs)) (Some 20) =
    Ok (mkRes [[q 1]; [q 4]] [q 10] [[q 1; q 2]; [q 3; q 4]] [q 5; q 15]) /\
  (forall r, In r ex_runs -> fst r <> [] /\ snd r <> []).
Proof. split; [vm_compute; reflexivity|]. split; [vm_compute; reflexivity|]. intros r [<-|[<-|[]]]; split; discriminate. Qed.
Example C224_ex : load [mkD true [] []; mkD false [(OtherScope, [])] []] None = Err RuntimeError /\
  load (runs_of [([(q 10, Some (q 1))], [(q 5, None)])]) None = Err ValueError /\
  load [mkD false [] [[(Test, scope_data [(q 10, Some (q 1))]); (Train, scope_data [(q 5, Some (q 2))])]]] None = Ok (mkRes [[q 1]] [q 10] [[q 2]] [q 5]) /\
  load [mkD false [] [[(OtherScope, [])]; [(OtherScope, [])]]] None = Err ValueError.
Proof. repeat split; vm_compute; reflexivity. Qed.
Example C225_ex : wandb_write (wandb_load (mkW 1000 1 1000 1 7 false None)) (0, 0) 2 = Ok (3, 1) /\
  wandb_write (mkW 1000 1 1000 1 7 false None) (0, 0) 2 = Err RuntimeError.
Proof. split; reflexivity. Qed.
Example C226_ex : strictly (-1) [1; 2; 3]%Z /\ saved_epochs 1 (-1) [1; 2; 3]%Z = [1; 2; 3]%Z /\ saved_epochs 2 (-1) [1; 2; 3]%Z = [1; 3]%Z.
Proof. repeat split; lia. Qed.
Example C227_ex : saved_triples 2 (-1) [(1, 10, 1); (2, 20, 2); (3, 30, 3)]%Z = [(1, 10, 1); (3, 30, 3)]%Z /\
  wandb_restore (mkWs (-1) (ws_artifact (fold_left (wandb_save 2 true) [(1, 10, 1); (2, 20, 2); (3, 30, 3)]%Z (mkWs (-1) None)))) = Ok (mkWs 3 (Some (3, 30, 3)%Z), (3, 30, 3)%Z).
Proof. split; reflexivity. Qed.
