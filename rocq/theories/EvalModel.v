(** * Model of logging and evaluation: summary statistics ([tianshou/data/stats.py]), launchers
    ([tianshou/evaluation/launcher.py]), nested log data and their restoration
    ([tianshou/utils/logger/tensorboard.py]), the wandb logger and the logger factory
    ([tianshou/utils/logger/wandb.py], [tianshou/highlevel/logger.py]), and the evaluation of several
    runs ([tianshou/evaluation/rliable_evaluation_hl.py]). *)
From Verif Require Export Py Num.
From Verif Require Import StatModel.
Open Scope nat_scope.
Open Scope list_scope.

(** ** SequenceSummaryStats.from_sequence (stats.py:26-43).  The standard deviation is represented by its
    square (np.std divides by the length); [np_mean] and [np_var] are those of [StatModel]. *)
Definition np_max (l : list Qc) : Qc := match l with [] => 0%Qc | x :: l => fold_left (fun m y => if Qcleb m y then y else m) l x end.
Definition np_min (l : list Qc) : Qc := match l with [] => 0%Qc | x :: l => fold_left (fun m y => if Qcleb y m then y else m) l x end.
Record summary := mkSum { s_mean : Qc; s_var : Qc; s_max : Qc; s_min : Qc }.
Definition from_sequence (l : list Qc) : summary :=
  match l with
  | [] => mkSum 0 0 0 0
  | _ => mkSum (np_mean l) (np_var l) (np_max l) (np_min l)
  end.
(** compute_dim_to_summary_stats (stats.py:46-57): one summary for each row, keyed by the position. *)
Definition dim_stats (rows : list (list Qc)) : list (nat * summary) :=
  combine (seq 0 (length rows)) (map from_sequence rows).

(** ** Launchers (launcher.py).  [run] executes an experiment: the state [St] is whatever experiments
    change, an error is any exception. *)
Section Launch.
  Context {St Exp Res : Type} (run : St -> Exp -> St * res Res).
  (** _safe_execute (53-58); [None] is the string "failed". *)
  Definition safe_execute (s : St) (e : Exp) : St * option Res :=
    match run s e with (s, Ok r) => (s, Some r) | (s, Err _) => (s, None) end.
  (** _return_from_successful_and_failed_exps (60-74) *)
  Definition return_stats (succ : list Res) : res (list Res) :=
    match succ with [] => Err RuntimeError | _ => Ok succ end.
  (** SequentialExpLauncher._launch (93-103): state, successes, failed experiments. *)
  Fixpoint seq_loop (s : St) (exps : list Exp) (succ : list Res) (failed : list Exp) : St * (list Res * list Exp) :=
    match exps with
    | [] => (s, (succ, failed))
    | e :: exps =>
        match safe_execute s e with
        | (s, Some r) => seq_loop s exps (succ ++ [r]) failed
        | (s, None) => seq_loop s exps succ (failed ++ [e])
        end
    end.
  (** launch (76-87) *)
  Definition launch_sequential (s : St) (exps : list Exp) : St * res (list Res) :=
    match exps with
    | [e] => let '(s, r) := run s e in (s, let* r := r in Ok [r])
    | _ => let '(s, (succ, _)) := seq_loop s exps [] [] in (s, return_stats succ)
    end.
End Launch.
(** JoblibExpLauncher._launch (126-137): every experiment runs in a process of its own, on a copy of the
    state, and the results come in the order of the experiments. *)
Definition launch_joblib {St Exp Res} (run : St -> Exp -> St * res Res) (s : St) (exps : list Exp) : res (list Res) :=
  match exps with
  | [e] => let* r := snd (run s e) in Ok [r]
  | _ =>
      let results := map (fun e => snd (safe_execute run s e)) exps in
      return_stats (flat_map (fun r => match r with Some x => [x] | None => [] end) results)
  end.

(** ** Log data.  Keys are lists of characters, of which only the delimiter matters. *)
Inductive char := Slash | Ch (n : nat).
Notation key := (list char) (only parsing).
Definition char_eqb (a b : char) : bool := match a, b with Slash, Slash => true | Ch n, Ch m => n =? m | _, _ => false end.
Fixpoint key_eqb (a b : key) : bool :=
  match a, b with [], [] => true | x :: a, y :: b => char_eqb x y && key_eqb a b | _, _ => false end.
(** [LOther]: a value that cannot be logged (None, a string, ...). *)
Inductive ldata := LNum (q : Qc) | LArr (l : list Qc) | LDict (l : list (key * ldata)) | LOther.
Definition put {X} (k : key) (x : X) := fix put (l : list (key * X)) : list (key * X) :=
  match l with [] => [(k, x)] | (k', y) :: l => if key_eqb k k' then (k', x) :: l else (k', y) :: put l end.
Fixpoint get {X} (k : key) (l : list (key * X)) : option X :=
  match l with [] => None | (k', y) :: l => if key_eqb k k' then Some y else get k l end.
Fixpoint lstrip (k : key) : key := match k with Slash :: k => lstrip k | _ => k end.
(** prepare_dict_for_logging (tensorboard.py:47-86) with the default arguments: arrays are left out. *)
Fixpoint add_to_result (d : ldata) (prefix : key) (result : list (key * Qc)) {struct d} : list (key * Qc) :=
  match d with
  | LDict l =>
      (fix go (l : list (key * ldata)) (result : list (key * Qc)) {struct l} : list (key * Qc) :=
         match l with
         | [] => result
         | (k, v) :: l =>
             let new_key := lstrip (prefix ++ Slash :: k) in
             go l (match v with
                   | LArr _ | LOther => result
                   | LDict _ => add_to_result v new_key result
                   | LNum q => put new_key q result
                   end)
         end) l result
  | _ => result
  end.
Definition prepare (l : list (key * ldata)) : list (key * Qc) := add_to_result (LDict l) [] [].

(** [s.split("/")] *)
Fixpoint split_key (k : key) : list key :=
  match k with
  | [] => [[]]
  | Slash :: k => [] :: split_key k
  | c :: k => match split_key k with s :: r => (c :: s) :: r | [] => [[c]] end
  end.
(** The scalars of a tensorboard log: for each tag, in the order of the first use, the steps and values. *)
Notation tblog := (list (list char * list (Z * Qc))) (only parsing).
Definition qzz (z : Z) : Qc := Q2Qc (inject_Z z).
Definition add_scalar (k : key) (q : Qc) (step : Z) (ev : tblog) : tblog :=
  put k (match get k ev with Some l => l ++ [(step, q)] | None => [(step, q)] end) ev.
(** write (tensorboard.py:88-100) for data without arrays and figures.  The rounding of the logged numbers
    to single precision is left out. *)
Definition write (step_type : key) (step : Z) (data : list (key * Qc)) (ev : tblog) : res tblog :=
  match split_key step_type with
  | [scope; _] =>
      Ok (fold_left (fun ev kv => add_scalar (scope ++ Slash :: fst kv) (snd kv) step ev) data
            (add_scalar step_type (qzz step) step ev))
  | _ => Err ValueError
  end.
(** A restored dictionary. *)
Inductive rdata := RArr (l : list Qc) | RDict (l : list (key * rdata)).
(** add_value_to_innermost_nested_dict (tensorboard.py:156-184): an array met on the way has no
    [setdefault]; a string is no index of an array. *)
Fixpoint add_value (keys : list key) (value : list Qc) (d : rdata) {struct keys} : res rdata :=
  match keys with
  | [] => Ok d
  | [k] => match d with RDict l => Ok (RDict (put k (RArr value) l)) | RArr _ => Err IndexError end
  | k :: keys =>
      match d with
      | RArr _ => Err AttributeError
      | RDict l =>
          let* d' := add_value keys value (match get k l with Some d' => d' | None => RDict [] end) in
          Ok (RDict (put k d' l))
      end
  end.
(** restore_logged_data (tensorboard.py:142-194); the event accumulator keeps all the events. *)
Definition restore_logged_data (ev : tblog) : res rdata :=
  foldM (fun d kv => add_value (split_key (fst kv)) (map snd (snd kv)) d) ev (RDict []).

(** ** Loggers and their options *)
Record tb_opts := mkTb { tb_train : Z; tb_test : Z; tb_update : Z; tb_info : Z; tb_save : Z; tb_flush : bool }.
(** TensorboardLogger.__init__ (tensorboard.py:31-45) with optional arguments. *)
Definition tensorboard_logger (train test update info save : option Z) (flush : option bool) : tb_opts :=
  let d {X} (o : option X) (x : X) := match o with Some y => y | None => x end in
  mkTb (d train 1000%Z) (d test 1%Z) (d update 1000%Z) (d info 1%Z) (d save 1%Z) (d flush true).
(** WandbLogger: its own options (wandb.py:48-71) and the logger it writes to after [load]. *)
Record wandb := mkW { w_train : Z; w_test : Z; w_update : Z; w_info : Z; w_save : Z; w_flush : bool; w_tb : option tb_opts }.
Definition b2z (b : bool) : Z := if b then 1%Z else 0%Z.
(** load (wandb.py:106-115): the arguments are passed by position. *)
Definition wandb_load (w : wandb) : wandb :=
  mkW (w_train w) (w_test w) (w_update w) (w_info w) (w_save w) (w_flush w)
    (Some (tensorboard_logger (Some (w_train w)) (Some (w_test w)) (Some (w_update w)) (Some (w_save w)) (Some (b2z (w_flush w))) None)).
(** What a write does: the number of events and of flushes (tensorboard.py:99-100, wandb.py:117-123). *)
Definition tb_write (o : tb_opts) (st : nat * nat) (n : nat) : nat * nat := (fst st + S n, snd st + if tb_flush o then 1 else 0).
Definition wandb_write (w : wandb) (st : nat * nat) (n : nat) : res (nat * nat) :=
  match w_tb w with None => Err RuntimeError | Some o => Ok (tb_write o st n) end.

(** WandbLogger.save_data (wandb.py:131-161) and restore_data (163-185): the latest artifact carries epoch,
    env_step and gradient_step.  [ck]: there is a save_checkpoint_fn. *)
Record wstate := mkWs { ws_last_save : Z; ws_artifact : option (Z * Z * Z) }.
Definition wandb_save (interval : Z) (ck : bool) (s : wstate) (e : Z * Z * Z) : wstate :=
  let '(epoch, env_step, gradient_step) := e in
  if ck && (interval <=? epoch - ws_last_save s)%Z then mkWs epoch (Some (epoch, env_step, gradient_step)) else s.
(** Without an artifact the assertion (or the API) fails; [None] stands for a run that is resumed. *)
Definition wandb_restore (s : wstate) : res (wstate * (Z * Z * Z)) :=
  match ws_artifact s with
  | None => Err AssertionError
  | Some (e, v, g) => Ok (mkWs e (Some (e, v, g)), (e, v, g))
  end.
(** The saving condition of TensorboardLogger (tensorboard.py:105-113): the epochs that are saved. *)
Fixpoint saved_epochs (interval last : Z) (epochs : list Z) : list Z :=
  match epochs with
  | [] => []
  | e :: es => if (interval <=? e - last)%Z then e :: saved_epochs interval e es else saved_epochs interval last es
  end.

(** LoggerFactoryDefault (logger.py:36-106).  The logger types: "tensorboard", "wandb", "pandas". *)
Inductive ltype := TB | WB | PD.
Record factory := mkF { f_type : ltype; f_project : option nat; f_save : Z }.
Definition new_factory (t : ltype) (project : option nat) (save : Z) : res factory :=
  match t, project with WB, None => Err ValueError | _, _ => Ok (mkF t project save) end.
Inductive logger := LTb (o : tb_opts) | LWb (w : wandb).
Definition wandb_logger (save : Z) : wandb := mkW 1000%Z 1%Z 1000%Z 1%Z save true None.
Definition create_logger (f : factory) : res logger :=
  match f_type f with
  | WB => Ok (LWb (wandb_load (wandb_logger (f_save f))))
  | TB => Ok (LTb (tensorboard_logger None None None None None None))
  | PD => Err ValueError
  end.
Definition save_of (l : logger) : Z := match l with LTb o => tb_save o | LWb w => w_save w end.
Definition logger_class (f : factory) : res ltype := match f_type f with PD => Err ValueError | t => Ok t end.

(** ** LoggedCollectStats (rliable_evaluation_hl.py:31-53) *)
Inductive field := FEnvStep | FEpisodes | FSteps | FTime | FSpeed | FReturns | FLens | FUnknown (n : nat).
Definition known (f : field) : bool := match f with FUnknown _ => false | _ => true end.
Definition field_eqb (a b : field) : bool :=
  match a, b with
  | FEnvStep, FEnvStep | FEpisodes, FEpisodes | FSteps, FSteps | FTime, FTime | FSpeed, FSpeed | FReturns, FReturns | FLens, FLens => true
  | FUnknown n, FUnknown m => n =? m
  | _, _ => false
  end.
(** A value: an array; a dict with exactly the keys mean, std, max and min; another dict. *)
Inductive entry := EArr (l : list Qc) | EStat (mean std max min : list Qc) | EDict.
(** The object made of it: for each field of the class the value, if any. *)
Inductive fvalue := VArray (l : list Qc) | VSummary (mean std max min : list Qc).
Notation stats := (list (field * fvalue)) (only parsing).
(** from_data_dict (41-53).  The dict is changed while it is iterated over: after an unknown key has been
    popped, the next step of the loop raises RuntimeError ("changed size"); if its value is a dict, it is
    put back and the loop ends with RuntimeError ("keys changed", or "changed size" when it is popped again). *)
Fixpoint from_data_loop (data : list (field * entry)) (bad : bool) : res stats :=
  match data with
  | [] => if bad then Err RuntimeError else Ok []
  | (k, v) :: data =>
      match v with
      | EDict => Err TypeError
      | EStat a b c d => let* r := from_data_loop data (bad || negb (known k)) in Ok ((k, VSummary a b c d) :: r)
      | EArr l => if known k then let* r := from_data_loop data bad in Ok ((k, VArray l) :: r) else Err RuntimeError
      end
  end.
Definition from_data_dict (data : list (field * entry)) : res stats := from_data_loop data false.
Fixpoint attr (f : field) (s : stats) : option fvalue :=
  match s with [] => None | (g, v) :: s => if field_eqb f g then Some v else attr f s end.

(** ** RLiableExperimentResult.load_from_disk (75-198) *)
Inductive scope := Train | Test | OtherScope.
Definition scope_eqb (a b : scope) : bool := match a, b with Train, Train | Test, Test | OtherScope, OtherScope => true | _, _ => false end.
Notation logged := (list (scope * list (field * entry))) (only parsing).
(** An entry of the directory; what can be restored from it and from its subdirectories. *)
Record dirent := mkD { d_skip : bool; d_data : logged; d_subs : list logged }.
Fixpoint look (s : scope) (l : logged) : option (list (field * entry)) :=
  match l with [] => None | (s', d) :: l => if scope_eqb s s' then Some d else look s l end.
Definition run_data (e : dirent) : res logged :=
  match d_data e with
  | _ :: _ => Ok (d_data e)
  | [] => match d_subs e with
          | [d] => match d with [] => Err ValueError | _ => Ok d end
          | _ => Err ValueError
          end
  end.
(** The lists of returns, and the steps of the last run that has some. *)
Record acc := mkA { a_test : list (list Qc); a_train : list (list Qc); a_test_step : option (list Qc); a_train_step : option (list Qc) }.
Definition steps_of (s : stats) : option (list Qc) := match attr FEnvStep s with Some (VArray l) => Some l | _ => None end.
(** [data.returns_stat.mean]; an array has a method of that name, which is no sequence (TypeError later). *)
Definition mean_of (s : stats) : res (option (list Qc)) :=
  match attr FReturns s with None => Ok None | Some (VSummary m _ _ _) => Ok (Some m) | Some (VArray _) => Err TypeError end.
Definition load_run (a : acc) (e : dirent) : res acc :=
  if d_skip e then Ok a else
  let* data := run_data e in
  match look Test data with
  | None | Some [] => Ok a
  | Some test =>
      match look Train data with
      | None => Err KeyError
      | Some train =>
          let* test := from_data_dict test in
          let* train := from_data_dict train in
          let* mt := mean_of test in
          let* mr := mean_of train in
          let a := match mt with Some m => mkA (a_test a ++ [m]) (a_train a) (steps_of test) (a_train_step a) | None => a end in
          Ok (match mr with Some m => mkA (a_test a) (a_train a ++ [m]) (a_test_step a) (steps_of train) | None => a end)
      end
  end.
(** [min([len(arr) for arr in l])] *)
Definition min_len {X} (l : list (list X)) : res nat :=
  match l with [] => Err ValueError | x :: l => Ok (fold_left (fun m y => Nat.min m (length y)) l (length x)) end.
(** np.searchsorted of a sorted array: the number of smaller elements at its beginning. *)
Fixpoint searchsorted (l : list Qc) (x : Qc) : nat :=
  match l with [] => 0 | y :: l => if Qcleb x y then 0 else S (searchsorted l x) end.
Record result := mkRes { r_test : list (list Qc); r_steps : list Qc; r_train : list (list Qc); r_steps_train : list Qc }.
(** The lengths are compared with [max_env_step] (natural here), a number of steps. *)
Definition cut (max : option nat) (n : nat) : nat := match max with None => n | Some m => Nat.min n m end.
Definition load (entries : list dirent) (max : option nat) : res result :=
  let* a := foldM load_run entries (mkA [] [] None None) in
  let found (l : list (list Qc)) (s : option (list Qc)) := match l, s with _ :: _, Some _ => true | _, _ => false end in
  if negb (found (a_test a) (a_test_step a)) && negb (found (a_train a) (a_train_step a)) then Err RuntimeError else
  let* ntr := min_len (a_train a) in
  let ntr := cut max ntr in
  let* nte := min_len (a_test a) in
  let nte := cut max nte in
  match a_test_step a, a_train_step a with
  | Some ste, Some str =>
      let ste := firstn nte ste in
      let str := firstn ntr str in
      let nte := match max with Some (S m) => searchsorted ste (sq (S m)) | _ => nte end in
      let ntr := match max with Some (S m) => searchsorted str (sq (S m)) | _ => ntr end in
      let ste := match max with Some (S _) => firstn nte ste | _ => ste end in
      let str := match max with Some (S _) => firstn ntr str | _ => str end in
      Ok (mkRes (map (firstn nte) (a_test a)) ste (map (firstn ntr) (a_train a)) str)
  | _, _ => Err AssertionError
  end.

(** What the logger writes for a sequence of collects: the step and, if an episode was finished, the mean
    return; and what is restored from it. *)
Definition scope_data (log : list (Qc * option Qc)) : list (field * entry) :=
  let m := flat_map (fun x : Qc * option Qc => match snd x with Some r => [r] | None => [] end) log in
  (FEnvStep, EArr (map fst log)) :: match m with [] => [] | _ => [(FReturns, EStat m m m m)] end.
Definition run_of (test train : list (Qc * option Qc)) : dirent := mkD false [(Test, scope_data test); (Train, scope_data train)] [].
