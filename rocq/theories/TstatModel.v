(** * Model of what training reports: [TrainingStats] and its wrapper (policy/base.py), [MapTrainingStats] (policy/multiagent/mapolicy.py),
      the statistics of PPO, GAIL and ICM, the moving averages and the times of a trainer (trainer/base.py, trainer/utils.py) and the
      rounding of utils/logging.py

    Floats are exact rationals. Attributes of classes (methods, [_non_loss_fields]) are left out: a name is that of an instance attribute. *)
From Coq Require Import String Ascii DecimalString Decimal QArith Qround.
From Verif Require Export Py Num StatModel.
Open Scope nat_scope.
Open Scope list_scope.
Notation string := String.string.

(** ** Attributes *)
(** [VSum]: a [SequenceSummaryStats] (stats.py:17-24); [VDict]: the dict [smoothed_loss]. *)
Inductive val := VNone | VNum (q : Qc) | VNaN | VSum (mean std max min : Qc) | VDict (l : list (string * option Qc)).
Notation dict := (list (string * val)).
Fixpoint getd {X} (k : string) (d : list (string * X)) : option X :=
  match d with [] => None | (k', v) :: d => if String.eqb k k' then Some v else getd k d end.
Fixpoint putd {X} (k : string) (v : X) (d : list (string * X)) : list (string * X) :=
  match d with [] => [(k, v)] | (k', v') :: d => if String.eqb k k' then (k', v) :: d else (k', v') :: putd k v d end.
(** [{**a, **b}]. *)
Definition merge {X} (a b : list (string * X)) : list (string * X) := fold_left (fun d kv => putd (fst kv) (snd kv) d) b a.
(** base.py:39, 75: the fields of the class [TrainingStats]. *)
Definition base_fields : list string := ["train_time"; "smoothed_loss"]%string.
Definition is_base (k : string) : bool := existsb (String.eqb k) base_fields.
(** [k.startswith("_")]. *)
Definition private (k : string) : bool := String.prefix "_"%string k.

(** An agent's name. *)
Inductive agent := AStr (s : string) | AInt (n : nat).
(** [f"{agent_id}"]. *)
Definition str_of (a : agent) : string := match a with AStr s => s | AInt n => NilEmpty.string_of_uint (Nat.to_uint n) end.
(** An instance of a dataclass with its fields; [MapTrainingStats] with its own attributes; a wrapper with its own attributes. The private
    attributes of the latter two are written as components. *)
Inductive stats := Plain (d : dict) | MapS (d : dict) (ags : list (agent * stats)) | Wrap (own : dict) (inner : stats).
(** Reading an attribute; base.py:98-99 [__getattr__]. *)
Fixpoint getattr (s : stats) (k : string) : option val :=
  match s with
  | Plain d | MapS d _ => getd k d
  | Wrap own i => match getd k own with Some v => Some v | None => getattr i k end end.
(** base.py:101-130 [__setattr__] of the wrapper, after its construction. *)
Fixpoint setattr (s : stats) (k : string) (v : val) : res stats :=
  match s with
  | Plain d => Ok (Plain (putd k v d))
  | MapS d a => Ok (MapS (putd k v d) a)
  | Wrap own i =>
      if is_base k then let* i := setattr i k v in Ok (Wrap (putd k v own) i)
      else match getattr (Wrap own i) k with
           | None => Err AttributeError
           | Some _ => match getattr i k with Some _ => let* i := setattr i k v in Ok (Wrap own i) | None => Ok (Wrap (putd k v own) i) end
           end
  end.
(** base.py:77-88 [__init__], called last: [fields] were set before. Setting a base field before needs [_wrapped_stats], which is searched for by
    [__getattr__] without end (RecursionError, a RuntimeError). *)
Definition new_wrapper (fields : dict) (i : stats) : res stats :=
  if existsb (fun kv => is_base (fst kv)) fields then Err RuntimeError else
  let* own := foldM (fun own k => match getattr i k with Some v => Ok (putd k v own) | None => Err AttributeError end) base_fields (merge [] fields) in
  Ok (Wrap own i).
(** icm.py:21-33. *)
Definition icm_stats (i : stats) (loss fwd inv : Qc) : res stats :=
  new_wrapper [("icm_loss", VNum loss); ("icm_forward_loss", VNum fwd); ("icm_inverse_loss", VNum inv)]%string i.
(** Assignments [s.k = v], also to the wrapped object [n] levels down ([wrapped_stats], base.py:94-96). *)
Fixpoint set_at (n : nat) (s : stats) (k : string) (v : val) : res stats :=
  match n, s with
  | 0, _ => setattr s k v
  | S n, Wrap own i => let* i := set_at n i k v in Ok (Wrap own i)
  | S _, _ => Err AttributeError end.

(** ** Losses *)
(** base.py:49-50, 90-92 [_get_self_dict]. *)
Fixpoint self_dict (s : stats) : dict := match s with Plain d | MapS d _ => d | Wrap own i => merge (self_dict i) own end.
(** base.py:52-70 [get_loss_stats_dict]. *)
Definition loss_entries (d : dict) : dict :=
  flat_map (fun kv : string * val =>
    if private (fst kv) || is_base (fst kv) then []
    else match snd kv with VNone => [] | VSum m _ _ _ => [(fst kv, VNum m)] | v => [(fst kv, v)] end) d.
(** mapolicy.py:40-48; the method of the wrapper is that of [TrainingStats]. *)
Definition slash : string := "/"%string.
Fixpoint loss_dict (s : stats) : dict :=
  match s with
  | Plain _ | Wrap _ _ => loss_entries (self_dict s)
  | MapS _ ags =>
      (fix go (l : list (agent * stats)) (r : dict) {struct l} : dict :=
         match l with
         | [] => r
         | (a, t) :: l => go l (fold_left (fun r kv => putd (String.append (String.append (str_of a) slash) (fst kv)) (snd kv) r) (loss_dict t) r) end) ags []
  end.

(** ** Construction *)
Definition base_part (train_time : Qc) : dict := [("train_time", VNum train_time); ("smoothed_loss", VDict [])]%string.
(** stats.py:26-43 [from_sequence]; [sd] is the square root of numpy. *)
Definition qmaxl (l : list Qc) : Qc := match l with [] => 0%Qc | x :: l => fold_left Qcmaxb l x end.
Definition qminl (l : list Qc) : Qc := match l with [] => 0%Qc | x :: l => fold_left Qcminb l x end.
Definition summary (sd : Qc -> Qc) (l : list Qc) : val :=
  match l with [] => VSum 0 0 0 0 | _ => VSum (np_mean l) (sd (np_var l)) (qmaxl l) (qminl l) end.
(** ppo.py:21-45 [from_sequences]. *)
Definition ppo_stats (sd : Qc -> Qc) (losses clip vf ent : list Qc) (steps : Qc) : stats :=
  Plain (base_part 0 ++ [("loss", summary sd losses); ("clip_loss", summary sd clip); ("vf_loss", summary sd vf); ("ent_loss", summary sd ent); ("gradient_steps", VNum steps)]%string).
(** gail.py:187-198. *)
Definition gail_stats (sd : Qc -> Qc) (ppo : stats) (disc api aexp : list Qc) : stats :=
  Plain (merge (self_dict ppo) [("disc_loss", summary sd disc); ("acc_pi", summary sd api); ("acc_exp", summary sd aexp)]%string).
Inductive aggregator := AMax | AMin | AMean | AOther.
(** mapolicy.py:19-38; [max] and [min] of nothing raise a ValueError, [np.mean] is NaN. *)
Definition time_of (s : stats) : res Qc := match getattr s "train_time"%string with Some (VNum q) => Ok q | Some _ => Err TypeError | None => Err AttributeError end.
Definition new_map (ags : list (agent * stats)) (g : aggregator) : res stats :=
  let* ts := mapM (fun x : agent * stats => time_of (snd x)) ags in
  let* t := match g with
            | AOther => Err ValueError
            | AMean => Ok (match ts with [] => VNaN | _ => VNum (np_mean ts) end)
            | AMax => match ts with [] => Err ValueError | _ => Ok (VNum (qmaxl ts)) end
            | AMin => match ts with [] => Err ValueError | _ => Ok (VNum (qminl ts)) end end in
  Ok (MapS [("train_time", t); ("smoothed_loss", VDict [])]%string ags).
(** mapolicy.py:268-277 with base.py:541-553: [learn] of every agent with data, then [update] sets the time; [learn] leaves the agents' own
    times at the default. *)
Definition manager_update (ags : list (agent * stats)) (g : aggregator) (elapsed : Qc) : res stats :=
  let* s := new_map ags g in setattr s "train_time"%string (VNum elapsed).

(** ** Smoothing and logging: trainer/base.py:578-604 *)
(** [self.stat]: a [defaultdict] of [MovAvg]s of size 100. *)
Notation averages := (list (string * movavg)).
Definition avg_of (st : averages) (k : string) : movavg := match getd k st with Some m => m | None => ma_init 100 end.
(** [MovAvg.add] of a number; a dict would be iterated over and its keys averaged (TypeError). *)
Definition to_num (v : val) : res num := match v with VNum q => Ok (VFin q) | VNaN => Ok (VNan false) | _ => Err TypeError end.
Fixpoint smooth (st : averages) (data : dict) : res (averages * list (string * option Qc)) :=
  match data with
  | [] => Ok (st, [])
  | (k, v) :: data =>
      let* x := to_num v in
      let m := ma_add (avg_of st k) [x] in
      let* r := smooth (putd k m st) data in
      Ok (fst r, (k, ma_get m) :: snd r) end.
(** [dataclasses.asdict]: the fields of the class, which for wrapper and manager are those of [TrainingStats]. *)
Definition asdict (s : stats) : dict :=
  match s with
  | Plain d => d
  | MapS d _ | Wrap d _ => flat_map (fun k => match getd k d with Some v => [(k, v)] | None => [] end) base_fields end.
(** The statistics after the step, and what is logged. *)
Definition log_update (st : averages) (s : stats) : res (averages * stats * dict) :=
  let* r := smooth st (loss_dict s) in
  let* s := setattr s "smoothed_loss"%string (VDict (snd r)) in
  Ok (fst r, s, asdict s).
Fixpoint log_updates (st : averages) (l : list stats) : res (averages * list dict) :=
  match l with
  | [] => Ok (st, [])
  | s :: l => let* r := log_update st s in let '(st, _, d) := r in let* q := log_updates st l in Ok (fst q, d :: snd q) end.

(** ** Times: trainer/utils.py:41-87, trainer/base.py:256-277, 674, 716, 755, data/collector.py:333, 399-401, 471-481, 1049-1050, 1344-1347 *)
(** A collector's counters; [c_async]: an [AsyncCollector], the only one that adds to [collect_time]. *)
Record coll := mkC { c_async : bool; c_time : Qc; c_step : nat; c_ep : nat }.
Record clock := mkK { k_now : Qc; k_start : Qc; k_upd : Qc; k_train : option coll; k_test : option coll }.
(** Collecting takes [d] seconds and yields steps and episodes. The smallest time 1e-9 that the asynchronous collector counts is left out. *)
Definition collect (c : coll) (d : Qc) (n e : nat) : coll := mkC (c_async c) (if c_async c then (c_time c + d)%Qc else c_time c) (c_step c + n) (c_ep c + e).
Definition reset_stat (c : coll) : coll := mkC (c_async c) 0 0 0.
(** [OReset]: [BaseTrainer.reset] with reset_collectors; [OPass]: anything else that takes time. *)
Inductive ev := OCollect (d : Qc) (n e : nat) | OTest (d : Qc) (n e : nat) | OUpdate (d : Qc) | OPass (d : Qc) | OReset.
Definition dur (o : ev) : Qc := match o with OCollect d _ _ | OTest d _ _ | OUpdate d | OPass d => d | OReset => 0%Qc end.
Definition tick (k : clock) (o : ev) : clock :=
  let now := (k_now k + dur o)%Qc in
  match o with
  | OCollect d n e => mkK now (k_start k) (k_upd k) (option_map (fun c => collect c d n e) (k_train k)) (k_test k)
  | OTest d n e => mkK now (k_start k) (k_upd k) (k_train k) (option_map (fun c => collect c d n e) (k_test k))
  | OUpdate d => mkK now (k_start k) (k_upd k + d)%Qc (k_train k) (k_test k)
  | OPass _ => mkK now (k_start k) (k_upd k) (k_train k) (k_test k)
  | OReset => mkK now now (k_upd k) (option_map reset_stat (k_train k)) (option_map reset_stat (k_test k)) end.
Record info := mkI { i_total : Qc; i_train : Qc; i_collect : Qc; i_update : Qc; i_testt : Qc; i_speed : Qc; i_tstep : nat; i_tep : nat; i_estep : nat; i_eep : nat }.
Definition gather_info (k : clock) : res info :=
  let duration := Qcmaxb 0 (k_now k - k_start k)%Qc in
  let test_time := match k_test k with Some c => c_time c | None => 0%Qc end in
  let* x := match k_train k with
            | None => Ok (0%Qc, 0%Qc)
            | Some c => if Qc_eq_dec (duration - test_time)%Qc 0 then Err ZeroDivisionError else Ok (c_time c, (sq (c_step c) / (duration - test_time))%Qc) end in
  let steps := fun o : option coll => match o with Some c => c_step c | None => 0 end in
  let eps := fun o : option coll => match o with Some c => c_ep c | None => 0 end in
  Ok (mkI duration (duration - test_time)%Qc (fst x) (k_upd k) test_time (snd x) (steps (k_train k)) (eps (k_train k)) (steps (k_test k)) (eps (k_test k))).

(** ** Rounding: utils/logging.py:4-17 *)
(** A value of the dict: a float or anything else. *)
Inductive pval (X : Type) := PFloat (q : Qc) | POther (x : X).
Arguments PFloat {X}. Arguments POther {X}.
(** [round(x)]: to the nearest integer, ties to the even one. *)
Definition round0 (q : Qc) : Z :=
  let f := Qfloor q in
  let r := (q - Q2Qc (inject_Z f))%Qc in
  let h := Q2Qc (1 # 2) in
  if Qcltb r h then f else if Qcltb h r then (f + 1)%Z else if Z.even f then f else (f + 1)%Z.
Definition ten (p : nat) : Qc := Q2Qc (inject_Z (10 ^ Z.of_nat p)).
Definition round_to (p : nat) (q : Qc) : Qc := (Q2Qc (inject_Z (round0 (q * ten p)%Qc)) / ten p)%Qc.
Definition to_precision {X} (p : nat) (d : list (string * pval X)) : list (string * pval X) :=
  map (fun kv => (fst kv, match snd kv with PFloat q => PFloat (round_to p q) | POther x => POther x end)) d.
