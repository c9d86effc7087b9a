(** * Model of the logger's rate limiting and checkpoint counters

    [tianshou/utils/logger/base.py] and [tianshou/utils/logger/tensorboard.py]. *)
From Verif Require Export Py.
Open Scope Z_scope.

(** base.py:17-21: the data scopes with a counter; base.py:51-54: one "last step" per scope. *)
Inductive scope : Type := Train | Test | Update | Info.
Definition scope_eqb (a b : scope) : bool :=
  match a, b with Train, Train | Test, Test | Update, Update | Info, Info => true | _, _ => false end.

(** Tags of the scalars in the event file that matter here: a scope's step scalar
    (base.py:84, 96, 108, 121) and the three save tags (tensorboard.py:115-121). *)
Inductive tag : Type := TScope (s : scope) | TSaveEpoch | TSaveEnv | TSaveGrad.
Definition tag_eqb (a b : tag) : bool :=
  match a, b with
  | TScope x, TScope y => scope_eqb x y
  | TSaveEpoch, TSaveEpoch | TSaveEnv, TSaveEnv | TSaveGrad, TSaveGrad => true
  | _, _ => false
  end.

(** The event file: (tag, global_step) in writing order; the values are left out. *)
Definition events := list (tag * Z).
Definition items (ev : events) (t : tag) : list Z := map snd (filter (fun e => tag_eqb (fst e) t) ev).

(** The logger's counters; [interval] are the constructor arguments. *)
Record logger : Type := mkL { last : scope -> Z; last_save : Z }.
Record intervals : Type := mkI { interval : scope -> Z; save_interval : Z }.
(** base.py:51-54, tensorboard.py:44. *)
Definition new_logger : logger := mkL (fun _ => -1) (-1).
Definition set_last (l : logger) (s : scope) (x : Z) : logger :=
  mkL (fun t => if scope_eqb t s then x else last l t) (last_save l).

(** base.py:74-121, the four log_*_data methods (same code, one counter each). *)
Definition log_data (iv : intervals) (s : scope) (st : logger * events) (step : Z) : logger * events :=
  let '(l, ev) := st in
  if step - last l s >=? interval iv s
  then (set_last l s step, ev ++ [(TScope s, step)])
  else (l, ev).

(** tensorboard.py:105-122 with a checkpoint function that returns normally ([ck = false]: no
    function given). *)
Definition save_data (iv : intervals) (st : logger * events) (ck : bool) (epoch env_step gradient_step : Z) : logger * events :=
  let '(l, ev) := st in
  if ck && (epoch - last_save l >=? save_interval iv)
  then (mkL (last l) epoch, ev ++ [(TSaveEpoch, epoch); (TSaveEnv, env_step); (TSaveGrad, gradient_step)])
  else (l, ev).

(** [ea.scalars.Items(tag)[-1].step]; an unknown tag raises KeyError. *)
Definition last_item (ev : events) (t : tag) : res Z :=
  match rev (items ev t) with [] => Err KeyError | x :: _ => Ok x end.

(** tensorboard.py:124-142. *)
Definition restore_data (l : logger) (ev : events) : logger * (Z * Z * Z) :=
  let '(l, (epoch, gradient_step)) :=
    match last_item ev TSaveEpoch with
    | Err _ => (l, (0, 0))
    | Ok epoch =>
        let l := set_last (mkL (last l) epoch) Test epoch in
        match last_item ev TSaveGrad with
        | Err _ => (l, (0, 0))
        | Ok g => (set_last l Update g, (epoch, g))
        end
    end in
  match last_item ev TSaveEnv with
  | Err _ => (l, (epoch, 0, gradient_step))
  | Ok e => (set_last l Train e, (epoch, e, gradient_step))
  end.

(** A new logger on an empty event file. *)
Definition start : logger * events := (new_logger, []).
(** A run: log calls of any scope and save calls, in any order. *)
Inductive lop : Type := OLog (s : scope) (step : Z) | OSave (ck : bool) (epoch env_step gradient_step : Z).
Definition lstep (iv : intervals) (st : logger * events) (o : lop) : logger * events :=
  match o with
  | OLog s x => log_data iv s st x
  | OSave ck e n g => save_data iv st ck e n g
  end.
Definition lrun (iv : intervals) (ops : list lop) (st : logger * events) : logger * events := fold_left (lstep iv) ops st.
