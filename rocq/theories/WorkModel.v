(** * Model of the workers' side of vector environments: env/worker/{base, dummy, subproc}.py with shared memory, env/venv_wrappers.py,
      env/pettingzoo_env.py and utils/space_info.py

    Processes and pipes: a worker process answers requests one after the other (the queues are in VenvModel.v). Names are numbers. *)
From Verif Require Export Py Num StatModel.
Open Scope nat_scope.

(** ** Arrays *)
(** Types of numbers with their sizes in bits; [DOther]: any type without an entry in [_NP_TO_CT]. *)
Inductive dt := DBool | DUInt (bits : nat) | DInt (bits : nat) | DFloat (bits : nat) | DOther.
(** subproc.py:18-30 [_NP_TO_CT]. *)
Definition supported (d : dt) : bool :=
  match d with
  | DBool => true
  | DUInt n | DInt n => existsb (Nat.eqb n) [8; 16; 32; 64]
  | DFloat n => existsb (Nat.eqb n) [32; 64]
  | DOther => false end.
(** [np.can_cast(…, casting="same_kind")]: to the same kind or a wider one. *)
Definition rank (d : dt) : nat := match d with DBool => 0 | DUInt _ => 1 | DInt _ => 2 | DFloat _ => 3 | DOther => 4 end.
Definition can_cast (from to : dt) : bool := rank from <=? rank to.
Definition size (s : list nat) : nat := fold_right Nat.mul 1 s.

Section Work.
(** [V]: numbers; [conv from to]: conversion between types. *)
Context {V : Type}.
Variable v0 : V.
Variable conv : dt -> dt -> V -> V.
Record nd := mkNd { n_dt : dt; n_shape : list nat; n_data : list V }.
Fixpoint rows_of (n w : nat) (l : list V) : list (list V) := match n with 0 => [] | S n => firstn w l :: rows_of n w (skipn w l) end.
(** Broadcasting of data of shape [src] to shape [dst], of as many axes. *)
Fixpoint bcast (dst src : list nat) (data : list V) : res (list V) :=
  match dst, src with
  | [], [] => Ok data
  | m :: dst, n :: src =>
      if n =? m then let* l := mapM (bcast dst src) (rows_of n (size src) data) in Ok (concat l)
      else if n =? 1 then let* r := bcast dst src data in Ok (concat (repeat r m))
      else Err ValueError
  | _, _ => Err ValueError end.
(** Leading axes of length 1 are added or dropped. *)
Fixpoint drop1 (k : nat) (s : list nat) : list nat := match k, s with S k, 1 :: s => drop1 k s | _, _ => s end.
Definition align (dst src : list nat) : list nat := repeat 1 (length dst - length src) ++ drop1 (length src - length dst) src.
(** [np.copyto(dst, src)]. *)
Definition copyto (d : dt) (shape : list nat) (a : nd) : res (list V) :=
  guard (can_cast (n_dt a) d) TypeError (bcast shape (align shape (n_shape a)) (map (conv (n_dt a) d) (n_data a))).

(** ** Observations through shared memory *)
Inductive space := SArr (d : dt) (shape : list nat) | STup (l : list space) | SDic (l : list (nat * space)).
(** [OScalar]: a Python or numpy number (what environments with a [Discrete] observation space return); [OList]: a list. *)
Inductive obs := OArr (a : nd) | OScalar (v : V) | OTuple (l : list obs) | ODict (l : list (nat * obs)) | OList (l : list obs).
Inductive buf := BArr (d : dt) (shape : list nat) (data : list V) | BTuple (l : list buf) | BDict (l : list (nat * buf)).
Fixpoint lookup {A} (k : nat) (l : list (nat * A)) : option A := match l with [] => None | (j, a) :: l => if j =? k then Some a else lookup k l end.
Fixpoint replace {A} (k : nat) (a : A) (l : list (nat * A)) : list (nat * A) :=
  match l with [] => [] | (j, b) :: l => if j =? k then (j, a) :: l else (j, b) :: replace k a l end.
(** subproc.py:50-55, 68-74: [ShArray] and [_setup_buf]; the memory is zeroed. *)
Fixpoint setup_buf (s : space) : res buf :=
  match s with
  | SArr d sh => guard (supported d) KeyError (Ok (BArr d sh (repeat v0 (size sh))))
  | STup l => let* m := (fix go l := match l with [] => Ok [] | s :: l => let* b := setup_buf s in let* r := go l in Ok (b :: r) end) l in Ok (BTuple m)
  | SDic l => let* m := (fix go l := match l with [] => Ok [] | (k, s) :: l => let* b := setup_buf s in let* r := go l in Ok ((k, b) :: r) end) l in Ok (BDict m)
  end.
(** subproc.py:83-94 [_encode_obs]: nothing happens if observation and buffer are of different kinds. *)
Fixpoint encode (o : obs) (b : buf) : res buf :=
  match o, b with
  | OArr a, BArr d s _ => let* x := copyto d s a in Ok (BArr d s x)
  | OTuple l, BTuple m =>
      let* m' := (fix go l m := match l, m with
        | [], [] => Ok []
        | o :: l, b :: m => let* b := encode o b in let* r := go l m in Ok (b :: r)
        | _, _ => Err ValueError end) l m in Ok (BTuple m')
  | ODict l, BDict m =>
      let* m' := (fix go l m := match l with
        | [] => Ok m
        | (k, o) :: l => match lookup k m with None => Err KeyError | Some b => let* b := encode o b in go l (replace k b m) end end) l m in Ok (BDict m')
  | _, _ => Ok b end.
(** subproc.py:180-192 [_decode_obs]. *)
Fixpoint decode (b : buf) : obs :=
  match b with
  | BArr d s x => OArr (mkNd d s x)
  | BTuple l => OTuple (map decode l)
  | BDict l => ODict (map (fun x => (fst x, decode (snd x))) l) end.

(** ** Workers *)
(** An environment: [A] actions, [X] the rest of a step's result, [Info] of a reset's, [At] attribute values, [Rg] states of the generator of an
    action space. It has its own action space but does not draw from it. A missing [render] or [seed] is [None]. *)
Context {E A X Info At Rg : Type}.
Variable e_step : E -> A -> E * (obs * X).
Variable e_reset : E -> option (option Z) -> E * (obs * Info).
Variable e_render : option (E -> E * At).
Variable e_seed : option (E -> option Z -> E * At).
Variable e_get : E -> nat -> option At.
Variable e_set : E -> nat -> At -> E.
Variable seed_rg : option Z -> Rg -> Rg.
Variable draw : Rg -> Rg * A.
(** [WReset]: the worker's [reset]; [WSendReset]: [send(None, …)] and [recv()], which is what the vector environment's [reset] does. The keyword
    argument [seed] may be absent. [WSample]: drawing from the worker's [action_space]. *)
Inductive wop := WReset (seed : option (option Z)) | WSendReset (seed : option (option Z)) | WStep (a : A) | WRender | WGet (k : nat) | WSet (k : nat) (v : At)
  | WSeed (s : option Z) | WSample.
Inductive out := RStep (o : obs) (x : X) | RReset (o : obs) (i : Info) | RVal (v : At) | RNone | RSeeds (l : list (option Z)) | RAct (a : A).
(** dummy.py:10-55; [d_space] is the action space of environment and worker, one object. *)
Record dummy := mkD { d_env : E; d_space : Rg }.
Definition on_space (seed : option (option Z)) (g : Rg) : Rg := match seed with Some s => seed_rg s g | None => g end.
Definition dummy_op (w : dummy) (o : wop) : dummy * res out :=
  match o with
  | WReset seed => let '(e, (b, i)) := e_reset (d_env w) seed in (mkD e (on_space seed (d_space w)), Ok (RReset b i))
  | WSendReset seed => let '(e, (b, i)) := e_reset (d_env w) seed in (mkD e (d_space w), Ok (RReset b i))
  | WStep a => let '(e, (b, x)) := e_step (d_env w) a in (mkD e (d_space w), Ok (RStep b x))
  | WRender => match e_render with Some f => let '(e, v) := f (d_env w) in (mkD e (d_space w), Ok (RVal v)) | None => (w, Err AttributeError) end
  | WGet k => (w, match e_get (d_env w) k with Some v => Ok (RVal v) | None => Err AttributeError end)
  | WSet k v => (mkD (e_set (d_env w) k v) (d_space w), Ok RNone)
  | WSeed s =>
      let g := seed_rg s (d_space w) in
      match e_seed with
      | Some f => let '(e, v) := f (d_env w) s in (mkD e g, Ok (RVal v))
      | None => (mkD (fst (e_reset (d_env w) (Some s))) g, Ok (RSeeds [s])) end
  | WSample => let '(g, a) := draw (d_space w) in (mkD (d_env w) g, Ok (RAct a)) end.
(** subproc.py:77-138, 173-178, 214-274; [p_space]: the worker's copy of the action space, [c_space]: that of the environment in the other process;
    [p_buf]: the shared memory, if it is used. A process in which an exception was raised is gone ([p_dead]); reading from its pipe raises
    EOFError, written as a RuntimeError. *)
Record proc := mkP { p_env : E; c_space : Rg; p_space : Rg; p_buf : option buf; p_dead : bool }.
Definition put_obs (p : proc) (e : E) (b : obs) (k : obs -> out) : proc * res out :=
  match p_buf p with
  | None => (mkP e (c_space p) (p_space p) None false, Ok (k b))
  | Some m =>
      match encode b m with
      | Ok m' => (mkP e (c_space p) (p_space p) (Some m') false, Ok (k (decode m')))
      | Err _ => (mkP e (c_space p) (p_space p) (Some m) true, Err RuntimeError) end
  end.
Definition with_space (p : proc) (seed : option (option Z)) : proc := mkP (p_env p) (c_space p) (on_space seed (p_space p)) (p_buf p) (p_dead p).
Definition proc_op (p : proc) (o : wop) : proc * res out :=
  match o with
  | WSample => let '(g, a) := draw (p_space p) in (mkP (p_env p) (c_space p) g (p_buf p) (p_dead p), Ok (RAct a))
  | _ =>
    if p_dead p then (p, Err RuntimeError) else
    match o with
    | WReset seed | WSendReset seed => let '(e, (b, i)) := e_reset (p_env p) seed in put_obs (with_space p seed) e b (fun b => RReset b i)
    | WStep a => let '(e, (b, x)) := e_step (p_env p) a in put_obs p e b (fun b => RStep b x)
    | WRender => match e_render with Some f => let '(e, v) := f (p_env p) in (mkP e (c_space p) (p_space p) (p_buf p) false, Ok (RVal v)) | None => (p, Ok RNone) end
    | WGet k => (p, Ok (match e_get (p_env p) k with Some v => RVal v | None => RNone end))
    | WSet k v => (mkP (e_set (p_env p) k v) (c_space p) (p_space p) (p_buf p) false, Ok RNone)
    | WSeed s =>
        let g := seed_rg s (p_space p) in
        match e_seed with
        | Some f => let '(e, v) := f (p_env p) s in (mkP e (c_space p) g (p_buf p) false, Ok (RVal v))
        | None => (mkP (fst (e_reset (p_env p) (Some s))) (seed_rg s (c_space p)) g (p_buf p) false, Ok RNone) end
    | WSample => (p, Err RuntimeError) end
  end.
Fixpoint dummy_run (w : dummy) (l : list wop) : dummy * list (res out) :=
  match l with [] => (w, []) | o :: l => let '(w, r) := dummy_op w o in let '(w, rs) := dummy_run w l in (w, r :: rs) end.
Fixpoint proc_run (p : proc) (l : list wop) : proc * list (res out) :=
  match l with [] => (p, []) | o :: l => let '(p, r) := proc_op p o in let '(p, rs) := proc_run p l in (p, r :: rs) end.
(** A new worker (subproc.py:144-171); the parent's action space is sent by the child. *)
Definition new_proc (share : option space) (e : E) (g : Rg) : res proc :=
  match share with
  | None => Ok (mkP e g g None false)
  | Some s => let* b := setup_buf s in Ok (mkP e g g (Some b) false) end.
Definition new_dummy (e : E) (g : Rg) : dummy := mkD e g.

(** ** What the caller of a vector environment keeps *)
(** [ShArray.get] (subproc.py:63-65) returns a view of the shared memory. venvs.py:229-232, 312-315: [np.stack] copies arrays; dictionaries become
    entries of an array of objects, which still refer to the memory of worker [i]. *)
Inductive ret := Kept (o : obs) | View (i : nat).
Definition returned (i : nat) (b : buf) : ret := match b with BDict _ => View i | _ => Kept (decode b) end.
Definition read (mem : list buf) (r : ret) : option obs := match r with Kept o => Some o | View i => option_map decode (nth_error mem i) end.
(** Steps of the workers [i] whose environments answer with [o]. *)
Fixpoint shm_run (mem : list buf) (l : list (nat * obs)) : res (list buf * list ret) :=
  match l with
  | [] => Ok (mem, [])
  | (i, o) :: l =>
      match nth_error mem i with
      | None => Err IndexError
      | Some b => let* b' := encode o b in let* x := shm_run (upd mem i b') l in Ok (fst x, returned i b' :: snd x) end
  end.
(** data/collector.py:825-867, 903, 932-935, 989 for one environment: the loop keeps [last_obs_RO] across the step and then builds
    [Batch(obs=last_obs_RO, obs_next=obs_next_RO)], which is where both are read. A step answers [fst], and if the episode is over the
    environment is reset and answers [snd]. The result: the observations of the stored transitions. *)
Fixpoint collect_shm (b : buf) (last : ret) (l : list (obs * option obs)) : res (list (option obs * option obs)) :=
  match l with
  | [] => Ok []
  | (o, again) :: l =>
      let* b1 := encode o b in
      let next := returned 0 b1 in
      let stored := (read [b1] last, read [b1] next) in
      let* b2 := match again with Some o' => encode o' b1 | None => Ok b1 end in
      let* r := collect_shm b2 (match again with Some _ => returned 0 b2 | None => next end) l in Ok (stored :: r) end.
(** With the reset before. *)
Definition collect_from (b : buf) (first : obs) (l : list (obs * option obs)) : res (list (option obs * option obs)) :=
  let* b := encode first b in collect_shm b (returned 0 b) l.
End Work.
Arguments nd : clear implicits. Arguments obs : clear implicits. Arguments buf : clear implicits. Arguments ret : clear implicits.

(** ** VectorEnvNormObs (venv_wrappers.py:69-120) *)
(** The observations of a call: one row of features per environment, or an array of dictionaries. *)
Inductive raw := Rows (l : list (list Qc)) | Dicts (n : nat).
Definition column (j : nat) (l : list (list Qc)) : list Qc := map (fun r => nth j r 0%Qc) l.
(** One [RunningMeanStd] per feature (the array operations of statistics.py are elementwise); [d] features. *)
Fixpoint rms_cols (j : nat) (rs : list rms) (data : list (list Qc)) : res (list rms) :=
  match rs with [] => Ok [] | r :: rs => let* r := rms_update r (column j data) in let* rs := rms_cols (S j) rs data in Ok (r :: rs) end.
Section Norm.
Variable sqrt : Qc -> Qc.
Variable eps : Qc.
Variable clip : option Qc.
Definition norm_row (rs : list rms) (row : list Qc) : list Qc := map (fun x => rms_norm sqrt eps clip (fst x) (snd x)) (combine rs row).
(** [S]: the state of the wrapped environment, which answers requests [Q] with observations and the rest. The statistics are objects in memory
    [h], at address [n_rms]; [None]: [set_obs_rms(None)]. *)
Record norm := mkN { n_update : bool; n_rms : option nat }.
(** venv_wrappers.py:81-112 [reset], [step] and [_norm_obs]; numpy arithmetic on dictionaries raises a TypeError. *)
Definition norm_call (w : norm) (h : list (list rms)) (o : raw) : res (raw * list (list rms)) :=
  match n_rms w with
  | None => Ok (o, h)
  | Some a =>
      match o with
      | Dicts _ => Err TypeError
      | Rows l =>
          let* h := if n_update w then let* r := rms_cols 0 (nth a h []) l in Ok (upd h a r) else Ok h in
          Ok (Rows (map (norm_row (nth a h [])) l), h) end
  end.
(** Two wrappers, for training and for testing, called in any order ([true]: the first). *)
Fixpoint norm_run (ws : norm * norm) (h : list (list rms)) (l : list (bool * raw)) : res (list raw * list (list rms)) :=
  match l with
  | [] => Ok ([], h)
  | (b, o) :: l =>
      let* x := norm_call (if b : bool then fst ws else snd ws) h o in
      let* y := norm_run ws (snd x) l in Ok (fst x :: fst y, snd y) end.
End Norm.

(** ** VectorEnvWrapper (venv_wrappers.py:11-66) *)
(** Names that code asks a vector environment for: fields, keys of [GYM_RESERVED_KEYS], and methods. *)
Inductive attr := AReserved | AMethod | AIsAsync | AVenv | AEnvFns | AWorkers | AWorkerClass | AEnvNum | AWaitNum | ATimeout | AWaitingConn | AWaitingId | AReadyId | AIsClosed.
(** A vector environment of some workers, asynchronous or not, in any number of wrappers. *)
Inductive venv := VBase (num : nat) (async : bool) | VWrap (v : venv).
(** venvs.py:76-109, venv_wrappers.py:18-20: what [__init__] sets. The wrapper does not call that of its superclass. *)
Definition own (v : venv) (a : attr) : bool :=
  match v, a with
  | _, (AReserved | AMethod) => false
  | VBase _ _, AVenv => false
  | VBase _ _, _ => true
  | VWrap _, (AVenv | AIsAsync) => true
  | VWrap _, _ => false end.
(** What an attribute is: the answers of that many workers, a bound method, or a field of this environment. *)
Inductive found := Workers (n : nat) | Method (v : venv) | Field (v : venv).
(** venvs.py:120-129, venv_wrappers.py:25-28 [__getattribute__]. *)
Fixpoint getattr (v : venv) (a : attr) : res found :=
  match a with
  | AReserved => match v with VBase n _ => Ok (Workers n) | VWrap v => getattr v a end
  | AMethod => Ok (Method v)
  | _ => if own v a then Ok (Field v) else Err AttributeError end.
Fixpoint is_async (v : venv) : bool := match v with VBase _ b => b | VWrap v => is_async v end.
(** venvs.py:116-118, venv_wrappers.py:22-23. *)
Fixpoint venv_len (v : venv) : nat := match v with VBase n _ => n | VWrap v => venv_len v end.
(** data/collector.py:1152-1160 [AsyncCollector.reset_env] starts by asking for [waiting_id]. *)
Definition async_reset_env (v : venv) : res found := let* _ := getattr v AWaitingId in getattr v AMethod.

(** ** PettingZooEnv (pettingzoo_env.py:20-132) *)
Section Zoo.
(** An AEC environment: the selected agent, what [last] says about it ([O]: observation, with the mask if it has one; termination and
    truncation), and the rewards of the agents still alive. [A]: actions. *)
Context {E A O : Type}.
Variable z_step : E -> A -> E.
Variable z_reset : E -> E.
Variable z_sel : E -> nat.
Variable z_last : E -> O * option (list Z) * bool * bool.
Variable z_rewards : E -> list (nat * Z).
(** [discrete]: the number of actions, for a [Discrete] action space. *)
Variable discrete : option nat.
Record zoo := mkZ { z_env : E; z_agents : list nat; z_rew : list Z }.
(** pettingzoo_env.py:42-44 [agent_idx]: of equal names the last counts. *)
Fixpoint agent_idx (l : list nat) (i : nat) (a : nat) : option nat :=
  match l with [] => None | b :: l => match agent_idx l (S i) a with Some j => Some j | None => if b =? a then Some i else None end end.
Record zobs := mkZo { zo_agent : nat; zo_obs : O; zo_mask : option (list bool) }.
(** pettingzoo_env.py:74-95, 100-116. *)
Definition observe (e : E) : zobs :=
  let '(o, m, _, _) := z_last e in
  mkZo (z_sel e) o (match m with Some m => Some (map (fun x => Z.eqb x 1) m) | None => option_map (fun n => repeat true n) discrete end).
Fixpoint set_rewards (agents : list nat) (rs : list (nat * Z)) (rew : list Z) : res (list Z) :=
  match rs with
  | [] => Ok rew
  | (a, r) :: rs => match agent_idx agents 0 a with None => Err KeyError | Some i => set_rewards agents rs (upd rew i r) end end.
Inductive zop := ZReset | ZStep (a : A).
Definition zoo_init (e : E) (agents : list nat) : zoo := mkZ (z_reset e) agents (repeat 0%Z (length agents)).
Definition zoo_reset (z : zoo) : zoo * zobs := let e := z_reset (z_env z) in (mkZ e (z_agents z) (z_rew z), observe e).
(** pettingzoo_env.py:97-120: observation, rewards, termination, truncation. *)
Definition zoo_step (z : zoo) (a : A) : res (zoo * (zobs * list Z * bool * bool)) :=
  let e := z_step (z_env z) a in
  let '(_, _, term, trunc) := z_last e in
  let* rew := set_rewards (z_agents z) (z_rewards e) (z_rew z) in
  Ok (mkZ e (z_agents z) rew, (observe e, rew, term, trunc)).
Fixpoint zoo_run (z : zoo) (l : list zop) : res (zoo * list E) :=
  match l with
  | [] => Ok (z, [])
  | ZReset :: l => zoo_run (fst (zoo_reset z)) l
  | ZStep a :: l => let* x := zoo_step z a in let* y := zoo_run (fst x) l in Ok (fst y, z_env (fst x) :: snd y) end.
End Zoo.

(** ** SpaceInfo (utils/space_info.py:11-112) *)
Inductive gspace := GBox (shape : list nat) (low high : list Qc) | GDiscrete (start : Z) (n : nat) | GOther.
Inductive shp := ShInt (n : nat) | ShTuple (l : list nat).
Record action_info := mkAI { ai_shape : shp; ai_min : Qc; ai_max : Qc }.
Definition shp_dim (s : shp) : nat := match s with ShInt n => n | ShTuple l => size l end.
Fixpoint qmin (x : Qc) (l : list Qc) : Qc := match l with [] => x | y :: l => qmin (Qcminb x y) l end.
Fixpoint qmax (x : Qc) (l : list Qc) : Qc := match l with [] => x | y :: l => qmax (Qcmaxb x y) l end.
Definition qz (z : Z) : Qc := Q2Qc (inject_Z z).
(** space_info.py:30-48; [np.min] of an empty array raises a ValueError. *)
Definition action_from (s : gspace) : res action_info :=
  match s with
  | GBox sh (x :: low) (y :: high) => Ok (mkAI (ShTuple sh) (qmin x low) (qmax y high))
  | GBox _ _ _ => Err ValueError
  | GDiscrete st n => Ok (mkAI (ShInt n) (qz st) (qz (st + Z.of_nat n - 1)))
  | GOther => Err ValueError end.
(** space_info.py:69-83. *)
Definition obs_from (s : gspace) : res shp :=
  match s with GBox sh _ _ => Ok (ShTuple sh) | GDiscrete _ n => Ok (ShInt n) | GOther => Err ValueError end.
