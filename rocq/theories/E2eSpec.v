(** * Specification of the targets of one update, on the trajectories of the environments. *)
From Verif Require Export CollectSpec ReturnsSpec E2eModel.
Open Scope nat_scope.

Section Targets.
Context {Ob A Inf : Type}.
Notation trans := (trans Ob A Inf Qc).

Definition is_nil {T} (l : list T) : bool := match l with [] => true | _ => false end.
(** Non-empty suffixes, longest first. *)
Fixpoint suffixes {T} (l : list T) : list (list T) :=
  match l with [] => [] | _ :: r => l :: suffixes r end.

(** The observation that stands for the state after [t], when [rest] was recorded after it: the one
    the environment returned; if next observations are not saved, at the end of an episode and at the
    newest step it is the observation before the step. *)
Definition seen_next (saved : bool) (t : trans) (rest : list trans) : Ob :=
  if saved || negb (ends t || is_nil rest) then t_obs_next t else t_obs t.

Section Value.
Variable W : trans -> list trans -> Qc.       (* value of the state after a step *)
Variable gamma : Qc.
(** [N]-step target of the first step of a trajectory: never past the end of the episode or the
    newest step; nothing is added after a terminal step. *)
Fixpoint n_step (N : nat) (ts : list trans) : Qc :=
  match ts with
  | [] => 0%Qc
  | t :: rest =>
      (t_rew t + gamma * (if t_term t then 0
                          else if t_trunc t || is_nil rest then W t rest
                          else match N with S (S N' as N1) => n_step N1 rest | _ => W t rest end))%Qc
  end.
(** TD(lambda) target of the first step of a trajectory. *)
Fixpoint td_lambda (lam : Qc) (ts : list trans) : Qc :=
  match ts with
  | [] => 0%Qc
  | t :: rest =>
      (t_rew t + gamma * (if t_term t then 0
                          else if t_trunc t || is_nil rest then W t rest
                          else (1 - lam) * W t rest + lam * td_lambda lam rest))%Qc
  end.
End Value.
End Targets.

Section Trajectories.
Context {Ob A B Inf H ES PS : Type}.
Variable last_frame : Ob -> Ob.
Variable o : opts.
Variable estep : nat -> ES -> B -> ES * sres Ob Inf Qc.
Variable ereset : nat -> ES -> ES * (Ob * Inf).

(** The row that a batch has for the transition [t], followed by [rest]. *)
Definition row_of (t : trans Ob A Inf Qc) (rest : list (trans Ob A Inf Qc)) : row_out Ob A Inf Qc :=
  mkOut [Some (t_obs t)] (Some (kept last_frame o t)) [Some (seen_next (save_obs_next o) t rest)] [Some (t_info t)].
Definition row_at (ts : list (trans Ob A Inf Qc)) : list (row_out Ob A Inf Qc) :=
  match ts with [] => [] | t :: rest => [row_of t rest] end.

(** What environment [e] does from the state of the collector [c] on when it gets the actions that
    the policy answered for it in [calls]. *)
Definition trajectory (c : coll Ob A Inf Qc H ES PS) (calls : list (list nat * list Ob * list (A * B))) (e : nat) : list (trans Ob A Inf Qc) :=
  match nth_error (c_envs c) e, pre_obs c e with
  | Some s, Some ob => solo estep ereset e s ob (answered e calls)
  | _, _ => []
  end.
(** The part of it that fits in the sub-buffer. *)
Definition newest (ns : list nat) (c : coll Ob A Inf Qc H ES PS) (calls : list (list nat * list Ob * list (A * B))) (e : nat) : list (trans Ob A Inf Qc) :=
  lastn (nth e ns 0) (trajectory c calls e).
End Trajectories.

(** Any number of calls that ask for steps, or one call. *)
Definition one_stream (ts : list target) : Prop := (forall t, In t ts -> exists n, t = Steps n) \/ exists t, ts = [t].

(** The episode of the first step ends with a terminal step. *)
Fixpoint terminates {Ob A Inf} (ts : list (trans Ob A Inf Qc)) : bool :=
  match ts with [] => false | t :: rest => t_term t || negb (t_trunc t) && terminates rest end.

(** Discounted sum of the rewards up to the end of the episode; [mean] stands for what comes after a
    step that is not terminal but is the last one of its episode. *)
Fixpoint to_go {Ob A Inf} (mean gamma : Qc) (ts : list (trans Ob A Inf Qc)) : Qc :=
  match ts with
  | [] => mean
  | t :: rest => (t_rew t + gamma * (if t_term t then 0 else if t_trunc t then mean else to_go mean gamma rest))%Qc
  end.

(** ** A small instance: an environment that counts its steps, ends the episode at the third one (a
    truncation in environment 0, a terminal state in the others) and rewards with the step number. *)
Definition count_step (e : nat) (s : nat) (b : unit) : nat * sres nat unit Qc :=
  let t := S s in (t, mkSres t (Q2Qc (inject_Z (Z.of_nat t))) ((t =? 3) && negb (e =? 0)) ((t =? 3) && (e =? 0)) tt).
Definition count_reset (e : nat) (s : nat) : nat * (nat * unit) := (0, (0, tt)).
Definition count_act (p : unit) (ids obs : list nat) (inf : list unit) (hid : option (list unit)) : unit * (list (unit * unit) * option (list unit)) :=
  (tt, (map (fun _ => (tt, tt)) obs, None)).
Definition count_opts (saved : bool) : opts := mkOpts 1 saved false false.
Definition count_collect (saved : bool) := collect 0%Qc Qcplus (fun x : nat => x) (count_opts saved) count_step count_reset count_act (fun _ h => h) (fun _ => false).
Definition count_coll (n N : nat) : coll nat unit unit Qc unit nat unit :=
  mkColl (repeat 0 N) (m_init 0%Qc (repeat n N)) tt (Some (repeat 0 N, repeat tt N)) None 0 0.
Definition count_ok (saved : bool) := @coll_ok nat unit unit Qc unit nat unit 0%Qc Qcplus (fun x => x) (count_opts saved).
(** A critic: ten times the observation. *)
Definition count_value (l : list (option nat)) : Qc := match l with [Some n] => Q2Qc (inject_Z (10 * Z.of_nat n)) | _ => 0%Qc end.
