(** * Specification of hindsight relabelling *)
From Verif Require Export Py BufferModel BufferSpec HerModel.
Open Scope nat_scope.

Section HerSpec.
Context {Ob0 G A Inf R : Type}.
Variable r0 : R.
Variable radd : R -> R -> R.
Variable last_frame : gobs Ob0 G -> gobs Ob0 G.
Variable rew_fn : G -> G -> R.
Notation trans := (trans (gobs Ob0 G) A Inf R).
Notation slot := (slot (gobs Ob0 G) A Inf R).
Notation buf := (buf (gobs Ob0 G) A Inf R).
Notation her := (her Ob0 G A Inf R).

Inductive hop : Type :=
| HAdd (t : trans) | HReset (keep : bool) | HUpdate (src : buf)
| HSample (rnd : nat -> nat) (bs : option Z) (horizon : nat) (offs : nat -> nat) (hsel : nat -> bool).

(** What a call returns. *)
Inductive hout : Type := RAdd (r : nat * R * nat * nat) | RNone | RIdx (l : list nat).

Fixpoint h_run (o : opts) (h : her) (ops : list hop) : res (her * list hout) :=
  match ops with
  | [] => Ok (h, [])
  | HAdd t :: ops => let* x := h_add r0 radd last_frame o h t in
                     let* y := h_run o (fst x) ops in Ok (fst y, RAdd (snd x) :: snd y)
  | HReset keep :: ops => let* y := h_run o (h_reset r0 keep h) ops in Ok (fst y, RNone :: snd y)
  | HUpdate src :: ops => let* x := h_update h src in
                          let* y := h_run o (fst x) ops in Ok (fst y, RIdx (snd x) :: snd y)
  | HSample rnd bs hz offs hsel :: ops =>
      let* x := h_sample rew_fn o h rnd bs hz offs hsel in
      let* y := h_run o (fst x) ops in Ok (fst y, RIdx (snd x) :: snd y)
  end.

(** The same calls on a plain ReplayBuffer. *)
Fixpoint plain_run (o : opts) (b : buf) (ops : list hop) : res (buf * list hout) :=
  match ops with
  | [] => Ok (b, [])
  | HAdd t :: ops => let* x := add r0 radd last_frame o b t in
                     let* y := plain_run o (fst x) ops in Ok (fst y, RAdd (snd x) :: snd y)
  | HReset keep :: ops => let* y := plain_run o (buf_reset r0 keep b) ops in Ok (fst y, RNone :: snd y)
  | HUpdate src :: ops => let* x := update b src in
                          let* y := plain_run o (fst x) ops in Ok (fst y, RIdx (snd x) :: snd y)
  | HSample rnd bs _ _ _ :: ops =>
      let* l := sample_indices o b rnd bs in
      let* y := plain_run o b ops in Ok (fst y, RIdx l :: snd y)
  end.

(** A source of [update] is a reachable buffer. *)
Definition hop_ok (o : opts) (op : hop) : Prop :=
  match op with
  | HUpdate src => exists n q, 0 < n /\ reach r0 radd last_frame o n src q
  | _ => True
  end.

(** Everything a relabelling must leave alone. *)
Definition same_but_goal (x y : slot) : Prop :=
  s_act x = s_act y /\ s_term x = s_term y /\ s_trunc x = s_trunc y /\ s_done x = s_done y
  /\ s_info x = s_info y /\ g_in (s_obs x) = g_in (s_obs y) /\ g_ach (s_obs x) = g_ach (s_obs y)
  /\ option_map g_in (s_obs_next x) = option_map g_in (s_obs_next y)
  /\ option_map g_ach (s_obs_next x) = option_map g_ach (s_obs_next y).

(** The goal that position [f] of the queue achieved (None: position [f] does not exist). *)
Definition achieved (o : opts) (q : list slot) (f : nat) : option G :=
  if save_obs_next o
  then match nth_error q f with Some s => option_map g_ach (s_obs_next s) | None => None end
  else option_map (fun s => g_ach (s_obs s)) (nth_error q (succ_of q f)).

(** Position [x] relabelled with goal [g]: the goal of obs (and obs_next) becomes [g]; the
    reward is computed with the new goal when obs_next is stored.  Without stored obs_next it is
    computed with the goal found in the observation of the next row. *)
Definition relabelled (o : opts) (q : list slot) (x : nat) (g : G) (s : slot) : slot :=
  {| s_obs := mkG (g_in (s_obs s)) (g_ach (s_obs s)) g;
     s_act := s_act s;
     s_rew := if save_obs_next o
              then match s_obs_next s with Some ob => rew_fn (g_ach ob) g | None => s_rew s end
              else match nth_error q (succ_of q x) with
                   | Some sn => rew_fn (g_ach (s_obs sn)) (g_des (s_obs sn)) | None => s_rew s end;
     s_term := s_term s; s_trunc := s_trunc s; s_done := s_done s;
     s_obs_next := option_map (fun ob => mkG (g_in ob) (g_ach ob) g) (s_obs_next s);
     s_info := s_info s |}.

End HerSpec.
Arguments hop : clear implicits.
Arguments hout : clear implicits.
