(** * Calls on a HERReplayBufferManager and on a plain ReplayBufferManager *)
From Verif Require Export Py BufferModel BufferSpec ManagerModel ManagerSpec HerModel HerSpec HmgrModel.
Open Scope nat_scope.

Section HmgrSpec.
Context {Ob0 G A Inf R : Type}.
Variable r0 : R.
Variable radd : R -> R -> R.
Variable last_frame : gobs Ob0 G -> gobs Ob0 G.
Variable rew_fn : G -> G -> R.
Notation trans := (trans (gobs Ob0 G) A Inf R).
Notation slot := (slot (gobs Ob0 G) A Inf R).
Notation mgr := (mgr (gobs Ob0 G) A Inf R).
Notation hmgr := (hmgr Ob0 G A Inf R).

Inductive hmop : Type :=
| GAdd (ids : option (list Z)) (ts : list trans) | GReset (keep : bool)
| GSample (rnd_b : nat -> nat) (rnd : nat -> nat -> nat) (bs : option Z) (horizon : nat) (offs : nat -> nat -> nat) (hsel : nat -> nat -> bool).
(** What a call returns. *)
Inductive hmout : Type := QAdd (r : list (nat * R * nat * nat)) | QNone | QIdx (l : list nat).

Fixpoint hm_run (o : opts) (h : hmgr) (ops : list hmop) : res (hmgr * list hmout) :=
  match ops with
  | [] => Ok (h, [])
  | GAdd ids ts :: ops => let* x := hm_add r0 radd last_frame o h ids ts in
                          let* y := hm_run o (fst x) ops in Ok (fst y, QAdd (snd x) :: snd y)
  | GReset keep :: ops => let* y := hm_run o (hm_reset r0 keep h) ops in Ok (fst y, QNone :: snd y)
  | GSample rb rnd bs hz offs hsel :: ops =>
      let* x := hm_sample rew_fn o h rb rnd bs hz offs hsel in
      let* y := hm_run o (fst x) ops in Ok (fst y, QIdx (snd x) :: snd y)
  end.
(** The same calls on a plain ReplayBufferManager. *)
Fixpoint mp_run (o : opts) (m : mgr) (ops : list hmop) : res (mgr * list hmout) :=
  match ops with
  | [] => Ok (m, [])
  | GAdd ids ts :: ops => let* x := m_add r0 radd last_frame o m ids ts in
                          let* y := mp_run o (fst x) ops in Ok (fst y, QAdd (snd x) :: snd y)
  | GReset keep :: ops => let* y := mp_run o (m_reset r0 keep m) ops in Ok (fst y, QNone :: snd y)
  | GSample rb rnd bs _ _ _ :: ops =>
      let* l := m_sample_indices o m rb rnd bs in
      let* y := mp_run o m ops in Ok (fst y, QIdx l :: snd y)
  end.
(** The calls that store or delete. *)
Fixpoint writes (ops : list hmop) : list (mop (gobs Ob0 G) A Inf R) :=
  match ops with
  | [] => []
  | GAdd ids ts :: ops => MAdd ids ts :: writes ops
  | GReset keep :: ops => MReset keep :: writes ops
  | GSample _ _ _ _ _ _ :: ops => writes ops
  end.
End HmgrSpec.
Arguments hmop : clear implicits.
Arguments hmout : clear implicits.
