(** * Specification of special cases in which two components coincide *)
From Verif Require Export Py Num BufferModel BufferSpec ManagerModel TatSpec ActorModel DqnModel QuantModel OfflineModel MaModel.
Open Scope nat_scope.

(** ** TD3 and DDPG *)
Section Runs.
Context {Cfg OS Ob Rnd : Type}.
Notation st := (@st Cfg OS).
Notation mb := (@mb Ob).
(** One update: the draws of the actor's loss, the standard normal draws for the target action at an
    observation, and the minibatch as a function of the target values. *)
Definition upd_t : Type := Rnd * (Ob -> list Qc) * ((Ob -> Qc) -> mb).
(** A number of updates; the targets are computed with the state at the time.  The results are the
    priorities and the losses of all updates. *)
Fixpoint updates_with (learn : Rnd -> mb -> st -> res (st * list Qc * stats)) (target : (Ob -> list Qc) -> st -> Ob -> Qc)
    (us : list upd_t) (s : st) : res (st * list (list Qc * Qc * Qc)) :=
  match us with
  | [] => Ok (s, [])
  | (x, z, mk) :: us =>
      let* r := learn x (mk (target z s)) s in
      let '(s', w, t) := r in
      let* y := updates_with learn target us s' in
      Ok (fst y, (w, t_actor t, t_c1 t) :: snd y)
  end.
(** The parts of the state that DDPG has. *)
Definition ddpg_part (s : st) := (s_a s, s_aold s, s_c1 s, s_c1old s).
End Runs.

(** ** A buffer as a manager of one *)
Section One.
Context {Ob A Inf R : Type}.
Definition as_manager (b : buf Ob A Inf R) : mgr Ob A Inf R :=
  mkMgr [b_st b] (b_meta b) [Z.of_nat (last_index (b_st b))] [size (b_st b)].
Variable r0 : R.
Variable radd : R -> R -> R.
Variable last_frame : Ob -> Ob.
Variable o : opts.
(** Adding one transition and resetting, with what [add] returns. *)
Definition buf_op (x : buf Ob A Inf R * list (nat * R * nat * nat)) (op : aop Ob A Inf R) : res (buf Ob A Inf R * list (nat * R * nat * nat)) :=
  match op with
  | OpAdd t => let* y := add r0 radd last_frame o (fst x) t in Ok (fst y, snd x ++ [snd y])
  | OpReset keep => Ok (buf_reset r0 keep (fst x), snd x)
  end.
Definition mgr_op (ids : option (list Z)) (x : mgr Ob A Inf R * list (nat * R * nat * nat)) (op : aop Ob A Inf R) : res (mgr Ob A Inf R * list (nat * R * nat * nat)) :=
  match op with
  | OpAdd t => let* y := m_add r0 radd last_frame o (fst x) ids [t] in Ok (fst y, snd x ++ snd y)
  | OpReset keep => Ok (m_reset r0 keep (fst x), snd x)
  end.
End One.
