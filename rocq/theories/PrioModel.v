(** * Model of [tianshou/data/buffer/prio.py] and of PrioritizedReplayBufferManager
    (manager.py:235-262), PrioritizedVectorReplayBuffer (vecbuf.py:40-66).

    [pw x] stands for [x ** alpha], [ipw x] for [x ** (-beta)], [eps] for the float32 epsilon;
    floats are exact rationals.  A draw of [np.random.rand] is a rational. *)
From Verif Require Export Py Num SegTreeModel BufferModel ManagerModel.
Open Scope nat_scope.

Definition qabs (x : Qc) : Qc := if Qcltb x 0 then (- x)%Qc else x.
(** [max]/[min] of a non-empty array together with a bound. *)
Definition max_of (b : Qc) (l : list Qc) : Qc := fold_left Qcmaxb l b.
Definition min_of (b : Qc) (l : list Qc) : Qc := fold_left Qcminb l b.

(** prio.py:25-44: the fields added to ReplayBuffer. *)
Record prio : Type := mkPrio { p_tree : segtree; p_max : Qc; p_min : Qc }.
Definition prio_init (n : nat) : prio := mkPrio (st_init n) 1 1.

Section Prio.
Variables (pw ipw : Qc -> Qc) (eps : Qc).

(** prio.py:46-47 [init_weight]; a scalar index is the one-element array (segtree.py:47-48). *)
Definition init_weight (p : prio) (index : list Z) : res prio :=
  let* t := st_setitem (p_tree p) index (map (fun _ => pw (p_max p)) index) in
  Ok (mkPrio t (p_max p) (p_min p)).

(** prio.py:81-90 [update_weight]; broadcasting of a one-element [new_weight] is left out. *)
Definition update_weight (p : prio) (index : list Z) (new_weight : list Qc) : res prio :=
  let weight := map (fun w => (qabs w + eps)%Qc) new_weight in
  let* t := st_setitem (p_tree p) index (map pw weight) in
  Ok (mkPrio t (max_of (p_max p) weight) (min_of (p_min p) weight)).

(** prio.py:63-67: the prioritized draw. *)
Definition prio_draw (p : prio) (draws : list Qc) : res (list nat) :=
  let* total := st_reduce (p_tree p) 0 None in
  st_prefix (p_tree p) (map (fun r => (r * total)%Qc) draws).

(** prio.py:69-79 [get_weight]. *)
Definition get_weight (p : prio) (index : list Z) : res (list Qc) :=
  mapM (fun i => let* w := st_getitem (p_tree p) i in Ok (ipw (w / p_min p)%Qc)) index.

(** prio.py:104-106: the [weight] key of [__getitem__]. *)
Definition batch_weight (norm : bool) (p : prio) (index : list Z) : res (list Qc) :=
  let* w := get_weight p index in
  if norm then
    match w with
    | [] => Err ValueError                       (* np.max of an empty array *)
    | x :: t => Ok (map (fun y => (y / max_of x t)%Qc) w)
    end
  else Ok w.

Section Storage.
Context {Ob A Inf R : Type}.
Variable r0 : R.
Variable radd : R -> R -> R.
Variable last_frame : Ob -> Ob.
Notation trans := (trans Ob A Inf R).
Notation buf := (buf Ob A Inf R).
Notation mgr := (mgr Ob A Inf R).

(** PrioritizedReplayBuffer. *)
Record pbuf : Type := mkPB { pb_buf : buf; pb_prio : prio }.
Definition pb_init (n : nat) : pbuf := mkPB (buf_init r0 n) (prio_init n).

(** prio.py:54-61 [add]. *)
Definition pb_add (o : opts) (b : pbuf) (t : trans) : res (pbuf * (nat * R * nat * nat)) :=
  let* x := add r0 radd last_frame o (pb_buf b) t in
  let* p := init_weight (pb_prio b) [Z.of_nat (fst (fst (fst (snd x))))] in
  Ok (mkPB (fst x) p, snd x).
(** prio.py:49-52 [update]. *)
Definition pb_update (b : pbuf) (src : buf) : res (pbuf * list nat) :=
  let* x := update (pb_buf b) src in
  let* p := init_weight (pb_prio b) (map Z.of_nat (snd x)) in
  Ok (mkPB (fst x) p, snd x).
(** base.py:285-291 [reset], inherited: the weights are not touched. *)
Definition pb_reset (keep : bool) (b : pbuf) : pbuf := mkPB (buf_reset r0 keep (pb_buf b)) (pb_prio b).
(** prio.py:63-67 [sample_indices]. *)
Definition pb_sample_indices (o : opts) (b : pbuf) (rnd : nat -> nat) (draw : nat -> Qc) (bs : option Z)
  : res (list nat) :=
  match bs with
  | Some z => if (0 <? z)%Z && (0 <? size (b_st (pb_buf b)))
              then prio_draw (pb_prio b) (map draw (seq 0 (Z.to_nat z)))
              else sample_indices o (pb_buf b) rnd bs
  | None => sample_indices o (pb_buf b) rnd bs
  end.

(** PrioritizedReplayBufferManager: one weight tree over all sub-buffers (manager.py:247-262). *)
Record pmgr : Type := mkPM { pm_mgr : mgr; pm_prio : prio }.
Definition pm_init (ns : list nat) : pmgr := mkPM (m_init r0 ns) (prio_init (list_sum ns)).
Definition pm_add (o : opts) (m : pmgr) (ids : option (list Z)) (ts : list trans)
  : res (pmgr * list (nat * R * nat * nat)) :=
  let* x := m_add r0 radd last_frame o (pm_mgr m) ids ts in
  let* p := init_weight (pm_prio m) (map (fun r => Z.of_nat (fst (fst (fst r)))) (snd x)) in
  Ok (mkPM (fst x) p, snd x).
Definition pm_sample_indices (o : opts) (m : pmgr) rnd_b rnd (draw : nat -> Qc) (bs : option Z)
  : res (list nat) :=
  match bs with
  | Some z => if (0 <? z)%Z && (0 <? m_len (pm_mgr m))
              then prio_draw (pm_prio m) (map draw (seq 0 (Z.to_nat z)))
              else m_sample_indices o (pm_mgr m) rnd_b rnd bs
  | None => m_sample_indices o (pm_mgr m) rnd_b rnd bs
  end.

End Storage.
End Prio.
Arguments pbuf : clear implicits.
Arguments pmgr : clear implicits.

(** Who owns [_beta]: the manager's own field (used by its [get_weight]) and the sub-buffers'. *)
Record betas : Type := mkBetas { be_own : Qc; be_children : list Qc }.
Definition betas_init (beta : Qc) (n : nat) : betas := mkBetas beta (repeat beta n).
(** vecbuf.py:64-66 [PrioritizedVectorReplayBuffer.set_beta]. *)
Definition vec_set_beta (b : betas) (beta : Qc) : betas :=
  mkBetas (be_own b) (map (fun _ => beta) (be_children b)).
(** prio.py:79 with [x ** (-beta)] given by [p]. *)
Definition vec_get_weight (p : Qc -> Qc -> Qc) (b : betas) (m : prio) (index : list Z) : res (list Qc) :=
  get_weight (fun x => p x (- be_own b)%Qc) m index.
