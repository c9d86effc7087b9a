(** * Model of a CachedReplayBuffer saved with [save_hdf5] and loaded with [load_hdf5] (data/buffer/base.py, cached.py, data/utils/converter.py)

    The attributes [buffers] and [main_buffer] are written to the file one by one (base.py:242-245, converter.py:107-151): the array of
    sub-buffers is pickled, and so, by itself, is [main_buffer].  In the loaded buffer [main_buffer] is therefore an object of its own, and
    no longer [buffers[0]].  The rest is as in [SnapModel]. *)
From Verif Require Export Py BufferModel ManagerModel CachedModel SnapModel.
Open Scope nat_scope.

Section Hload.
Context {Ob A Inf R : Type}.
Variable r0 : R.
Variable radd : R -> R -> R.
Variable last_frame : Ob -> Ob.
Notation trans := (trans Ob A Inf R).
Notation buf := (buf Ob A Inf R).
Notation mgr := (mgr Ob A Inf R).
Notation vbuf := (vbuf Ob A Inf R).

(** A loaded buffer: the manager with its sub-buffers, and [main_buffer]. *)
Record hbuf : Type := mkH { h_v : vbuf; h_main : buf }.
(** base.py:242-251: what is loaded after saving [m]. *)
Definition h_load (m : mgr) : res hbuf :=
  match children m with main :: _ => Ok (mkH (v_copy (mkV m None)) main) | [] => Err IndexError end.
(** cached.py:73-82: one turn of the loop of [add]; [main_buffer.update] leaves [buffers[0]] and the storage alone. *)
Definition h_move (h : hbuf) (id : Z) : res (hbuf * (Z * Z)) :=
  let m := v_m (h_v h) in
  let* k := norm_index (length (m_bufs m)) id in
  match nth_error (v_children (h_v h)) k with
  | Some src =>
      let* y := update (h_main h) src in
      let '(main', l) := y in
      let index := if length l =? 0 then [(-1)%Z] else map Z.of_nat l in
      Ok (mkH (mkV (mkMgr (upd (m_bufs m) k (bst_reset r0 false (b_st src))) (m_meta m)
                      (upd (upd (m_last m) 0 (last index 0%Z)) k (Z.of_nat (nth k (m_offsets m) 0)))
                      (upd (upd (m_lens m) 0 (size (b_st main'))) k 0))
                   (v_kids (h_v h)))
              main',
          (hd 0%Z index, last index 0%Z))
  | None => Err IndexError
  end.
Fixpoint h_moves (h : hbuf) (ids : list Z) : res (hbuf * list (Z * Z)) :=
  match ids with
  | [] => Ok (h, [])
  | id :: ids => let* x := h_move h id in let* y := h_moves (fst x) ids in Ok (fst y, snd x :: snd y)
  end.
(** cached.py:46-85 [add]. *)
Definition h_add (o : opts) (h : hbuf) (ids : option (list Z)) (ts : list trans) : res (hbuf * list (Z * R * nat * Z)) :=
  let ids := match ids with
             | None => map Z.of_nat (seq 1 (length (m_bufs (v_m (h_v h))) - 1))
             | Some ids => map (fun i => i + 1)%Z ids
             end in
  let* x := v_add r0 radd last_frame o (h_v h) (Some ids) ts in
  let done := map (fun t => t_term t || t_trunc t) ts in
  let* y := h_moves (mkH (fst x) (h_main h)) (map fst (filter snd (combine ids done))) in
  Ok (fst y, c_fill done (snd x) (snd y)).
Fixpoint h_run (o : opts) (h : hbuf) (ops : list (option (list Z) * list trans)) : res (hbuf * list (list (Z * R * nat * Z))) :=
  match ops with
  | [] => Ok (h, [])
  | (ids, ts) :: ops => let* x := h_add o h ids ts in let* y := h_run o (fst x) ops in Ok (fst y, snd x :: snd y)
  end.
End Hload.
Arguments hbuf : clear implicits.
