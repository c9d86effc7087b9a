(** * Model of copies of buffer managers: pickling, [copy.deepcopy] and [save_hdf5]/[load_hdf5] (data/buffer/base.py, manager.py, cached.py)

    A manager's sub-buffers hold NumPy views of rows of its storage (manager.py:77-79).  Pickling and deepcopy copy every array by
    itself, also one that is a view, and load_hdf5 restores the pickled sub-buffers and the storage from different entries of the file
    (base.py:233-251, converter.py:93-165), so in a copy the sub-buffers have arrays of their own, until
    [_set_batch_for_children] is called again.  The elements of a batch and the options are those of [ManagerModel]; keys that turn up
    later (manager.py:188-191) are not modelled. *)
From Verif Require Export Py BufferModel ManagerModel CachedModel.
Open Scope nat_scope.

Section Snap.
Context {Ob A Inf R : Type}.
Variable r0 : R.
Variable radd : R -> R -> R.
Variable last_frame : Ob -> Ob.
Notation trans := (trans Ob A Inf R).
Notation slot := (slot Ob A Inf R).
Notation bst := (bst R).
Notation buf := (buf Ob A Inf R).
Notation mgr := (mgr Ob A Inf R).
Notation meta_t := (meta_t Ob A Inf R).

(** [v_kids] is [None] while the sub-buffers' [_meta] are views of the manager's, and otherwise their own. *)
Record vbuf : Type := mkV { v_m : mgr; v_kids : option (list meta_t) }.
Definition v_init (ns : list nat) : vbuf := mkV (m_init r0 ns) None.
Definition v_children (v : vbuf) : list buf :=
  match v_kids v with
  | None => children (v_m v)
  | Some ks => map (fun x => mkBuf (fst x) (snd x)) (combine (m_bufs (v_m v)) ks)
  end.
(** base.py:233-251: a copy has the same values, and sub-buffers with arrays of their own. *)
Definition v_copy (v : vbuf) : vbuf := mkV (v_m v) (Some (map b_meta (v_children v))).

(** manager.py:131-193 [add]: the storage is written (182); with no storage yet it is allocated and given to the sub-buffers (190-192). *)
Definition v_add (o : opts) (v : vbuf) (ids : option (list Z)) (ts : list trans) : res (vbuf * list (nat * R * nat * nat)) :=
  let* x := m_add r0 radd last_frame o (v_m v) ids ts in
  Ok (mkV (fst x) (match m_meta (v_m v) with None => None | Some _ => v_kids v end), snd x).
(** manager.py:70-75 [reset] leaves all arrays alone. *)
Definition v_reset (keep : bool) (v : vbuf) : vbuf := mkV (m_reset r0 keep (v_m v)) (v_kids v).
(** manager.py:81-83, base.py:295-300 [set_batch]. *)
Definition v_set_batch (v : vbuf) (l : list (option slot)) : res vbuf :=
  guard (length l =? m_total (v_m v)) AssertionError
  (Ok (mkV (mkMgr (m_bufs (v_m v)) (Some l) (m_last (v_m v)) (m_lens (v_m v))) None)).

(** manager.py:85-91 [unfinished_index] asks the sub-buffers. *)
Definition v_unfinished_index (v : vbuf) : res (list nat) :=
  let* l := mapM (fun x => let* u := unfinished_index (snd x) in Ok (map (fun i => i + fst x) u))
              (combine (m_offsets (v_m v)) (v_children v)) in
  Ok (concat l).

(** manager.py:195-229 [sample_indices] asks the sub-buffers; as [m_sample_indices]. *)
Definition v_sample_indices (o : opts) (v : vbuf) (rnd_b : nat -> nat) (rnd : nat -> nat -> nat) (batch_size : option Z) : res (list nat) :=
  let m := v_m v in
  let bs_neg := match batch_size with Some z => (z <? 0)%Z | None => false end in
  let bs_zero := match batch_size with Some z => (z =? 0)%Z | None => false end in
  if bs_neg then Ok []
  else if sample_avail o && (1 <? stack_num o) then
    let* l := mapM (fun x => let* u := sample_indices o (snd (snd x)) (rnd (fst x)) (Some 0%Z) in
                             Ok (map (fun i => i + fst (snd x)) u))
                (combine (seq 0 (length (m_bufs m))) (combine (m_offsets m) (v_children v))) in
    let all := concat l in
    if bs_zero then Ok all
    else choice rnd_b all (match batch_size with Some z => Z.to_nat z | None => length all end)
  else
    let* sample_num :=
      match batch_size with
      | None => Ok (repeat 0%Z (length (m_bufs m)))
      | Some z =>
          if (z =? 0)%Z then Ok (repeat 0%Z (length (m_bufs m)))
          else if list_sum (m_lens m) =? 0 then Err ValueError
          else let draws := map (fun j => pick (m_lens m) (rnd_b j mod list_sum (m_lens m))) (seq 0 (Z.to_nat z)) in
               Ok (map (fun c => if c =? 0 then (-1)%Z else Z.of_nat c) (bincount (length (m_bufs m)) draws))
      end in
    let* l := mapM (fun x => let '(k, (off, (b, n))) := x in
                             let* u := sample_indices o b (rnd k) (Some n) in
                             Ok (map (fun i => i + off) u))
                (combine (seq 0 (length (m_bufs m))) (combine (m_offsets m) (combine (v_children v) sample_num))) in
    Ok (concat l).

(** Calls, with copies in between; work goes on with the copy. *)
Inductive vop : Type := VAdd (ids : option (list Z)) (ts : list trans) | VReset (keep : bool) | VCopy.
Fixpoint v_run (o : opts) (v : vbuf) (ops : list vop) : res (vbuf * list (list (nat * R * nat * nat))) :=
  match ops with
  | [] => Ok (v, [])
  | VAdd ids ts :: ops => let* x := v_add o v ids ts in let* y := v_run o (fst x) ops in Ok (fst y, snd x :: snd y)
  | VReset keep :: ops => v_run o (v_reset keep v) ops
  | VCopy :: ops => v_run o (v_copy v) ops
  end.

(** ** Copies of a CachedReplayBuffer (cached.py:46-85) *)
(** [main_buffer] is [buffers[0]] in a pickled or deep-copied buffer too.  [update] reads and writes the sub-buffers' own arrays. *)
Definition vc_move (v : vbuf) (id : Z) : res (vbuf * (Z * Z)) :=
  match v_kids v with
  | None => let* x := c_move r0 (v_m v) id in Ok (mkV (fst x) None, snd x)
  | Some ks =>
      let m := v_m v in
      let* k := norm_index (length (m_bufs m)) id in
      match nth_error (v_children v) 0, nth_error (v_children v) k with
      | Some main, Some src =>
          let* y := update main src in
          let '(main', l) := y in
          let index := if length l =? 0 then [(-1)%Z] else map Z.of_nat l in
          let bufs1 := upd (m_bufs m) 0 (b_st main') in
          match nth_error bufs1 k with
          | None => Err IndexError
          | Some sk =>
              let bufs2 := upd bufs1 k (bst_reset r0 false sk) in
              let len0 := match nth_error bufs2 0 with Some s => size s | None => 0 end in
              Ok (mkV (mkMgr bufs2 (m_meta m)
                         (upd (upd (m_last m) 0 (last index 0%Z)) k (Z.of_nat (nth k (m_offsets m) 0)))
                         (upd (upd (m_lens m) 0 len0) k 0))
                      (Some (upd ks 0 (b_meta main'))),
                  (hd 0%Z index, last index 0%Z))
          end
      | _, _ => Err IndexError
      end
  end.
Fixpoint vc_moves (v : vbuf) (ids : list Z) : res (vbuf * list (Z * Z)) :=
  match ids with
  | [] => Ok (v, [])
  | id :: ids => let* x := vc_move v id in let* y := vc_moves (fst x) ids in Ok (fst y, snd x :: snd y)
  end.
Definition vc_add (o : opts) (v : vbuf) (ids : option (list Z)) (ts : list trans) : res (vbuf * list (Z * R * nat * Z)) :=
  let ids := match ids with
             | None => map Z.of_nat (seq 1 (length (m_bufs (v_m v)) - 1))
             | Some ids => map (fun i => i + 1)%Z ids
             end in
  let* x := v_add o v (Some ids) ts in
  let done := map (fun t => t_term t || t_trunc t) ts in
  let* y := vc_moves (fst x) (map fst (filter snd (combine ids done))) in
  Ok (fst y, c_fill done (snd x) (snd y)).
Fixpoint vc_run (o : opts) (v : vbuf) (ops : list (option (list Z) * list trans)) : res (vbuf * list (list (Z * R * nat * Z))) :=
  match ops with
  | [] => Ok (v, [])
  | (ids, ts) :: ops => let* x := vc_add o v ids ts in let* y := vc_run o (fst x) ops in Ok (fst y, snd x :: snd y)
  end.
(** The same calls on a buffer that was not copied. *)
Fixpoint c_run (o : opts) (m : mgr) (ops : list (option (list Z) * list trans)) : res (mgr * list (list (Z * R * nat * Z))) :=
  match ops with
  | [] => Ok (m, [])
  | (ids, ts) :: ops => let* x := c_add r0 radd last_frame o m ids ts in let* y := c_run o (fst x) ops in Ok (fst y, snd x :: snd y)
  end.
End Snap.
Arguments vbuf : clear implicits.
Arguments vop : clear implicits.
