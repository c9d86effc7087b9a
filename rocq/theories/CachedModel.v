(** * Model of [tianshou/data/buffer/cached.py] (CachedReplayBuffer).

    The state is a manager state: sub-buffer 0 is [main_buffer], the others are the caches.
    The sub-buffers are views of the flat storage, so writing to [main_buffer] writes the
    first [main_buffer.maxsize] rows of it. *)
From Verif Require Export Py BufferModel ManagerModel.
Open Scope nat_scope.

Section Cached.
Context {Ob A Inf R : Type}.
Variable r0 : R.
Variable radd : R -> R -> R.
Variable last_frame : Ob -> Ob.
Notation trans := (trans Ob A Inf R).
Notation mgr := (mgr Ob A Inf R).
Notation crep := (Z * R * nat * Z)%type.

(** cached.py:28-44 [__init__] on a fresh main buffer of capacity [n0]. *)
Definition c_init (n0 num c : nat) : res mgr :=
  guard (0 <? num) AssertionError
  (guard (0 <? c) AssertionError (Ok (m_init r0 (n0 :: repeat c num)))).

(** cached.py:73-82: one turn of the loop for the sub-buffer [id]; returns the new state and
    (index[0], index[-1]). *)
Definition c_move (m : mgr) (id : Z) : res (mgr * (Z * Z)) :=
  let* k := norm_index (length (m_bufs m)) id in
  match nth_error (children m) 0, nth_error (children m) k with
  | Some main, Some src =>
      let* y := update main src in
      let '(main', l) := y in
      let index := if length l =? 0 then [(-1)%Z] else map Z.of_nat l in
      let bufs1 := upd (m_bufs m) 0 (b_st main') in
      match nth_error bufs1 k with
      | None => Err IndexError
      | Some sk =>
          let bufs2 := upd bufs1 k (bst_reset r0 false sk) in
          let len0 := match nth_error bufs2 0 with Some s => size s | None => 0 end in
          Ok (mkMgr bufs2
                (match m_meta m with
                 | Some rows => Some (meta_rows (maxsize (b_st main')) (b_meta main')
                                      ++ skipn (maxsize (b_st main')) rows)
                 | None => None
                 end)
                (upd (upd (m_last m) 0 (last index 0%Z)) k (Z.of_nat (nth k (m_offsets m) 0)))
                (upd (upd (m_lens m) 0 len0) k 0),
              (hd 0%Z index, last index 0%Z))
      end
  | _, _ => Err IndexError
  end.

(** cached.py:72-82: the loop over [cached_buffer_ids[done]]. *)
Fixpoint c_moves (m : mgr) (ids : list Z) : res (mgr * list (Z * Z)) :=
  match ids with
  | [] => Ok (m, [])
  | id :: ids => let* x := c_move m id in
                 let* y := c_moves (fst x) ids in
                 Ok (fst y, snd x :: snd y)
  end.

(** cached.py:83-84: [insertion_idx[done] = ...], [ep_start_idx[done] = ...]. *)
Fixpoint c_fill (done : list bool) (rs : list (nat * R * nat * nat)) (moved : list (Z * Z)) : list crep :=
  match done, rs with
  | d :: done, (i, ret, len, st) :: rs =>
      match d, moved with
      | true, (start, ins) :: moved => (ins, ret, len, start) :: c_fill done rs moved
      | _, _ => (Z.of_nat i, ret, len, Z.of_nat st) :: c_fill done rs moved
      end
  | _, _ => []
  end.

(** cached.py:46-85 [add]. *)
Definition c_add (o : opts) (m : mgr) (ids : option (list Z)) (ts : list trans)
  : res (mgr * list crep) :=
  let ids := match ids with
             | None => map Z.of_nat (seq 1 (length (m_bufs m) - 1))
             | Some ids => map (fun i => i + 1)%Z ids
             end in
  let* x := m_add r0 radd last_frame o m (Some ids) ts in
  let done := map (fun t => t_term t || t_trunc t) ts in
  let* y := c_moves (fst x) (map fst (filter snd (combine ids done))) in
  Ok (fst y, c_fill done (snd x) (snd y)).

End Cached.
