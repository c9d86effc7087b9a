(** * Model of [tianshou/data/buffer/manager.py] (ReplayBufferManager) and [vecbuf.py].

    Simplifications:
    - one flat [_meta] list; the sub-buffers' [_meta] are NumPy views of it
      ([_set_batch_for_children], manager.py:77-79), so the model keeps no second copy and
      computes a child's rows by slicing ([children]).
    - [_offset]/[_extend_offset] are recomputed from the (constant) capacities.
    - random draws are arbitrary functions, as in [BufferModel]. *)
From Verif Require Export Py BufferModel.
Open Scope nat_scope.

(** manager.py:34-46: running offsets of the sub-buffers. *)
Fixpoint offsets (acc : nat) (ns : list nat) : list nat :=
  match ns with
  | [] => []
  | n :: ns => acc :: offsets (acc + n) ns
  end.

(** [l[off : off + n]]. *)
Definition slice {T} (off n : nat) (l : list T) : list T := firstn n (skipn off l).

Section Manager.
Context {Ob A Inf R : Type}.
Variable r0 : R.
Variable radd : R -> R -> R.
Variable last_frame : Ob -> Ob.
Notation trans := (trans Ob A Inf R).
Notation slot := (slot Ob A Inf R).
Notation bst := (bst R).
Notation buf := (buf Ob A Inf R).

(** State: scalar states of [self.buffers], flat [_meta], [last_index], [_lengths]. *)
Record mgr : Type := mkMgr {
  m_bufs : list bst; m_meta : meta_t Ob A Inf R; m_last : list Z; m_lens : list nat
}.

Definition m_sizes (m : mgr) : list nat := map maxsize (m_bufs m).
Definition m_offsets (m : mgr) : list nat := offsets 0 (m_sizes m).
(** [self.maxsize] = [offset[-1]] of [_extend_offset]. *)
Definition m_total (m : mgr) : nat := list_sum (m_sizes m).
(** manager.py:55-58 [subbuffer_edges]. *)
Definition m_edges (m : mgr) : list nat := m_offsets m ++ [m_total m].

(** manager.py:26-53 [__init__] on fresh buffers of capacities [ns]. *)
Definition m_init (ns : list nat) : mgr :=
  mkMgr (map (bst_init r0) ns) None (map Z.of_nat (offsets 0 ns)) (repeat 0 (length ns)).

(** manager.py:67-68 [__len__]. *)
Definition m_len (m : mgr) : nat := list_sum (m_lens m).

(** manager.py:70-75 [reset]. *)
Definition m_reset (keep : bool) (m : mgr) : mgr :=
  mkMgr (map (bst_reset r0 keep) (m_bufs m)) (m_meta m) (map Z.of_nat (m_offsets m))
        (repeat 0 (length (m_bufs m))).

(** manager.py:77-79 [_set_batch_for_children]: the sub-buffers as ReplayBuffer objects. *)
Fixpoint children_from (off : nat) (ss : list bst) (meta : meta_t Ob A Inf R) : list buf :=
  match ss with
  | [] => []
  | s :: ss => mkBuf s (option_map (slice off (maxsize s)) meta)
               :: children_from (off + maxsize s) ss meta
  end.
Definition children (m : mgr) : list buf := children_from 0 (m_bufs m) (m_meta m).

(** manager.py:85-91 [unfinished_index]. *)
Definition m_unfinished_index (m : mgr) : res (list nat) :=
  let* l := mapM (fun x => let* u := unfinished_index (snd x) in Ok (map (fun i => i + fst x) u))
              (combine (m_offsets m) (children m)) in
  Ok (concat l).

(** manager.py:305-331 [_prev_index], for one element of [index]: the loop over the sub-buffers;
    the mask holds for at most one of them. *)
Definition prev_index1 (offs : list (nat * nat * nat * Z)) (total : nat) (done : list (option slot))
    (i : Z) : res Z :=
  let i := np_mod i (Z.of_nat total) in
  foldM (fun acc x =>
    let '(start, stop, len, last) := x in
    if (Z.of_nat start <=? i)%Z && (i <? Z.of_nat stop)%Z then
      let cur := Z.of_nat (Nat.max 1 len) in
      let sub := ((i - Z.of_nat start - 1) mod cur)%Z in
      let* d := zget done (sub + Z.of_nat start)%Z in
      let end_flag := slot_done d || (sub + Z.of_nat start =? last)%Z in
      Ok ((sub + (if end_flag then 1 else 0)) mod cur + Z.of_nat start)%Z
    else Ok acc) offs 0%Z.

(** manager.py:334-358 [_next_index]. *)
Definition next_index1 (offs : list (nat * nat * nat * Z)) (total : nat) (done : list (option slot))
    (i : Z) : res Z :=
  let i := np_mod i (Z.of_nat total) in
  foldM (fun acc x =>
    let '(start, stop, len, last) := x in
    if (Z.of_nat start <=? i)%Z && (i <? Z.of_nat stop)%Z then
      let cur := Z.of_nat (Nat.max 1 len) in
      let* d := zget done i in
      let end_flag := slot_done d || (i =? last)%Z in
      Ok ((i - Z.of_nat start + 1 - (if end_flag then 1 else 0)) mod cur + Z.of_nat start)%Z
    else Ok acc) offs 0%Z.

(** [zip(offset[:-1], offset[1:], lengths, last_index)]. *)
Definition m_zip (m : mgr) : list (nat * nat * nat * Z) :=
  combine (combine (combine (m_offsets m) (tl (m_edges m))) (m_lens m)) (m_last m).

(** manager.py:93-125 [prev], [next] on an index array. *)
Definition m_prev (m : mgr) (index : list Z) : res (list Z) :=
  match m_meta m with
  | None => Err AttributeError
  | Some done => mapM (prev_index1 (m_zip m) (m_total m) done) index
  end.
Definition m_next (m : mgr) (index : list Z) : res (list Z) :=
  match m_meta m with
  | None => Err AttributeError
  | Some done => mapM (next_index1 (m_zip m) (m_total m) done) index
  end.

(** manager.py:162-178: the loop over [buffer_ids]; returns the new bookkeeping and, per row,
    (insertion index, episode return, episode length, episode start), offsets included. *)
Fixpoint add_loop (bufs : list bst) (last : list Z) (lens : list nat) (xs : list (Z * trans))
  : res (list bst * list Z * list nat * list (nat * R * nat * nat)) :=
  match xs with
  | [] => Ok (bufs, last, lens, [])
  | (id, t) :: xs =>
      let* k := norm_index (length bufs) id in
      match nth_error bufs k with
      | None => Err IndexError
      | Some s =>
          let* sr := update_state_pre_add r0 radd s (t_rew t) (t_term t || t_trunc t) in
          let '(s', (i, ret, len, st)) := sr in
          let off := nth k (offsets 0 (map maxsize bufs)) 0 in
          let* y := add_loop (upd bufs k s') (upd last k (Z.of_nat (i + off)))
                             (upd lens k (size s')) xs in
          let '(bufs', last', lens', rs) := y in
          Ok (bufs', last', lens', (i + off, ret, len, st + off) :: rs)
      end
  end.

(** manager.py:131-193 [add]; [ids = None] is the default argument. *)
Definition m_add (o : opts) (m : mgr) (ids : option (list Z)) (ts : list trans)
  : res (mgr * list (nat * R * nat * nat)) :=
  let ids := match ids with
             | Some ids => ids
             | None => map Z.of_nat (seq 0 (length (m_bufs m)))
             end in
  guard (length ids <=? length ts) IndexError              (* batch.rew[batch_idx] *)
  (let* y := add_loop (m_bufs m) (m_last m) (m_lens m) (combine ids ts) in
   let '(bufs', last', lens', rs) := y in
   guard (negb (length ids =? 0)) IndexError               (* np.array([]) is no index array *)
   (guard (length ids =? length ts) ValueError             (* shapes must agree *)
    (let l := meta_rows (m_total m) (m_meta m) in
     let idx := map (fun r => fst (fst (fst r))) rs in
     guard (forallb (fun i => i <? length l) idx) IndexError
     (Ok (mkMgr bufs' (Some (fold_left (fun l ix => upd l (fst ix) (snd ix))
                               (combine idx (map (fun t => Some (row last_frame o t)) ts)) l))
                last' lens', rs))))).

(** manager.py:127-129 [update]. *)
Definition m_update (m : mgr) (src : buf) : res (mgr * list nat) := Err NotImplementedError.

(** [np.random.choice(buffer_num, p=lengths/sum)]: sub-buffer [k] is drawn with probability
    proportional to its length, i.e. it is the sub-buffer of a uniformly drawn stored
    transition; [pick] finds the sub-buffer of transition number [r]. *)
Fixpoint pick (lens : list nat) (r : nat) : nat :=
  match lens with
  | [] => 0
  | n :: lens => if r <? n then 0 else S (pick lens (r - n))
  end.

Definition bincount (n : nat) (l : list nat) : list nat :=
  map (fun k => length (filter (Nat.eqb k) l)) (seq 0 n).

(** manager.py:195-229 [sample_indices].  [rnd_b] draws the sub-buffers (or, with
    [sample_avail], the indices), [rnd k] is the generator used by sub-buffer [k]. *)
Definition m_sample_indices (o : opts) (m : mgr) (rnd_b : nat -> nat) (rnd : nat -> nat -> nat)
    (batch_size : option Z) : res (list nat) :=
  let bs_neg := match batch_size with Some z => (z <? 0)%Z | None => false end in
  let bs_zero := match batch_size with Some z => (z =? 0)%Z | None => false end in
  if bs_neg then Ok []
  else if sample_avail o && (1 <? stack_num o) then
    let* l := mapM (fun x => let* u := sample_indices o (snd (snd x)) (rnd (fst x)) (Some 0%Z) in
                             Ok (map (fun i => i + fst (snd x)) u))
                (combine (seq 0 (length (m_bufs m))) (combine (m_offsets m) (children m))) in
    let all := concat l in
    if bs_zero then Ok all
    else choice rnd_b all (match batch_size with Some z => Z.to_nat z | None => length all end)
  else
    let* sample_num :=
      match batch_size with
      | None => Ok (repeat 0%Z (length (m_bufs m)))
      | Some z =>
          if (z =? 0)%Z then Ok (repeat 0%Z (length (m_bufs m)))
          else if list_sum (m_lens m) =? 0 then Err ValueError      (* probabilities contain NaN *)
          else let draws := map (fun j => pick (m_lens m) (rnd_b j mod list_sum (m_lens m)))
                              (seq 0 (Z.to_nat z)) in
               Ok (map (fun c => if c =? 0 then (-1)%Z else Z.of_nat c)
                     (bincount (length (m_bufs m)) draws))
      end in
    let* l := mapM (fun x => let '(k, (off, (b, n))) := x in
                             let* u := sample_indices o b (rnd k) (Some n) in
                             Ok (map (fun i => i + off) u))
                (combine (seq 0 (length (m_bufs m)))
                   (combine (m_offsets m) (combine (children m) sample_num))) in
    Ok (concat l).

(** base.py:536-628 [get] and [__getitem__] as inherited by the manager: the same code with the
    manager's [prev]/[next] (see [BufferModel.get_rows], [BufferModel.getitem]). *)
Definition m_rows_at (m : mgr) (index : list Z) : res (list (option slot)) :=
  match m_meta m with
  | None => Err KeyError
  | Some l => mapM (zget l) index
  end.

Fixpoint m_get_loop (k : nat) (m : mgr) (index : list Z) (stack : list (list (option slot)))
  : res (list (list (option slot))) :=
  match k with
  | O => Ok stack
  | S k => let* v := m_rows_at m index in
           let* index' := m_prev m index in
           m_get_loop k m index' (v :: stack)
  end.

Definition m_get_rows (m : mgr) (k : nat) (index : list Z) : res (list (list (option slot))) :=
  if k =? 1 then let* v := m_rows_at m index in Ok (map (fun x => [x]) v)
  else let* st := m_get_loop k m index [] in Ok (transpose (length index) st).

Definition m_getitem (o : opts) (m : mgr) (index : list Z) : res (list (row_out Ob A Inf R)) :=
  let* fr := m_get_rows m (stack_num o) index in
  let* frn := (if save_obs_next o then
                 let* f := m_get_rows m (stack_num o) index in
                 Ok (map (map (fun x => match x with Some s => s_obs_next s | None => None end)) f)
               else let* nx := m_next m index in
                    let* f := m_get_rows m (stack_num o) nx in
                    Ok (map (map (option_map s_obs)) f)) in
  let* cur := m_rows_at m index in
  Ok (map (fun x => mkOut (map (option_map s_obs) (fst x)) (fst (snd x)) (snd (snd x))
                      (map (option_map s_info) (fst x)))
          (combine fr (combine cur frn))).

End Manager.
Arguments mgr : clear implicits.

(** vecbuf.py:34-38 [VectorReplayBuffer.__init__]: capacities of the sub-buffers
    ([np.ceil] of the exact quotient). *)
Definition vec_sizes (total num : nat) : res (list nat) :=
  guard (0 <? num) AssertionError (Ok (repeat ((total + num - 1) / num) num)).
