(** * Model of HERReplayBufferManager (data/buffer/manager.py) and HERVectorReplayBuffer (data/buffer/vecbuf.py)

    The sub-buffers are HERReplayBuffer objects ([HerModel.her]) whose [_meta] are views of the manager's flat [_meta]; each keeps its own
    [_altered_indices] and [_original_meta]. *)
From Verif Require Export Py BufferModel ManagerModel HerModel.
Open Scope nat_scope.

Section Hmgr.
Context {Ob0 G A Inf R : Type}.
Variable r0 : R.
Variable radd : R -> R -> R.
Variable last_frame : gobs Ob0 G -> gobs Ob0 G.
Variable rew_fn : G -> G -> R.
Notation trans := (trans (gobs Ob0 G) A Inf R).
Notation slot := (slot (gobs Ob0 G) A Inf R).
Notation buf := (buf (gobs Ob0 G) A Inf R).
Notation mgr := (mgr (gobs Ob0 G) A Inf R).
Notation her := (her Ob0 G A Inf R).

(** The manager and, for every sub-buffer, the cache of altered rows. *)
Record hmgr : Type := mkHM { hm_mgr : mgr; hm_alts : list (list (nat * option slot)) }.
(** manager.py:278-279 [__init__] on fresh buffers of capacities [ns]; vecbuf.py:85-89 with [ManagerModel.vec_sizes]. *)
Definition hm_init (ns : list nat) : hmgr := mkHM (m_init r0 ns) (map (fun _ => []) ns).
(** [self.buffers]. *)
Definition hm_children (h : hmgr) : list her := map (fun x => mkHer (fst x) (snd x)) (combine (children (hm_mgr h)) (hm_alts h)).
(** What the sub-buffers write is written to the flat [_meta], each in its own part. *)
Definition put (m : mgr) (hs : list her) : hmgr :=
  mkHM (mkMgr (m_bufs m)
          (match m_meta m with None => None | Some _ => Some (concat (map (fun h => meta_rows 0 (b_meta (h_buf h))) hs)) end)
          (m_last m) (m_lens m))
       (map h_alt hs).
(** manager.py:281-283 [_restore_cache]. *)
Definition hm_restore (h : hmgr) : hmgr := put (hm_mgr h) (map restore_cache (hm_children h)).
(** manager.py:297-303 [add]. *)
Definition hm_add (o : opts) (h : hmgr) (ids : option (list Z)) (ts : list trans) : res (hmgr * list (nat * R * nat * nat)) :=
  let h := hm_restore h in
  let* x := m_add r0 radd last_frame o (hm_mgr h) ids ts in
  Ok (mkHM (fst x) (hm_alts h), snd x).
(** manager.py:70-75 [reset] (not overridden): the [reset] of every sub-buffer restores (her.py:63-65). *)
Definition hm_reset (keep : bool) (h : hmgr) : hmgr :=
  let h := hm_restore h in mkHM (m_reset r0 keep (hm_mgr h)) (hm_alts h).
(** manager.py:285-287 [save_hdf5] writes the restored manager; manager.py:293-295 [update]: NotImplementedError. *)
Definition hm_saved (h : hmgr) : mgr := hm_mgr (hm_restore h).
Definition hm_update (h : hmgr) (src : buf) : res (mgr * list nat) := m_update (hm_mgr (hm_restore h)) src.
(** manager.py:289-291 [set_batch]: restores, then replaces [_meta] (by rows of the right keys and number). *)
Definition hm_set_batch (h : hmgr) (rows : list (option slot)) : hmgr :=
  let h := hm_restore h in
  mkHM (mkMgr (m_bufs (hm_mgr h)) (Some rows) (m_last (hm_mgr h)) (m_lens (hm_mgr h))) (hm_alts h).

(** manager.py:224-229: [sample_indices] of every sub-buffer, which relabels its rows (her.py:87-98). *)
Definition child_samples (o : opts) (k0 : nat) (hs : list her) (rnd : nat -> nat -> nat) (zs : list Z) (horizon : nat)
    (offs : nat -> nat -> nat) (hsel : nat -> nat -> bool) : res (list (her * list nat)) :=
  mapM (fun x => let '(k, (h, z)) := x in h_sample rew_fn o h (rnd k) (Some z) horizon (offs k) (hsel k))
       (combine (seq k0 (length hs)) (combine hs zs)).
Definition shifted (os : list nat) (ls : list (list nat)) : list nat :=
  concat (map (fun x => map (fun i => i + fst x) (snd x)) (combine os ls)).
(** manager.py:195-229 [sample_indices] (not overridden). *)
Definition hm_sample (o : opts) (h : hmgr) (rnd_b : nat -> nat) (rnd : nat -> nat -> nat) (batch_size : option Z)
    (horizon : nat) (offs : nat -> nat -> nat) (hsel : nat -> nat -> bool) : res (hmgr * list nat) :=
  let m := hm_mgr h in
  let zeros := repeat 0%Z (length (m_bufs m)) in
  if match batch_size with Some z => (z <? 0)%Z | None => false end then Ok (h, [])
  else if sample_avail o && (1 <? stack_num o) then
    let* xs := child_samples o 0 (hm_children h) rnd zeros horizon offs hsel in
    let all := shifted (m_offsets m) (map snd xs) in
    let* l := (if match batch_size with Some z => (z =? 0)%Z | None => false end then Ok all
               else choice rnd_b all (match batch_size with Some z => Z.to_nat z | None => length all end)) in
    Ok (put m (map fst xs), l)
  else
    let* sample_num :=
      match batch_size with
      | None => Ok zeros
      | Some z =>
          if (z =? 0)%Z then Ok zeros
          else if list_sum (m_lens m) =? 0 then Err ValueError
          else Ok (map (fun c => if c =? 0 then (-1)%Z else Z.of_nat c)
                     (bincount (length (m_bufs m))
                        (map (fun j => pick (m_lens m) (rnd_b j mod list_sum (m_lens m))) (seq 0 (Z.to_nat z)))))
      end in
    let* xs := child_samples o 0 (hm_children h) rnd sample_num horizon offs hsel in
    Ok (put m (map fst xs), shifted (m_offsets m) (map snd xs)).
End Hmgr.
Arguments hmgr : clear implicits.
