(** * Properties C364-C365: copies of vector and cached buffers *)
From Verif Require Import Py BufferModel ManagerModel ManagerSpec CachedModel SnapModel SnapSpec SnapProofs.
Open Scope nat_scope.
Open Scope list_scope.

(** C364.  However often and whenever a vector buffer is copied, what is added to it goes to the same places, is stored, counted and
    reported in the same way, and raises the same errors, as without the copies. *)
Theorem C364_state_partial : forall (Ob A Inf R : Type) (r0 : R) (radd : R -> R -> R) (last_frame : Ob -> Ob) (o : opts) (ns : list nat) (ops : list (vop Ob A Inf R)),
  shown (v_run r0 radd last_frame o (v_init r0 ns) ops) = shown (v_run r0 radd last_frame o (v_init r0 ns) (no_copies ops)).
Proof. exact C364_state_partial_lemma. Qed.
Print Assumptions C364_state_partial.

(** C364.  And the state is that of a manager on the same calls. *)
Theorem C364_manager_partial : forall (Ob A Inf R : Type) (r0 : R) (radd : R -> R -> R) (last_frame : Ob -> Ob) (o : opts) (ns : list nat) (ops : list (vop Ob A Inf R)),
  rmap (fun x => (v_m (fst x), concat (snd x))) (v_run r0 radd last_frame o (v_init r0 ns) ops)
  = rmap (fun x => (fst x, map snd (snd x))) (m_run r0 radd last_frame o (m_init r0 ns) (calls ops)).
Proof. exact C364_manager_partial_lemma. Qed.
Print Assumptions C364_manager_partial.

(** C364.  So length, prev, next and the rows at any indices are those of the buffer without copies; the sampled indices too, unless both
    sample_avail and frame stacking are used. *)
Theorem C364_reads_partial : forall (Ob A Inf R : Type) (r0 : R) (radd : R -> R -> R) (last_frame : Ob -> Ob) (o : opts) (ns : list nat) (ops : list (vop Ob A Inf R))
    (v w : vbuf Ob A Inf R) rs ss,
  v_run r0 radd last_frame o (v_init r0 ns) ops = Ok (v, rs) -> v_run r0 radd last_frame o (v_init r0 ns) (no_copies ops) = Ok (w, ss) ->
  m_len (v_m v) = m_len (v_m w) /\ (forall ix, m_prev (v_m v) ix = m_prev (v_m w) ix) /\ (forall ix, m_next (v_m v) ix = m_next (v_m w) ix) /\
  (forall ix, m_getitem o (v_m v) ix = m_getitem o (v_m w) ix) /\
  (sample_avail o = false \/ stack_num o = 1 -> forall rb rnd n, v_sample_indices o v rb rnd n = v_sample_indices o w rb rnd n).
Proof. exact C364_reads_partial_lemma. Qed.
Print Assumptions C364_reads_partial.

(** C364.  A copy of a buffer to which nothing was ever added behaves like it in everything: its sub-buffers are the same after any calls. *)
Theorem C364_unfilled_partial : forall (Ob A Inf R : Type) (r0 : R) (radd : R -> R -> R) (last_frame : Ob -> Ob) (o : opts) (ns : list nat) (ops : list (vop Ob A Inf R)),
  no_copies ops = ops ->
  rmap (fun x => (v_m (fst x), v_children (fst x), snd x)) (v_run r0 radd last_frame o (v_copy (v_init r0 ns)) ops)
  = rmap (fun x => (v_m (fst x), v_children (fst x), snd x)) (v_run r0 radd last_frame o (v_init r0 ns) ops).
Proof. exact C364_unfilled_partial_lemma. Qed.
Print Assumptions C364_unfilled_partial.

(** C364.  Giving a copy its own storage again with set_batch repairs it. *)
Theorem C364_set_batch_partial : forall (Ob A Inf R : Type) (v : vbuf Ob A Inf R) (l : list (option (slot Ob A Inf R))),
  m_meta (v_m v) = Some l -> length l = m_total (v_m v) -> v_set_batch v l = Ok (mkV (v_m v) None).
Proof. exact C364_set_batch_partial_lemma. Qed.
Print Assumptions C364_set_batch_partial.

(** C364.  Refuted for unfinished_index: after any history in which something was added, for every sub-buffer and transition, one of the two
    outcomes of adding the transition to the copy - it ends its episode or not - makes unfinished_index of the copy wrong. *)
Theorem C364_unfinished_refuted : forall (Ob A Inf R : Type) (r0 : R) (radd : R -> R -> R) (last_frame : Ob -> Ob) (o : opts) (ns : list nat)
    (ops : list (mop Ob A Inf R)) (m : mgr Ob A Inf R) outs (k : nat) (t : trans Ob A Inf R),
  (forall n, In n ns -> 0 < n) -> m_run r0 radd last_frame o (m_init r0 ns) ops = Ok (m, outs) -> (exists ids ts, In (MAdd ids ts) ops) -> k < length ns ->
  exists d v m' rs, m_add r0 radd last_frame o m (Some [Z.of_nat k]) [with_end d t] = Ok (m', rs) /\
    v_add r0 radd last_frame o (v_copy (mkV m None)) (Some [Z.of_nat k]) [with_end d t] = Ok (v, rs) /\
    v_unfinished_index v <> m_unfinished_index m'.
Proof. exact C364_unfinished_refuted_lemma. Qed.
Print Assumptions C364_unfinished_refuted.

(** C365.  Refuted: in a copy of a cached buffer that has storage, no row of the main buffer ever changes again, however many episodes are
    collected, as far as sampling and reading see it. *)
Theorem C365_frozen_refuted : forall (Ob A Inf R : Type) (r0 : R) (radd : R -> R -> R) (last_frame : Ob -> Ob) (o : opts) (m : mgr Ob A Inf R) (main : bst R) (caches : list (bst R))
    (ops : list (option (list Z) * list (trans Ob A Inf R))) (v : vbuf Ob A Inf R) rs,
  m_meta m <> None -> m_bufs m = main :: caches -> caches_only ops ->
  vc_run r0 radd last_frame o (v_copy (mkV m None)) ops = Ok (v, rs) ->
  firstn (maxsize main) (storage (v_m v)) = firstn (maxsize main) (storage m).
Proof. exact C365_frozen_refuted_lemma. Qed.
Print Assumptions C365_frozen_refuted.

(** C365.  A copy made before anything is added does all that the buffer would do. *)
Theorem C365_unfilled_partial : forall (Ob A Inf R : Type) (r0 : R) (radd : R -> R -> R) (last_frame : Ob -> Ob) (o : opts) (n0 num c : nat) (m : mgr Ob A Inf R)
    (ops : list (option (list Z) * list (trans Ob A Inf R))),
  c_init r0 n0 num c = Ok m ->
  rmap (fun x => (v_m (fst x), snd x)) (vc_run r0 radd last_frame o (v_copy (mkV m None)) ops) = c_run r0 radd last_frame o m ops.
Proof. exact C365_unfilled_partial_lemma. Qed.
Print Assumptions C365_unfilled_partial.

(** ** Non-vacuity *)
Definition snap_t (x : nat) (d : bool) : trans nat nat unit nat := mkTrans x x 1 d false (S x) tt.
Definition snap_o : opts := mkOpts 1 false true false.
(** Two sub-buffers of three places: after one unfinished transition each a copy is made, and then both episodes end.  The copy still
    reports both as unfinished, though its rows are right. *)
Example C364_ex : exists v rs w ss,
  v_run 0 Nat.add (fun x => x) snap_o (v_init 0 [3; 3]) [VAdd None [snap_t 1 false; snap_t 5 false]; VCopy; VAdd None [snap_t 2 true; snap_t 6 true]] = Ok (v, rs)
  /\ v_run 0 Nat.add (fun x => x) snap_o (v_init 0 [3; 3]) [VAdd None [snap_t 1 false; snap_t 5 false]; VAdd None [snap_t 2 true; snap_t 6 true]] = Ok (w, ss)
  /\ v_m v = v_m w /\ rs = ss /\ v_unfinished_index w = Ok [] /\ v_unfinished_index v <> Ok [].
Proof. do 4 eexists. split; [vm_compute; reflexivity|]. split; [vm_compute; reflexivity|]. repeat split. vm_compute. discriminate. Qed.
Example C364_ex_refuted : exists m outs, m_run 0 Nat.add (fun x : nat => x) snap_o (m_init 0 [3; 3]) [MAdd None [snap_t 1 false; snap_t 5 false]] = Ok (m, outs).
Proof. do 2 eexists. vm_compute. reflexivity. Qed.
(** A main buffer of four places and one cache of three.  One episode of one transition is stored, then a copy is made and stores two more:
    it counts three transitions, but the main rows are the old ones, with two never written. *)
Example C365_ex : exists m0 m rs v rs', c_init 0 4 1 3 = Ok m0
  /\ c_run 0 Nat.add (fun x => x) snap_o m0 [(None, [snap_t 1 true])] = Ok (m, rs)
  /\ vc_run 0 Nat.add (fun x => x) snap_o (v_copy (mkV m None)) [(None, [snap_t 2 true]); (Some [0%Z], [snap_t 3 true])] = Ok (v, rs')
  /\ m_len (v_m v) = 3 /\ map (option_map (@s_obs _ _ _ _)) (firstn 4 (storage (v_m v))) = [Some 1; None; None; None].
Proof. do 5 eexists. split; [vm_compute; reflexivity|]. split; [vm_compute; reflexivity|]. split; [vm_compute; reflexivity|]. split; vm_compute; reflexivity. Qed.
Example C365_ex_original : exists m0 m rs, c_init 0 4 1 3 = Ok m0
  /\ c_run 0 Nat.add (fun x => x) snap_o m0 [(None, [snap_t 1 true]); (None, [snap_t 2 true]); (Some [0%Z], [snap_t 3 true])] = Ok (m, rs)
  /\ map (option_map (@s_obs _ _ _ _)) (firstn 4 (storage m)) = [Some 1; Some 2; Some 3; None].
Proof. do 3 eexists. split; [vm_compute; reflexivity|]. split; [vm_compute; reflexivity|]. vm_compute. reflexivity. Qed.
Example C365_ex_caches : @caches_only nat nat unit nat [(None, [snap_t 2 true]); (Some [0%Z], [snap_t 3 true])].
Proof. intros ids ts [H|[H|[]]] i Hi; [discriminate|]. injection H as <- _. destruct Hi as [<-|[]]. lia. Qed.
