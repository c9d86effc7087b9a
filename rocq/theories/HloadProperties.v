(** * Property C366: cached buffers saved to and loaded from HDF5 files *)
From Verif Require Import Py BufferModel ManagerModel ManagerSpec CachedModel SnapModel SnapSpec HloadModel HloadProofs.
Open Scope nat_scope.
Open Scope list_scope.

(** C366.  Refuted: after loading, no row of the storage's main part changes, and no place of the main buffer that was not filled before is ever sampled,
    however many episodes are collected. *)
Theorem C366_frozen_refuted : forall (Ob A Inf R : Type) (r0 : R) (radd : R -> R -> R) (last_frame : Ob -> Ob) (o : opts) (m : mgr Ob A Inf R) (main : bst R) (caches : list (bst R))
    (h h' : hbuf Ob A Inf R) (ops : list (option (list Z) * list (trans Ob A Inf R))) rs,
  m_bufs m = main :: caches -> ins main <= size main -> h_load m = Ok h -> caches_only ops -> h_run r0 radd last_frame o h ops = Ok (h', rs) ->
  firstn (maxsize main) (storage (v_m (h_v h'))) = firstn (maxsize main) (storage m) /\
  forall rb rnd n l i, v_sample_indices o (h_v h') rb rnd n = Ok l -> In i l -> i < maxsize main -> i < size main.
Proof. exact C366_frozen_refuted_lemma. Qed.
Print Assumptions C366_frozen_refuted.

(** C366.  What a loaded buffer counts and reports - indices, episode returns, lengths and starts, and errors - is what the saved one would. *)
Theorem C366_reports_partial : forall (Ob A Inf R : Type) (r0 : R) (radd : R -> R -> R) (last_frame : Ob -> Ob) (o : opts) (m : mgr Ob A Inf R) (h : hbuf Ob A Inf R)
    (ops : list (option (list Z) * list (trans Ob A Inf R))),
  length (storage m) = m_total m -> h_load m = Ok h -> caches_only ops ->
  rmap (fun x => (m_lens (v_m (h_v (fst x))), m_last (v_m (h_v (fst x))), tl (m_bufs (v_m (h_v (fst x)))), snd x)) (h_run r0 radd last_frame o h ops)
  = rmap (fun x => (m_lens (fst x), m_last (fst x), tl (m_bufs (fst x)), snd x)) (c_run r0 radd last_frame o m ops).
Proof. exact C366_reports_partial_lemma. Qed.
Print Assumptions C366_reports_partial.

(** ** Non-vacuity *)
Definition hl_t (x : nat) (d : bool) : trans nat nat unit nat := mkTrans x x 1 d false (S x) tt.
Definition hl_o : opts := mkOpts 1 false true false.
(** A main buffer of four places and one cache of three, with one stored transition, is saved and loaded; then two more episodes are
    stored.  The length is right, but sampling only ever finds the first transition, and the other places were never written. *)
Example C366_ex : exists m0 m rs h h' rs', c_init 0 4 1 3 = Ok m0
  /\ c_run 0 Nat.add (fun x => x) hl_o m0 [(None, [hl_t 1 true])] = Ok (m, rs)
  /\ h_load m = Ok h /\ length (storage m) = m_total m
  /\ h_run 0 Nat.add (fun x => x) hl_o h [(None, [hl_t 2 true]); (Some [0%Z], [hl_t 3 true])] = Ok (h', rs')
  /\ m_len (v_m (h_v h')) = 3 /\ v_sample_indices hl_o (h_v h') (fun j => j) (fun _ j => j) (Some 4%Z) = Ok [0; 0; 0; 0]
  /\ map (option_map (@s_obs _ _ _ _)) (firstn 4 (storage (v_m (h_v h')))) = [Some 1; None; None; None].
Proof. do 6 eexists. repeat (split; [vm_compute; reflexivity|]). vm_compute. reflexivity. Qed.
(** A buffer saved empty: after loading, episodes are counted, but sampling raises. *)
Example C366_ex_empty : exists m0 h h' rs', c_init 0 4 1 3 = Ok m0 /\ h_load m0 = Ok h
  /\ h_run 0 Nat.add (fun x => x) hl_o h [(None, [hl_t 2 true])] = Ok (h', rs')
  /\ m_len (v_m (h_v h')) = 1 /\ v_sample_indices hl_o (h_v h') (fun j => j) (fun _ j => j) (Some 1%Z) = Err ValueError.
Proof. do 4 eexists. repeat (split; [vm_compute; reflexivity|]). vm_compute. reflexivity. Qed.
