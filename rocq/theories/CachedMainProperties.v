(** * Properties C12, C58: CachedReplayBuffer *)
From Verif Require Import Py PyLemmas BufferModel BufferSpec BufferMainProofs ManagerModel CachedModel CachedSpec CachedMainProofs.
Open Scope nat_scope.

(** C12.  Every history of well-formed calls runs, reports what the episode specification says,
    and leaves the main buffer holding the newest [n0] of the rows of all finished episodes (each
    cut to its last [c] rows) in order of completion, and each cache holding its environment's
    running episode.  [len] counts both. *)
Theorem C12_cached_buffer : forall (Ob A Inf R : Type) (r0 : R) radd (last_frame : Ob -> Ob) o n0 num c
    (ops : list (cop Ob A Inf R)),
  0 < n0 -> 0 < num -> 0 < c -> Forall (cop_ok num) ops ->
  let '(st, reports) := c_spec r0 radd last_frame o n0 num c (c_start num) ops in
  exists m0 m, c_init r0 n0 num c = Ok m0
    /\ c_run r0 radd last_frame o m0 ops = Ok (m, reports)
    /\ m_lens m = map (fun k => length (c_queue n0 c st k)) (seq 0 (S num))
    /\ forall ps, ps <> [] -> (forall x, In x ps -> fst x <= num /\ snd x < length (c_queue n0 c st (fst x))) ->
         m_rows_at m (map (fun x => Z.of_nat (c_address n0 c st x)) ps)
         = Ok (map (fun x => nth_error (c_queue n0 c st (fst x)) (snd x)) ps).
Proof. exact C12_cached_buffer_lemma. Qed.
Print Assumptions C12_cached_buffer.

(** C12.  [prev]/[next] on the same indices stay inside the episode and the sub-buffer. *)
Theorem C12_prev_next : forall (Ob A Inf R : Type) (r0 : R) radd (last_frame : Ob -> Ob) o n0 num c
    (ops : list (cop Ob A Inf R)) m0 m reports ps,
  0 < n0 -> 0 < num -> 0 < c -> Forall (cop_ok num) ops ->
  c_init r0 n0 num c = Ok m0 -> c_run r0 radd last_frame o m0 ops = Ok (m, reports) ->
  let st := fst (c_spec r0 radd last_frame o n0 num c (c_start num) ops) in
  let q k := c_queue n0 c st k in
  let addr k p := Z.of_nat (c_address n0 c st (k, p)) in
  ps <> [] -> (forall x, In x ps -> fst x <= num /\ snd x < length (q (fst x))) ->
  m_prev m (map (fun x => addr (fst x) (snd x)) ps)
    = Ok (map (fun x => addr (fst x) (pred_of (q (fst x)) (snd x))) ps)
  /\ m_next m (map (fun x => addr (fst x) (snd x)) ps)
    = Ok (map (fun x => addr (fst x) (succ_of (q (fst x)) (snd x))) ps).
Proof. exact C12_prev_next_lemma. Qed.
Print Assumptions C12_prev_next.

(** C58 is false: [buffer_ids = [-1]] is accepted and writes an unfinished transition straight
    into the main buffer ("+1 means it's never the main buffer" fails for -1). *)
Theorem C58_main_only_whole_episodes_refuted : exists (m m' : mgr nat nat unit Z) r,
  c_init 0%Z 4 2 3 = Ok m
  /\ c_add 0%Z Z.add (fun x => x) plain m (Some [-1]%Z) [zt 7 false] = Ok (m', r)
  /\ nth_error (m_lens m') 0 = Some 1
  /\ m_rows_at m' [0%Z] = Ok [Some (kept (fun x => x) plain (zt 7 false))]
  /\ isdone (zt 7 false) = false.
Proof. exact C58_main_only_whole_episodes_refuted_lemma. Qed.
Print Assumptions C58_main_only_whole_episodes_refuted.

(** C58, second case: the same environment twice in one call, both rows ending an episode.  Both
    rows are moved, the second is reported at index -1, and [last_index] of the main buffer is
    left at -1. *)
Theorem C58_duplicate_ids_refuted : exists (m m' : mgr nat nat unit Z) r,
  c_init 0%Z 4 2 3 = Ok m
  /\ c_add 0%Z Z.add (fun x => x) plain m (Some [0; 0]%Z) [zt 1 true; zt 2 true] = Ok (m', r)
  /\ r = [(1%Z, 1%Z, 1, 0%Z); ((-1)%Z, 2%Z, 1, (-1)%Z)]
  /\ nth_error (m_lens m') 0 = Some 2 /\ nth_error (m_last m') 0 = Some (-1)%Z.
Proof. exact C58_duplicate_ids_refuted_lemma. Qed.
Print Assumptions C58_duplicate_ids_refuted.

(** ** Non-vacuity: main buffer of 4, two environments with caches of 2 *)

Definition cex_ops : list (cop nat nat unit Z) :=
  [CAdd None [zt 1 false; zt 11 false]; CAdd None [zt 2 false; zt 12 true];
   CAdd (Some [0]%Z) [zt 3 true]; CAdd (Some [1; 0]%Z) [zt 13 true; zt 4 false]].
Example C12_ex_wf : Forall (cop_ok 2) cex_ops.
Proof.
  repeat (apply Forall_cons; [|]); try apply Forall_nil; cbn; repeat split; try lia; try discriminate;
    try (intros; repeat (destruct H as [<-|H]; [lia|]); contradiction).
  - repeat constructor; cbn; tauto.
  - repeat constructor; cbn; lia.
Qed.
Definition cex := c_spec 0%Z Z.add (fun x => x) plain 4 2 2 (c_start 2) cex_ops.
(** Episodes [11;12], [1;2;3] (cut to [2;3]), [13] were completed in this order; the main buffer
    has dropped 11. *)
Example C12_ex_state : map s_act (c_queue 4 2 (fst cex) 0) = [12; 2; 3; 13]
  /\ map s_act (c_queue 4 2 (fst cex) 1) = [4] /\ c_queue 4 2 (fst cex) 2 = [].
Proof. vm_compute. auto. Qed.
Example C12_ex_reports : snd cex
  = [(4%Z, 0%Z, 0, 4%Z); (6%Z, 0%Z, 0, 6%Z); (5%Z, 0%Z, 0, 4%Z); (1%Z, 23%Z, 2, 0%Z);
     (3%Z, 6%Z, 3, 2%Z); (0%Z, 13%Z, 1, 0%Z); (4%Z, 0%Z, 0, 4%Z)].
Proof. vm_compute. reflexivity. Qed.
