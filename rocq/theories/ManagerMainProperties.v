(** * Properties C08-C11, C57: ReplayBufferManager and VectorReplayBuffer *)
From Verif Require Import Py PyLemmas BufferModel BufferSpec BufferProofs BufferMainProofs ManagerModel ManagerSpec ManagerMainProofs.
Open Scope nat_scope.

(** C08.  Which histories run without an exception: exactly the well-formed ones. *)
Theorem C08_total : forall (Ob A Inf R : Type) (r0 : R) radd (last_frame : Ob -> Ob) o ns
    (ops : list (mop Ob A Inf R)),
  (forall n, In n ns -> 0 < n) ->
  (exists x, m_run r0 radd last_frame o (m_init r0 ns) ops = Ok x) <-> Forall (mop_ok (length ns)) ops.
Proof. exact C08_total_lemma. Qed.
Print Assumptions C08_total.

(** C08.  Every sub-buffer behaves as a stand-alone buffer that receives only the calls
    addressed to it: same reported values (moved by the sub-buffer's offset), same scalar
    state, and the same rows in its part of the manager's storage. *)
Theorem C08_independent : forall (Ob A Inf R : Type) (r0 : R) radd (last_frame : Ob -> Ob) o ns
    (ops : list (mop Ob A Inf R)) m outs,
  (forall n, In n ns -> 0 < n) ->
  m_run r0 radd last_frame o (m_init r0 ns) ops = Ok (m, outs) ->
  forall k n, nth_error ns k = Some n ->
  exists b reports,
    buf_run r0 radd last_frame o (buf_init r0 n) (proj (length ns) k ops) = Ok (b, reports)
    /\ select (length ns) k outs = map (shift (off ns k)) reports
    /\ nth_error (m_bufs m) k = Some (b_st b)
    /\ nth_error (m_lens m) k = Some (size (b_st b))
    /\ nth_error (m_last m) k = Some (Z.of_nat (last_index (b_st b) + off ns k))
    /\ slice (off ns k) n (meta_rows (list_sum ns) (m_meta m)) = meta_rows n (b_meta b).
Proof. exact C08_independent_lemma. Qed.
Print Assumptions C08_independent.

(** C08.  [len] is the number of stored transitions, and reading at their indices gives them. *)
Theorem C08_content : forall (Ob A Inf R : Type) (r0 : R) radd (last_frame : Ob -> Ob) o ns
    (ops : list (mop Ob A Inf R)) m outs ps,
  (forall n, In n ns -> 0 < n) ->
  m_run r0 radd last_frame o (m_init r0 ns) ops = Ok (m, outs) ->
  let q k := mqueue last_frame o ns ops k in
  m_len m = list_sum (map (fun k => length (q k)) (seq 0 (length ns)))
  /\ (ps <> [] -> (forall x, In x ps -> snd x < length (q (fst x))) ->
      m_rows_at m (map (fun x => Z.of_nat (maddress ns ops x)) ps)
      = Ok (map (fun x => nth_error (q (fst x)) (snd x)) ps)).
Proof. exact C08_content_lemma. Qed.
Print Assumptions C08_content.

(** C09.  [prev]/[next] of the manager walk inside the episode of the addressed sub-buffer. *)
Theorem C09_prev_next : forall (Ob A Inf R : Type) (r0 : R) radd (last_frame : Ob -> Ob) o ns
    (ops : list (mop Ob A Inf R)) m outs ps,
  (forall n, In n ns -> 0 < n) ->
  m_run r0 radd last_frame o (m_init r0 ns) ops = Ok (m, outs) ->
  let q k := mqueue last_frame o ns ops k in
  let addr k p := Z.of_nat (maddress ns ops (k, p)) in
  ps <> [] -> (forall x, In x ps -> snd x < length (q (fst x))) ->
  m_prev m (map (fun x => addr (fst x) (snd x)) ps)
    = Ok (map (fun x => addr (fst x) (pred_of (q (fst x)) (snd x))) ps)
  /\ m_next m (map (fun x => addr (fst x) (snd x)) ps)
    = Ok (map (fun x => addr (fst x) (succ_of (q (fst x)) (snd x))) ps).
Proof. exact C09_prev_next_lemma. Qed.
Print Assumptions C09_prev_next.

(** C09.  [unfinished_index]: the newest index of each non-empty sub-buffer whose newest
    transition does not end an episode, in sub-buffer order. *)
Theorem C09_unfinished_index : forall (Ob A Inf R : Type) (r0 : R) radd (last_frame : Ob -> Ob) o ns
    (ops : list (mop Ob A Inf R)) m outs,
  (forall n, In n ns -> 0 < n) ->
  m_run r0 radd last_frame o (m_init r0 ns) ops = Ok (m, outs) ->
  (exists ids ts, In (MAdd ids ts) ops) ->
  let q k := mqueue last_frame o ns ops k in
  m_unfinished_index m = Ok (concat (map (fun k =>
    match q k with
    | [] => []
    | _ => if qdone (q k) (length (q k) - 1) then [] else [maddress ns ops (k, length (q k) - 1)]
    end) (seq 0 (length ns)))).
Proof. exact C09_unfinished_index_lemma. Qed.
Print Assumptions C09_unfinished_index.

(** C10.  [sample_indices(0)] lists all qualifying indices, sub-buffer by sub-buffer, oldest
    first in each. *)
Theorem C10_sample_all : forall (Ob A Inf R : Type) (r0 : R) radd (last_frame : Ob -> Ob) o ns
    (ops : list (mop Ob A Inf R)) m outs rb rnd,
  (forall n, In n ns -> 0 < n) -> 0 < stack_num o ->
  m_run r0 radd last_frame o (m_init r0 ns) ops = Ok (m, outs) ->
  (exists ids ts, In (MAdd ids ts) ops) ->
  let q k := mqueue last_frame o ns ops k in
  m_sample_indices o m rb rnd (Some 0%Z) = Ok (concat (map (fun k =>
    map (fun p => maddress ns ops (k, p))
      (filter (fun p => (stack_num o =? 1) || negb (sample_avail o)
                        || (first_of (q k) p + stack_num o <=? p + 1)) (seq 0 (length (q k)))))
    (seq 0 (length ns)))).
Proof. exact C10_sample_all_lemma. Qed.
Print Assumptions C10_sample_all.

(** C10.  A random sample of [z > 0] indices, for every draw: when something qualifies it has
    [z] entries, all among the qualifying indices. *)
Theorem C10_sample_random : forall (Ob A Inf R : Type) (r0 : R) radd (last_frame : Ob -> Ob) o ns
    (ops : list (mop Ob A Inf R)) m outs rb rnd z all,
  (forall n, In n ns -> 0 < n) -> 0 < stack_num o ->
  m_run r0 radd last_frame o (m_init r0 ns) ops = Ok (m, outs) ->
  (exists ids ts, In (MAdd ids ts) ops) -> (0 < z)%Z ->
  m_sample_indices o m rb rnd (Some 0%Z) = Ok all ->
  match m_sample_indices o m rb rnd (Some z) with
  | Ok l => length l = Z.to_nat z /\ forall i, In i l -> In i all
  | Err _ => all = []
  end.
Proof. exact C10_sample_random_lemma. Qed.
Print Assumptions C10_sample_random.

(** C11.  [VectorReplayBuffer(total, num)]: [num] sub-buffers of the same capacity, which is the
    least one that gives at least [total] slots. *)
Theorem C11_vector_split : forall total num, 0 < num ->
  exists n, vec_sizes total num = Ok (repeat n num)
    /\ total <= list_sum (repeat n num) < total + num
    /\ (forall n', total <= n' * num -> n <= n').
Proof. exact C11_vector_split_lemma. Qed.
Print Assumptions C11_vector_split.

(** C11.  No sub-buffers: rejected. *)
Theorem C11_zero_rejected : forall total, vec_sizes total 0 = Err AssertionError.
Proof. exact C11_zero_rejected_lemma. Qed.
Print Assumptions C11_zero_rejected.

(** C57.  [buffer[index]] on a manager: frame stacks stay inside the episode and inside the
    sub-buffer of the index (same statement as C06, with manager indices). *)
Theorem C57_stacking : forall (Ob A Inf R : Type) (r0 : R) radd (last_frame : Ob -> Ob) o ns
    (ops : list (mop Ob A Inf R)) m outs ps,
  (forall n, In n ns -> 0 < n) -> 0 < stack_num o ->
  m_run r0 radd last_frame o (m_init r0 ns) ops = Ok (m, outs) ->
  let q k := mqueue last_frame o ns ops k in
  ps <> [] -> (forall x, In x ps -> snd x < length (q (fst x))) ->
  let n := stack_num o in
  let stack k p := map (fun j => nth_error (q k) (Nat.max (first_of (q k) p) (p - (n - 1 - j)))) (seq 0 n) in
  m_getitem o m (map (fun x => Z.of_nat (maddress ns ops x)) ps)
  = Ok (map (fun x => {|
       o_obs := map (option_map s_obs) (stack (fst x) (snd x));
       o_cur := nth_error (q (fst x)) (snd x);
       o_obs_next := if save_obs_next o
                     then map (fun x => match x with Some s => s_obs_next s | None => None end) (stack (fst x) (snd x))
                     else map (option_map s_obs) (stack (fst x) (succ_of (q (fst x)) (snd x)));
       o_info := map (option_map s_info) (stack (fst x) (snd x)) |}) ps).
Proof. exact C57_stacking_lemma. Qed.
Print Assumptions C57_stacking.

(** ** Non-vacuity: three sub-buffers of capacities 2, 3, 2; the first wraps, the last stays empty *)

Definition mex_ops : list (mop nat nat unit Z) :=
  [MAdd None [zt 9 false; zt 9 false; zt 9 false]; MReset false;
   MAdd (Some [0; 1]%Z) [zt 1 false; zt 11 false];
   MAdd (Some [1; 0; -2]%Z) [zt 12 true; zt 2 true; zt 13 false];
   MAdd (Some [0]%Z) [zt 3 false]].
Definition mex_run (o : opts) := m_run 0%Z Z.add (fun x => x) o (m_init 0%Z [2; 3; 2]) mex_ops.
Definition mex (o : opts) : mgr nat nat unit Z :=
  match mex_run o with Ok x => fst x | Err _ => m_init 0%Z [] end.

Example C08_ex_wf : Forall (mop_ok (length [2; 3; 2])) mex_ops.
Proof.
  repeat (apply Forall_cons; [|]); try apply Forall_nil; cbn; repeat split; try lia; try discriminate;
    intros; repeat (destruct H as [<-|H]; [lia|]); contradiction.
Qed.
Example C08_ex_outs : match mex_run plain with
  | Ok x => snd x = [(0%Z, (0, 0%Z, 0, 0)); (1%Z, (2, 0%Z, 0, 2)); (2%Z, (5, 0%Z, 0, 5));
                     (0%Z, (0, 0%Z, 0, 0)); (1%Z, (2, 0%Z, 0, 2));
                     (1%Z, (3, 23%Z, 2, 2)); (0%Z, (1, 3%Z, 2, 0)); ((-2)%Z, (4, 0%Z, 0, 4));
                     (0%Z, (0, 0%Z, 0, 0))]
            /\ m_len (fst x) = 5
  | Err _ => False end.
Proof. vm_compute. auto. Qed.
Example C08_ex_queue :
  map (fun k => map s_act (mqueue (fun x => x) plain [2; 3; 2] mex_ops k)) [0; 1; 2] = [[2; 3]; [11; 12; 13]; []].
Proof. vm_compute. reflexivity. Qed.
Example C08_ex_address :
  map (maddress [2; 3; 2] mex_ops) [(0, 0); (0, 1); (1, 0); (1, 1); (1, 2)] = [1; 0; 2; 3; 4].
Proof. vm_compute. reflexivity. Qed.
Example C09_ex : m_prev (mex plain) [1; 0; 2; 3; 4]%Z = Ok [1; 0; 2; 2; 4]%Z
  /\ m_next (mex plain) [1; 0; 2; 3; 4]%Z = Ok [1; 0; 3; 3; 4]%Z
  /\ m_unfinished_index (mex plain) = Ok [0; 4].
Proof. vm_compute. auto. Qed.
Definition mstk : opts := mkOpts 2 false false true.
Example C10_ex : m_sample_indices mstk (mex mstk) (fun _ => 5) (fun _ _ => 5) (Some 0%Z) = Ok [3]
  /\ m_sample_indices plain (mex plain) (fun j => j) (fun _ j => j) (Some 0%Z) = Ok [1; 0; 2; 3; 4]
  /\ m_sample_indices plain (mex plain) (fun j => j) (fun _ j => j) (Some 3%Z) = Ok [0; 1; 2].
Proof. vm_compute. auto. Qed.
Example C11_ex : vec_sizes 10 4 = Ok [3; 3; 3; 3].
Proof. reflexivity. Qed.
Example C57_ex : match m_getitem mstk (mex mstk) [1; 0; 2; 3; 4]%Z with
  | Ok l => map o_obs l = [[Some 2; Some 2]; [Some 3; Some 3]; [Some 11; Some 11]; [Some 11; Some 12]; [Some 13; Some 13]]
            /\ map o_obs_next l = [[Some 2; Some 2]; [Some 3; Some 3]; [Some 11; Some 12]; [Some 11; Some 12]; [Some 13; Some 13]]
  | Err _ => False end.
Proof. vm_compute. auto. Qed.
