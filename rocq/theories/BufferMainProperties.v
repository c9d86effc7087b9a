(** * Properties C01-C06, C51-C55: ReplayBuffer *)
From Verif Require Import Py PyLemmas BufferModel BufferSpec BufferProofs BufferWalkProofs BufferMainProofs.
Open Scope nat_scope.

(** C01.  In every reachable state the stored indices, oldest first, hold exactly the queue. *)
Theorem C01_fifo : forall (Ob A Inf R : Type) (r0 : R) radd (last_frame : Ob -> Ob) o n
    (b : buf Ob A Inf R) q rnd,
  0 < n -> reach r0 radd last_frame o n b q ->
  exists idx, sample_indices plain b rnd (Some 0%Z) = Ok idx
    /\ size (b_st b) = length q /\ length q <= n
    /\ length idx = length q /\ NoDup idx /\ (forall i, In i idx <-> i < length q)
    /\ (q <> [] -> rows_at b (map Z.of_nat idx) = Ok (map Some q)).
Proof. exact C01_fifo_lemma. Qed.
Print Assumptions C01_fifo.

(** C01.  [add] always succeeds; it writes one row, at the index of the oldest transition when
    the buffer is full and at the first free index otherwise; no other row changes. *)
Theorem C01_add_overwrites_only_oldest : forall (Ob A Inf R : Type) (r0 : R) radd
    (last_frame : Ob -> Ob) o n (b : buf Ob A Inf R) q t,
  0 < n -> reach r0 radd last_frame o n b q ->
  exists b' i ret len st, add r0 radd last_frame o b t = Ok (b', (i, ret, len, st))
    /\ (length q = n -> nth_error (meta_rows n (b_meta b)) i = Some (nth_error q 0))
    /\ (length q < n -> i = length q)
    /\ nth_error (meta_rows n (b_meta b')) i = Some (Some (kept last_frame o t))
    /\ (forall j, j <> i -> nth_error (meta_rows n (b_meta b')) j = nth_error (meta_rows n (b_meta b)) j).
Proof. exact C01_add_overwrites_only_oldest_lemma. Qed.
Print Assumptions C01_add_overwrites_only_oldest.

(** C01.  [update] always succeeds and reports one index per moved transition; the queue
    effect is the [reach_update] rule. *)
Theorem C01_update_total : forall (Ob A Inf R : Type) (r0 : R) radd
    (last_frame : Ob -> Ob) o n n2 (b src : buf Ob A Inf R) q q2,
  0 < n -> 0 < n2 -> reach r0 radd last_frame o n b q -> reach r0 radd last_frame o n2 src q2 ->
  exists b' l, update b src = Ok (b', l) /\ length l = length q2
    /\ (forall j, j < length q2 -> nth_error l j = Some ((ins (b_st b) + j) mod n)).
Proof. exact C01_update_total_lemma. Qed.
Print Assumptions C01_update_total.

(** C02.  For every history of [add] and [reset] calls, the values returned by the [add] calls
    are those of the abstract episode bookkeeping [epi_run]. *)
Theorem C02_episode_report : forall (Ob A Inf R : Type) (r0 : R) radd (last_frame : Ob -> Ob) o n
    (ops : list (aop Ob A Inf R)),
  0 < n ->
  exists b, buf_run r0 radd last_frame o (buf_init r0 n) ops
            = Ok (b, snd (epi_run r0 radd n epi0 ops)).
Proof. exact C02_episode_report_lemma. Qed.
Print Assumptions C02_episode_report.

(** C03.  [prev] and [next] on the indices of queue positions. *)
Theorem C03_prev_next : forall (Ob A Inf R : Type) (r0 : R) radd (last_frame : Ob -> Ob) o n
    (b : buf Ob A Inf R) q rnd idx ps,
  0 < n -> reach r0 radd last_frame o n b q -> q <> [] ->
  sample_indices plain b rnd (Some 0%Z) = Ok idx ->
  (forall p, In p ps -> p < length q) ->
  let at_ p := Z.of_nat (nth p idx 0) in
  prev b (map at_ ps) = Ok (map (fun p => at_ (pred_of q p)) ps)
  /\ next b (map at_ ps) = Ok (map (fun p => at_ (succ_of q p)) ps).
Proof. exact C03_prev_next_lemma. Qed.
Print Assumptions C03_prev_next.

(** C04.  Once anything was ever written, [unfinished_index] is the index of the newest
    transition when the buffer is non-empty and that transition is not done, and empty
    otherwise. *)
Theorem C04_unfinished_index : forall (Ob A Inf R : Type) (r0 : R) radd (last_frame : Ob -> Ob) o n
    (b : buf Ob A Inf R) q rnd idx,
  0 < n -> reach r0 radd last_frame o n b q -> b_meta b <> None ->
  sample_indices plain b rnd (Some 0%Z) = Ok idx ->
  unfinished_index b = Ok (match q with
                           | [] => []
                           | _ => if qdone q (length q - 1) then [] else [nth (length q - 1) idx 0]
                           end).
Proof. exact C04_unfinished_index_lemma. Qed.
Print Assumptions C04_unfinished_index.

(** C05.  [sample_indices(0)] lists exactly the positions that qualify, oldest first: all of
    them, or with [sample_avail] and [stack_num > 1] those with [stack_num] stored transitions
    of the same episode ending there. *)
Theorem C05_sample_all : forall (Ob A Inf R : Type) (r0 : R) radd (last_frame : Ob -> Ob) o n
    (b : buf Ob A Inf R) q rnd idx,
  0 < n -> 0 < stack_num o -> reach r0 radd last_frame o n b q -> q <> [] ->
  sample_indices plain b rnd (Some 0%Z) = Ok idx ->
  sample_indices o b rnd (Some 0%Z) = Ok (map (fun p => nth p idx 0)
    (filter (fun p => (stack_num o =? 1) || negb (sample_avail o)
                      || (first_of q p + stack_num o <=? p + 1)) (seq 0 (length q)))).
Proof. exact C05_sample_all_lemma. Qed.
Print Assumptions C05_sample_all.

(** C05.  A random sample has the requested length and consists of stored (qualifying) indices,
    whatever is drawn; it fails only when no index qualifies. *)
Theorem C05_sample_random : forall (Ob A Inf R : Type) (r0 : R) radd (last_frame : Ob -> Ob) o n
    (b : buf Ob A Inf R) q rnd k all,
  0 < n -> 0 < stack_num o -> reach r0 radd last_frame o n b q -> q <> [] -> 0 < k ->
  sample_indices o b rnd (Some 0%Z) = Ok all ->
  match sample_indices o b rnd (Some (Z.of_nat k)) with
  | Ok l => length l = k /\ forall i, In i l -> In i all
  | Err e => all = []
  end.
Proof. exact C05_sample_random_lemma. Qed.
Print Assumptions C05_sample_random.

(** C06.  [buffer[index]]: for the index of queue position [p], [obs] is the stack of the
    observations of the positions [max(first_of p, p-k+1+j)], [j = 0..k-1]: the last entry is
    the transition itself and no entry is of another episode; the other columns are those of
    the transition; [obs_next] is the stored one, or the [obs] stack of the successor. *)
Theorem C06_stacking : forall (Ob A Inf R : Type) (r0 : R) radd (last_frame : Ob -> Ob) o n
    (b : buf Ob A Inf R) q rnd idx ps,
  0 < n -> 0 < stack_num o -> reach r0 radd last_frame o n b q -> q <> [] ->
  sample_indices plain b rnd (Some 0%Z) = Ok idx ->
  (forall p, In p ps -> p < length q) ->
  let k := stack_num o in
  let stack p := map (fun j => nth_error q (Nat.max (first_of q p) (p - (k - 1 - j)))) (seq 0 k) in
  getitem o b (map (fun p => Z.of_nat (nth p idx 0)) ps)
  = Ok (map (fun p => {|
       o_obs := map (option_map s_obs) (stack p);
       o_cur := nth_error q p;
       o_obs_next := if save_obs_next o
                     then map (fun x => match x with Some s => s_obs_next s | None => None end) (stack p)
                     else map (option_map s_obs) (stack (succ_of q p));
       o_info := map (option_map s_info) (stack p) |}) ps).
Proof. exact C06_stacking_lemma. Qed.
Print Assumptions C06_stacking.

(** C04.  On a buffer that was never written, [unfinished_index] does not return the empty
    array: it raises AttributeError. *)
Theorem C04_never_written_refuted : exists (b : zbuf),
  zreach plain 3 b [] /\ unfinished_index b = Err AttributeError.
Proof. exact C04_never_written_refuted_lemma. Qed.
Print Assumptions C04_never_written_refuted.

(** C51.  [sample_indices(None)] is documented to return all available indices in a random
    order, but it draws with replacement: some draw repeats one index and misses another. *)
Theorem C51_sample_none_is_permutation_refuted : exists (b : zbuf) q rnd l,
  zreach plain 3 b q /\ length q = 2 /\ sample_indices plain b rnd None = Ok l
  /\ ~ NoDup l /\ ~ In 1 l.
Proof. exact C51_sample_none_is_permutation_refuted_lemma. Qed.
Print Assumptions C51_sample_none_is_permutation_refuted.

(** C52.  [from_data] sets [_size] but neither [_insertion_idx]-derived [last_index]: on three
    transitions of one unfinished episode, [prev] and [next] differ from the buffer that
    received the same transitions by [add] - [next] of the newest transition wraps around to
    the oldest, [next] of the oldest stays. *)
Theorem C52_from_data_walk_refuted : exists (rows : list (slot nat nat unit Z)) (b : zbuf),
  zreach plain 3 b rows
  /\ b_meta (from_data 0%Z rows) = b_meta b
  /\ next b [0%Z; 2%Z] = Ok [1%Z; 2%Z] /\ next (from_data 0%Z rows) [0%Z; 2%Z] = Ok [0%Z; 0%Z]
  /\ prev b [0%Z; 1%Z] = Ok [0%Z; 0%Z] /\ prev (from_data 0%Z rows) [0%Z; 1%Z] = Ok [2%Z; 1%Z].
Proof. exact C52_from_data_walk_refuted_lemma. Qed.
Print Assumptions C52_from_data_walk_refuted.

(** C52.  What does hold of [from_data]: the length, and reading [buffer[:]] gives the rows. *)
Theorem C52_from_data_reads_partial : forall (Ob A Inf R : Type) (r0 : R)
    (rows : list (slot Ob A Inf R)) rnd,
  rows <> [] ->
  exists idx, sample_indices plain (from_data r0 rows) rnd (Some 0%Z) = Ok idx
    /\ size (b_st (from_data r0 rows)) = length rows
    /\ rows_at (from_data r0 rows) (map Z.of_nat idx) = Ok (map Some rows).
Proof. exact C52_from_data_reads_partial_lemma. Qed.
Print Assumptions C52_from_data_reads_partial.

(** C53.  [update] moves a complete two-step episode into an empty buffer of capacity 5; the
    next [add], which starts (and ends) an episode at index 2, reports episode start 0. *)
Theorem C53_start_after_update_refuted : exists (b b' b'' : zbuf) q l ret len st,
  zreach plain 5 b [] /\ (exists src, zreach plain 5 src q /\ update b src = Ok (b', l))
  /\ qdone q (length q - 1) = true
  /\ add 0%Z Z.add (fun x : nat => x) plain b' (zt 9 true) = Ok (b'', (2, ret, len, st))
  /\ len = 1 /\ st <> 2.
Proof. exact C53_start_after_update_refuted_lemma. Qed.
Print Assumptions C53_start_after_update_refuted.

(** C54.  [add] with [buffer_ids] given, on a fresh buffer: the id list [3] and the list [0; 7]
    (two ids for one row) are accepted. *)
Theorem C54_bad_ids_accepted_refuted : forall n (t : trans nat nat unit Z), 0 < n ->
  let b : zbuf := buf_init 0%Z n in
  let ok := add 0%Z Z.add (fun x : nat => x) plain b t in
  (exists x, ok = Ok x)
  /\ add_stacked 0%Z Z.add (fun x : nat => x) plain b [3%Z] [t] = ok
  /\ add_stacked 0%Z Z.add (fun x : nat => x) plain b [0%Z; 7%Z] [t] = ok.
Proof. exact C54_bad_ids_accepted_refuted_lemma. Qed.
Print Assumptions C54_bad_ids_accepted_refuted.

(** C54.  Exactly which calls pass the check: a one-row batch, and a one-element id list or one
    starting with 0. *)
Theorem C54_check_partial : forall ids k,
  check_buffer_ids ids k = Ok tt
  <-> k = 1 /\ (length ids = 1 \/ exists rest, ids = 0%Z :: rest).
Proof. exact C54_check_partial_lemma. Qed.
Print Assumptions C54_check_partial.

(** C55.  [dropnull] on a full buffer without any null: the insertion index becomes the
    capacity, and the next [add] fails. *)
Theorem C55_dropnull_full_refuted : exists (b : zbuf) q,
  zreach plain 2 b q /\ length q = 2
  /\ b_meta (dropnull b (fun _ => true)) = b_meta b
  /\ add 0%Z Z.add (fun x : nat => x) plain (dropnull b (fun _ => true)) (zt 9 true) = Err IndexError.
Proof. exact C55_dropnull_full_refuted_lemma. Qed.
Print Assumptions C55_dropnull_full_refuted.

(** C55, for every buffer: whatever dropnull removes, the next [add] fails.  The insertion index is
    the number of rows left, and the array has no more rows than that. *)
Theorem C55_add_after_dropnull_refuted : forall (Ob A Inf R : Type) (r0 : R) radd (last_frame : Ob -> Ob) o (b : buf Ob A Inf R) keep t,
  b_meta b <> None -> exists e, add r0 radd last_frame o (dropnull b keep) t = Err e.
Proof. exact C55_add_after_dropnull_refuted_lemma. Qed.
Print Assumptions C55_add_after_dropnull_refuted.

(** C53.  From the first episode end after update() on, the reported starts are right: an [add]
    right after one that ended an episode reports the index it writes to, and a length-1 episode
    with the return of that one reward. *)
Theorem C53_next_episode_partial : forall (Ob A Inf R : Type) (r0 : R) radd (last_frame : Ob -> Ob) o
    (b src b1 b2 b3 b4 : buf Ob A Inf R) l ts rs t r t' i ret len st,
  update b src = Ok (b1, l) -> buf_run r0 radd last_frame o b1 (map OpAdd ts) = Ok (b2, rs) ->
  add r0 radd last_frame o b2 t = Ok (b3, r) -> t_term t || t_trunc t = true ->
  add r0 radd last_frame o b3 t' = Ok (b4, (i, ret, len, st)) ->
  st = i /\ (t_term t' || t_trunc t' = true -> len = 1 /\ ret = radd r0 (t_rew t')).
Proof. exact C53_next_episode_partial_lemma. Qed.
Print Assumptions C53_next_episode_partial.

(** ** Non-vacuity *)

(** Capacity 4, seven transitions, episodes of lengths 3, 1, 2+: the ring wraps around. *)
Definition ex_ts := [zt 1 false; zt 2 false; zt 3 true; zt 4 true; zt 5 false; zt 6 false; zt 7 false].
Definition ex_buf (o : opts) : zbuf :=
  match zrun o (buf_init 0%Z 4) (map OpAdd ex_ts) with Ok x => fst x | Err _ => buf_init 0%Z 4 end.
Definition ex_q (o : opts) := fold_left (fun q t => push 4 q [kept (fun x => x) o t]) ex_ts [].

Example C01_ex_reach : forall o, zreach o 4 (ex_buf o) (ex_q o).
Proof.
  intros o. destruct (zrun o (buf_init 0%Z 4) (map OpAdd ex_ts)) as [[b rs]|e] eqn:E.
  - unfold ex_buf. rewrite E. apply (run_reach o 4 ex_ts _ _ b rs (reach_init _ _ _ _ _) E).
  - vm_compute in E. discriminate.
Qed.
Example C01_ex_content : map s_act (ex_q plain) = [4; 5; 6; 7] /\ ins (b_st (ex_buf plain)) = 3.
Proof. vm_compute. auto. Qed.
(** [update] from the wrapped buffer, then a [reset]. *)
Example C01_ex_update : exists b' l, update (buf_init 0%Z 3) (ex_buf plain) = Ok (b', l)
  /\ l = [0; 1; 2; 0] /\ zreach plain 3 b' (push 3 [] (ex_q plain))
  /\ map s_act (push 3 [] (ex_q plain)) = [5; 6; 7].
Proof.
  destruct (update (buf_init 0%Z 3) (ex_buf plain)) as [[b' l]|e] eqn:E; [|vm_compute in E; discriminate].
  exists b', l. split; [reflexivity|]. split; [vm_compute in E; injection E as _ <-; reflexivity|].
  split; [|reflexivity].
  apply (reach_update _ _ _ _ 3 _ [] 4 _ (ex_q plain) b' l (reach_init _ _ _ _ _) (C01_ex_reach plain) E).
Qed.
(** Episode returns 1+2+3, 4; starts 0, 3; the third episode starts at 0 again (4 mod 4). *)
Example C02_ex : snd (epi_run 0%Z Z.add 4 epi0 (map (@OpAdd nat nat unit Z) (ex_ts ++ [zt 8 true])))
  = [(0, 0%Z, 0, 0); (1, 0%Z, 0, 0); (2, 6%Z, 3, 0); (3, 4%Z, 1, 3);
     (0, 0%Z, 0, 0); (1, 0%Z, 0, 0); (2, 0%Z, 0, 0); (3, 26%Z, 4, 0)].
Proof. vm_compute. reflexivity. Qed.
Example C03_ex : prev (ex_buf plain) [3; 0; 1; 2]%Z = Ok [3; 0; 0; 1]%Z
  /\ next (ex_buf plain) [3; 0; 1; 2]%Z = Ok [3; 1; 2; 2]%Z.
Proof. vm_compute. auto. Qed.
Example C04_ex : unfinished_index (ex_buf plain) = Ok [2] /\ b_meta (ex_buf plain) <> None.
Proof. split; [reflexivity|]. vm_compute. discriminate. Qed.
(** Two frames: only the last two transitions of the running episode qualify. *)
Definition stk : opts := mkOpts 2 false false true.
Example C05_ex : sample_indices stk (ex_buf stk) (fun _ => 5) (Some 0%Z) = Ok [1; 2]
  /\ sample_indices stk (ex_buf stk) (fun j => j) (Some 3%Z) = Ok [1; 2; 1].
Proof. vm_compute. auto. Qed.
Example C06_ex : match getitem stk (ex_buf stk) [3; 0; 1]%Z with
  | Ok l => map o_obs l = [[Some 4; Some 4]; [Some 5; Some 5]; [Some 5; Some 6]]
            /\ map o_obs_next l = [[Some 4; Some 4]; [Some 5; Some 6]; [Some 6; Some 7]]
  | Err _ => False end.
Proof. vm_compute. auto. Qed.
Example C54_ex_reject : check_buffer_ids [4; 7]%Z 1 = Err ValueError /\ check_buffer_ids [] 1 = Err IndexError
  /\ check_buffer_ids [0]%Z 2 = Err ValueError.
Proof. vm_compute. auto. Qed.
(** [update], one [add], an episode end, and the next episode starts where it is written (index 0). *)
Example C53_ex : exists b1 l b2 rs b3 r b4, update (buf_init 0%Z 3) (ex_buf plain) = Ok (b1, l)
  /\ zrun plain b1 (map OpAdd [zt 8 false]) = Ok (b2, rs)
  /\ add 0%Z Z.add (fun x : nat => x) plain b2 (zt 9 true) = Ok (b3, r)
  /\ add 0%Z Z.add (fun x : nat => x) plain b3 (zt 10 true) = Ok (b4, (0, 10%Z, 1, 0)).
Proof.
  do 7 eexists. split; [vm_compute; reflexivity|]. split; [vm_compute; reflexivity|].
  split; [vm_compute; reflexivity|]. vm_compute. reflexivity.
Qed.
Example C55_ex : b_meta (ex_buf plain) <> None /\ option_map (@length _) (b_meta (dropnull (ex_buf plain) (fun s => negb (s_act s =? 5)))) = Some 3.
Proof. split; vm_compute; [discriminate|reflexivity]. Qed.
