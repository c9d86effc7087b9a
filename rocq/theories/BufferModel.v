(** * Model of [tianshou/data/buffer/base.py] (class ReplayBuffer).

    The payload of a transition (obs, act, info, and the type of rewards with its addition)
    is arbitrary.  [r0]/[radd] stand for [0.0] and [+=] on the episode return; nothing is
    assumed about them, so floating point is covered.

    Simplifications:
    - [_meta] is [None] for the key-less [Batch()] and otherwise a list with one slot per row;
      a slot is [None] while it only holds the zeros [create_value] allocated (its [done] is
      False), [Some s] after a write.  Key allocation and dtype conversion of [Batch] are in
      the Batch model.
    - Randomness: [np.random.choice(n, k)] is [k] draws of an arbitrary function, reduced
      modulo [n], so every possible outcome is covered.
    - the [policy] key is treated like [info] and not modelled separately; a missing required
      key cannot occur since [trans] is a record. *)
From Verif Require Export Py.
Open Scope nat_scope.

Section Buffer.
Context {Ob A Inf R : Type}.
Variable r0 : R.
Variable radd : R -> R -> R.
(** [obs[-1]] on a stacked observation (save_only_last_obs). *)
Variable last_frame : Ob -> Ob.

(** What the caller passes to [add]: RolloutBatchProtocol, one row. *)
Record trans : Type := mkTrans {
  t_obs : Ob; t_act : A; t_rew : R; t_term : bool; t_trunc : bool; t_obs_next : Ob; t_info : Inf
}.

(** One row of [_meta] after a write. *)
Record slot : Type := mkSlot {
  s_obs : Ob; s_act : A; s_rew : R; s_term : bool; s_trunc : bool; s_done : bool;
  s_obs_next : option Ob; s_info : Inf
}.

(** base.py:73-90, the constructor options. *)
Record opts : Type := mkOpts {
  stack_num : nat; save_obs_next : bool; save_only_last_obs : bool; sample_avail : bool
}.

(** Scalar state, base.py:100-103. *)
Record bst : Type := mkBst {
  maxsize : nat; ins : nat; size : nat; last_index : nat;
  ep_return : R; ep_len : nat; ep_start_idx : nat
}.

Definition meta_t : Type := option (list (option slot)).

Record buf : Type := mkBuf { b_st : bst; b_meta : meta_t }.

(** base.py:73-103 [__init__]. *)
Definition bst_init (n : nat) : bst := mkBst n 0 0 0 r0 0 0.
Definition buf_init (n : nat) : buf := mkBuf (bst_init n) None.

(** base.py:285-291 [reset]; [_meta] keeps its arrays. *)
Definition bst_reset (keep : bool) (s : bst) : bst :=
  mkBst (maxsize s) 0 0 0
    (if keep then ep_return s else r0) (if keep then ep_len s else 0) 0.
Definition buf_reset (keep : bool) (b : buf) : buf := mkBuf (bst_reset keep (b_st b)) (b_meta b).

(** The [done] column; unwritten rows hold False. *)
Definition slot_done (s : option slot) : bool :=
  match s with Some s => s_done s | None => false end.

(** NumPy integer remainder: floor convention, and 0 (with a warning) for a zero divisor. *)
Definition np_mod (a n : Z) : Z := if (n =? 0)%Z then 0%Z else (a mod n)%Z.

(** base.py:302-305 [unfinished_index]. *)
Definition unfinished_index (b : buf) : res (list nat) :=
  let s := b_st b in
  let last := if size s =? 0 then 0%Z
              else ((Z.of_nat (ins s) - 1) mod Z.of_nat (size s))%Z in
  match b_meta b with
  | None => Err AttributeError            (* self.done on a buffer without keys *)
  | Some m =>
      let* d := zget m last in
      Ok (if negb (slot_done d) && negb (size s =? 0) then [Z.to_nat last] else [])
  end.

(** base.py:307-314 [prev] on an index array. *)
Definition prev (b : buf) (index : list Z) : res (list Z) :=
  let s := b_st b in
  let n := Z.of_nat (size s) in
  match b_meta b with
  | None => Err AttributeError
  | Some m =>
      mapM (fun i =>
        let i := np_mod (i - 1) n in
        let* d := zget m i in
        let end_flag := slot_done d || (i =? Z.of_nat (last_index s))%Z in
        Ok (np_mod (i + (if end_flag then 1 else 0)) n)) index
  end.

(** base.py:316-322 [next] on an index array. *)
Definition next (b : buf) (index : list Z) : res (list Z) :=
  let s := b_st b in
  let n := Z.of_nat (size s) in
  match b_meta b with
  | None => Err AttributeError
  | Some m =>
      mapM (fun i =>
        let* d := zget m i in
        let end_flag := slot_done d || (i =? Z.of_nat (last_index s))%Z in
        Ok (np_mod (i + (1 - (if end_flag then 1 else 0))) n)) index
  end.

(** base.py:348-403 [_update_state_pre_add]: new scalar state and
    (insertion index, episode return, episode length, episode start). *)
Definition update_state_pre_add (s : bst) (rew : R) (done : bool)
  : res (bst * (nat * R * nat * nat)) :=
  guard (negb (maxsize s =? 0)) ZeroDivisionError
  (let cur := ins s in
   let size' := Nat.min (size s + 1) (maxsize s) in
   let ins' := (ins s + 1) mod maxsize s in
   let ret := radd (ep_return s) rew in
   let len := ep_len s + 1 in
   guard (negb (size' <? ep_start_idx s)) MalformedBufferError
   (let result := (cur, if done then ret else r0, if done then len else 0, ep_start_idx s) in
    Ok (if done then mkBst (maxsize s) ins' size' cur r0 0 ins'
        else mkBst (maxsize s) ins' size' cur ret len (ep_start_idx s), result))).

(** base.py:433-464: the row stored for a transition. *)
Definition row (o : opts) (t : trans) : slot :=
  mkSlot (if save_only_last_obs o then last_frame (t_obs t) else t_obs t)
         (t_act t) (t_rew t) (t_term t) (t_trunc t) (t_term t || t_trunc t)
         (if save_obs_next o
          then Some (if save_only_last_obs o then last_frame (t_obs_next t) else t_obs_next t)
          else None)
         (t_info t).

(** [_meta], allocating it on first use (create_value, base.py:473-485). *)
Definition meta_rows (n : nat) (m : meta_t) : list (option slot) :=
  match m with None => repeat None n | Some l => l end.

(** base.py:405-486 [add] of one transition. *)
Definition add (o : opts) (b : buf) (t : trans) : res (buf * (nat * R * nat * nat)) :=
  let done := t_term t || t_trunc t in
  let* sr := update_state_pre_add (b_st b) (t_rew t) done in
  let '(s', (i, ret, len, st)) := sr in
  let m := meta_rows (maxsize s') (b_meta b) in
  guard (i <? length m) IndexError
  (Ok (mkBuf s' (Some (upd m i (Some (row o t)))), (i, ret, len, st))).

(** base.py:441-455: the test of [buffer_ids], literally. *)
Definition check_buffer_ids (ids : list Z) (batch_len : nat) : res unit :=
  let* _ := (if negb (length ids =? 1)
             then let* i0 := zget ids 0 in
                  (if negb (i0 =? 0)%Z then Err ValueError else Ok tt)
             else Ok tt) in
  guard (batch_len =? 1) ValueError (Ok tt).

(** base.py:405-486 [add] with [buffer_ids] given: the batch has a leading axis. *)
Definition add_stacked (o : opts) (b : buf) (ids : list Z) (batch : list trans)
  : res (buf * (nat * R * nat * nat)) :=
  let* _ := check_buffer_ids ids (length batch) in
  match batch with
  | [t] => add o b t
  | _ => Err ValueError
  end.

(** base.py:508-510, 519-521: all stored indices, oldest first. *)
Definition all_indices (s : bst) : list nat := arange (ins s) (size s) ++ arange 0 (ins s).

(** [np.random.choice(n, k)] / [np.random.choice(l, k)]. *)
Definition choice {T} (rnd : nat -> nat) (l : list T) (k : nat) : res (list T) :=
  if (length l =? 0) && negb (k =? 0) then Err ValueError
  else mapM (fun j => match nth_error l (rnd j mod length l) with
                      | Some x => Ok x | None => Err IndexError end) (seq 0 k).

(** [for _ in range(k): x = self.prev(x)] (base.py:522-523). *)
Fixpoint prev_n (b : buf) (k : nat) (index : list Z) : res (list Z) :=
  match k with
  | O => Ok index
  | S k => let* i := prev b index in prev_n b k i
  end.

(** base.py:488-524 [sample_indices]; [None] is the Python default argument value. *)
Definition sample_indices (o : opts) (b : buf) (rnd : nat -> nat) (batch_size : option Z)
  : res (list nat) :=
  let s := b_st b in
  let bs := match batch_size with None => Z.of_nat (size s) | Some z => z end in
  if (stack_num o =? 1) || negb (sample_avail o) then
    if (0 <? bs)%Z then choice rnd (seq 0 (size s)) (Z.to_nat bs)
    else if (bs =? 0)%Z then Ok (all_indices s)
    else Ok []
  else if (bs <? 0)%Z then Ok []
  else
    let all := all_indices s in
    let* pi := prev_n b (stack_num o - 2) (map Z.of_nat all) in
    let* pp := prev b pi in
    let all := map fst (filter (fun x => negb (fst (snd x) =? snd (snd x))%Z)
                          (combine all (combine pi pp))) in
    if (0 <? bs)%Z then choice rnd all (Z.to_nat bs) else Ok all.

(** base.py:324-346 [update]: move the rows of [src] to [b]. *)
Definition advance (s : bst) : bst :=
  mkBst (maxsize s) ((ins s + 1) mod maxsize s) (Nat.min (size s + 1) (maxsize s)) (ins s)
        (ep_return s) (ep_len s) (ep_start_idx s).

(** base.py:338-342: the loop; returns the new state and the updated indices. *)
Fixpoint advance_n (k : nat) (s : bst) : bst * list nat :=
  match k with
  | O => (s, [])
  | S k => let '(s', l) := advance_n k (advance s) in (s', ins s :: l)
  end.

Definition update (b src : buf) : res (buf * list nat) :=
  if (size (b_st src) =? 0) || (maxsize (b_st b) =? 0) then Ok (b, [])
  else
    let from := all_indices (b_st src) in    (* sample_indices(0) with stack_num = 1 *)
    if length from =? 0 then Ok (b, [])
    else
      let '(s', upd_idx) := advance_n (length from) (b_st b) in
      let m := meta_rows (maxsize s') (b_meta b) in
      let* rows := mapM (fun i => match nth_error (meta_rows (maxsize (b_st src)) (b_meta src)) i with
                                  | Some x => Ok x | None => Err IndexError end) from in
      guard (forallb (fun i => i <? length m) upd_idx) IndexError
      (Ok (mkBuf s' (Some (fold_left (fun m ix => upd m (fst ix) (snd ix)) (combine upd_idx rows) m)),
           upd_idx)).

(** base.py:254-283 [from_data]: only [_meta] and [_size] are set. *)
Definition from_data (rows : list slot) : buf :=
  let b := buf_init (length rows) in
  if length rows =? 0 then b
  else let s := b_st b in
       mkBuf (mkBst (maxsize s) (ins s) (length rows) (last_index s) (ep_return s) (ep_len s)
                (ep_start_idx s)) (Some (map Some rows)).

(** base.py:536-582 [get] for one key (the projection is applied to the rows afterwards):
    the result has one entry per index, itself the list of stacked rows, oldest first. *)
Definition rows_at (b : buf) (index : list Z) : res (list (option slot)) :=
  match b_meta b with
  | None => Err KeyError
  | Some m => mapM (zget m) index
  end.

Fixpoint get_loop (k : nat) (b : buf) (index : list Z) (stack : list (list (option slot)))
  : res (list (list (option slot))) :=
  match k with
  | O => Ok stack
  | S k => let* v := rows_at b index in
           let* index' := prev b index in
           get_loop k b index' (v :: stack)
  end.

(** [np.stack(stack, axis=1)]: entry [i] collects the [i]-th element of every frame. *)
Definition transpose (n : nat) (stack : list (list (option slot))) : list (list (option slot)) :=
  map (fun i => map (fun fr => nth i fr None) stack) (seq 0 n).

Definition get_rows (b : buf) (k : nat) (index : list Z) : res (list (list (option slot))) :=
  if k =? 1 then let* v := rows_at b index in Ok (map (fun x => [x]) v)
  else let* st := get_loop k b index [] in Ok (transpose (length index) st).

(** base.py:584-628 [__getitem__] on an index array (a full slice is [sample_indices(0)],
    lines 595-600). *)
Record row_out : Type := mkOut {
  o_obs : list (option Ob); o_cur : option slot; o_obs_next : list (option Ob);
  o_info : list (option Inf)
}.

Definition getitem (o : opts) (b : buf) (index : list Z) : res (list row_out) :=
  let* fr := get_rows b (stack_num o) index in
  let* frn := (if save_obs_next o then
                 let* f := get_rows b (stack_num o) index in
                 Ok (map (map (fun x => match x with Some s => s_obs_next s | None => None end)) f)
               else let* nx := next b index in
                    let* f := get_rows b (stack_num o) nx in
                    Ok (map (map (option_map s_obs)) f)) in
  let* cur := rows_at b index in
  Ok (map (fun x => mkOut (map (option_map s_obs) (fst x)) (fst (snd x)) (snd (snd x))
                      (map (option_map s_info) (fst x)))
          (combine fr (combine cur frn))).

(** base.py:645-649 [dropnull]: [keep] says which rows of [_meta] have no null. *)
Definition dropnull (b : buf) (keep : slot -> bool) : buf :=
  let m := filter (fun x => match x with Some s => keep s | None => true end)
             (meta_rows (maxsize (b_st b)) (b_meta b)) in
  let s := b_st b in
  mkBuf (mkBst (maxsize s) (length m) (length m) (last_index s) (ep_return s) (ep_len s)
           (ep_start_idx s)) (Some m).

End Buffer.

Arguments trans : clear implicits.
Arguments slot : clear implicits.
Arguments bst : clear implicits.
Arguments buf : clear implicits.
Arguments row_out : clear implicits.
Arguments meta_t : clear implicits.
