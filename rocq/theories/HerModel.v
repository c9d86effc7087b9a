(** * Model of [tianshou/data/buffer/her.py] (class HERReplayBuffer).

    Simplifications:
    - an observation is a record of its [observation], [achieved_goal] and [desired_goal];
      [compute_reward_fn] works row by row ([rew_fn achieved desired]).
    - the random choices are arbitrary functions: [offs k] gives the (rounded) future offset of
      sampled index number [k], reduced modulo [episodes_len + 1]; [her e] tells whether episode
      number [e] is among the [her_ep_indices] (any subset, not only those of the right size).
    - with [stack_num > 1] the frame axis does not fit when the rows are written back: ValueError. *)
From Verif Require Export Py BufferModel.
Open Scope nat_scope.

Record gobs (Ob0 G : Type) : Type := mkG { g_in : Ob0; g_ach : G; g_des : G }.
Arguments mkG {Ob0 G}. Arguments g_in {Ob0 G}. Arguments g_ach {Ob0 G}. Arguments g_des {Ob0 G}.
Definition set_des {Ob0 G} (o : gobs Ob0 G) (g : G) : gobs Ob0 G := mkG (g_in o) (g_ach o) g.

(** [np.sort]. *)
Fixpoint insert (x : nat) (l : list nat) : list nat :=
  match l with
  | [] => [x]
  | y :: t => if x <=? y then x :: l else y :: insert x t
  end.
Definition np_sort (l : list nat) : list nat := fold_right insert [] l.

(** her.py:134: positions of the first occurrences, ascending
    ([np.sort(np.unique(terminal, return_index=True)[1])]). *)
Definition ep_opens (terminal : list nat) : list nat :=
  filter (fun k => negb (existsb (Nat.eqb (nth k terminal 0)) (firstn k terminal)))
         (seq 0 (length terminal)).
(** her.py:137. *)
Definition ep_closes (terminal : list nat) : list nat :=
  map (fun k => k - 1) (tl (ep_opens terminal)) ++ [length terminal - 1].

Section Her.
Context {Ob0 G A Inf R : Type}.
Variable r0 : R.
Variable radd : R -> R -> R.
Variable last_frame : gobs Ob0 G -> gobs Ob0 G.
Variable rew_fn : G -> G -> R.
Notation trans := (trans (gobs Ob0 G) A Inf R).
Notation slot := (slot (gobs Ob0 G) A Inf R).
Notation buf := (buf (gobs Ob0 G) A Inf R).

(** The buffer with [_altered_indices] and [_original_meta], paired. *)
Record her : Type := mkHer { h_buf : buf; h_alt : list (nat * option slot) }.
Definition her_init (n : nat) : her := mkHer (buf_init r0 n) [].

Definition write_rows (m : list (option slot)) (l : list (nat * option slot)) : list (option slot) :=
  fold_left (fun m ix => upd m (fst ix) (snd ix)) l m.

(** her.py:48-61 [_restore_cache]. *)
Definition restore_cache (h : her) : her :=
  match h_alt h with
  | [] => h
  | l => mkHer (mkBuf (b_st (h_buf h)) (option_map (fun m => write_rows m l) (b_meta (h_buf h)))) []
  end.

(** her.py:112-115: the sampled indices in chronological order. *)
Definition chrono (s : bst R) (index : list nat) : list nat :=
  map (fun i => if maxsize s <=? i then i - maxsize s else i)
      (np_sort (map (fun i => if i <? ins s then i + maxsize s else i) index)).

(** her.py:117-121: [k + 1] rows of indices, each the [next] of the one before. *)
Fixpoint trajectories (b : buf) (k : nat) (cur : list Z) : res (list (list Z)) :=
  match k with
  | O => Ok [cur]
  | S k => let* nx := next b cur in
           let* r := trajectories b k nx in Ok (cur :: r)
  end.

Definition row_at (m : list (option slot)) (i : nat) : option slot := nth i m None.
Definition ach_of (x : option slot) (f : slot -> option (gobs Ob0 G)) : option G :=
  match x with
  | Some s => option_map g_ach (f s)
  | None => None
  end.

(** her.py:164-188 for one row: [goal] is the new goal of the row's episode (None: the episode
    is not rewritten); [nxt] is the row of [self.next(index)], read before anything is written. *)
Definition rewrite_row (o : opts) (goal : option G) (nxt : option slot) (x : option slot) : option slot :=
  match goal, x with
  | Some g, Some s =>
      let obs' := set_des (s_obs s) g in
      if save_obs_next o then
        match s_obs_next s with
        | Some ob => Some (mkSlot obs' (s_act s) (rew_fn (g_ach ob) g) (s_term s) (s_trunc s) (s_done s)
                                  (Some (set_des ob g)) (s_info s))
        | None => x
        end
      else
        match nxt with
        | Some sn => Some (mkSlot obs' (s_act s) (rew_fn (g_ach (s_obs sn)) (g_des (s_obs sn)))
                                  (s_term s) (s_trunc s) (s_done s) None (s_info s))
        | None => x
        end
  | _, _ => x
  end.

(** her.py:100-188 [rewrite_transitions]. *)
Definition rewrite_transitions (o : opts) (h : her) (index : list nat) (horizon : nat)
    (offs : nat -> nat) (hsel : nat -> bool) : res her :=
  if length index =? 0 then Ok h
  else if negb (stack_num o =? 1) then Err ValueError
  else
    let b := h_buf h in
    let s := b_st b in
    match b_meta b with
    | None => Err AttributeError
    | Some m =>
        let cur := chrono s index in
        let* traj := trajectories b (horizon - 1) (map Z.of_nat cur) in
        let rows := map (map Z.to_nat) traj in
        let terminal := last rows [] in
        (* her.py:123-129 *)
        let future k :=
          let len := (nth k terminal 0 + maxsize s - nth k cur 0) mod maxsize s in
          (nth k cur 0 + offs k mod (len + 1)) mod maxsize s in
        let opens := ep_opens terminal in
        let closes := ep_closes terminal in
        (* her.py:157-162 *)
        let* goals := mapM (fun e =>
          let f := future (nth e closes 0) in
          if save_obs_next o then Ok (ach_of (row_at m f) s_obs_next)
          else let* nf := next b [Z.of_nat f] in
               Ok (ach_of (row_at m (Z.to_nat (hd 0%Z nf))) (fun s => Some (s_obs s))))
          (seq 0 (length opens)) in
        let* cells := mapM (fun row =>
          mapM (fun e =>
            let i := nth (nth e opens 0) row 0 in
            let* ni := next b [Z.of_nat i] in
            let x := row_at m i in
            Ok (i, (x, rewrite_row o (if hsel e then nth e goals None else None)
                         (row_at m (Z.to_nat (hd 0%Z ni))) x)))
            (seq 0 (length opens))) rows in
        let cells := concat cells in
        Ok (mkHer (mkBuf s (Some (write_rows m (map (fun c => (fst c, snd (snd c))) cells))))
                  (map (fun c => (fst c, fst (snd c))) cells))
    end.

(** her.py:87-98 [sample_indices]. *)
Definition h_sample (o : opts) (h : her) (rnd : nat -> nat) (bs : option Z) (horizon : nat)
    (offs : nat -> nat) (hsel : nat -> bool) : res (her * list nat) :=
  let h := restore_cache h in
  let* idx := sample_indices o (h_buf h) rnd bs in
  let* h' := rewrite_transitions o h idx horizon offs hsel in
  Ok (h', idx).

(** her.py:63-85: [add], [reset], [update] restore first.  A plain ReplayBuffer source. *)
Definition h_add (o : opts) (h : her) (t : trans) : res (her * (nat * R * nat * nat)) :=
  let h := restore_cache h in
  let* x := add r0 radd last_frame o (h_buf h) t in
  Ok (mkHer (fst x) (h_alt h), snd x).
Definition h_reset (keep : bool) (h : her) : her :=
  let h := restore_cache h in mkHer (buf_reset r0 keep (h_buf h)) (h_alt h).
Definition h_update (h : her) (src : buf) : res (her * list nat) :=
  let h := restore_cache h in
  let* x := update (h_buf h) src in Ok (mkHer (fst x) (h_alt h), snd x).
(** [update] with a HERReplayBuffer source: base.py:333 calls the source's [sample_indices(0)]
    with [stack_num] 1, which rewrites the source before its rows are copied. *)
Definition h_update_from (o : opts) (h src : her) (horizon : nat) (offs : nat -> nat) (hsel : nat -> bool)
  : res (her * her * list nat) :=
  let h := restore_cache h in
  if (size (b_st (h_buf src)) =? 0) || (maxsize (b_st (h_buf h)) =? 0) then Ok (h, src, [])
  else
    let* y := h_sample (mkOpts 1 (save_obs_next o) (save_only_last_obs o) (sample_avail o))
                src (fun _ => 0) (Some 0%Z) horizon offs hsel in
    let* x := update (h_buf h) (h_buf (fst y)) in
    Ok (mkHer (fst x) (h_alt h), fst y, snd x).
(** [save_hdf5] writes the restored [_meta]. *)
Definition h_saved (h : her) : buf := h_buf (restore_cache h).

End Her.
Arguments her : clear implicits.
