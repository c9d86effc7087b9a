(** * Changing the rewards and the flags of stored data (specification only).

    [f] changes rewards, [g] the pair (terminated, truncated). *)
From Verif Require Export Py BufferModel ManagerModel CollectModel ReturnsModel.
Open Scope nat_scope.

Definition rmap {X Y : Type} (h : X -> Y) (x : res X) : res Y := match x with Ok a => Ok (h a) | Err e => Err e end.

Section Maps.
Context {Ob A B Inf R R' H ES PS : Type}.
Variable f : R -> R'.
Variable g : bool -> bool -> bool * bool.
Definition map_trans (t : trans Ob A Inf R) : trans Ob A Inf R' :=
  mkTrans (t_obs t) (t_act t) (f (t_rew t)) (fst (g (t_term t) (t_trunc t))) (snd (g (t_term t) (t_trunc t))) (t_obs_next t) (t_info t).
Definition map_slot (s : slot Ob A Inf R) : slot Ob A Inf R' :=
  mkSlot (s_obs s) (s_act s) (f (s_rew s)) (fst (g (s_term s) (s_trunc s))) (snd (g (s_term s) (s_trunc s))) (s_done s) (s_obs_next s) (s_info s).
Definition map_bst (s : bst R) : bst R' := mkBst (maxsize s) (ins s) (size s) (last_index s) (f (ep_return s)) (ep_len s) (ep_start_idx s).
Definition map_meta (m : meta_t Ob A Inf R) : meta_t Ob A Inf R' := option_map (map (option_map map_slot)) m.
Definition map_buf (b : buf Ob A Inf R) : buf Ob A Inf R' := mkBuf (map_bst (b_st b)) (map_meta (b_meta b)).
Definition map_mgr (m : mgr Ob A Inf R) : mgr Ob A Inf R' := mkMgr (map map_bst (m_bufs m)) (map_meta (m_meta m)) (m_last m) (m_lens m).
Definition map_out (x : row_out Ob A Inf R) : row_out Ob A Inf R' := mkOut (o_obs x) (option_map map_slot (o_cur x)) (o_obs_next x) (o_info x).
(** (insertion index, episode return, episode length, episode start) *)
Definition map_rep (x : nat * R * nat * nat) : nat * R' * nat * nat := let '(i, r, n, s) := x in (i, f r, n, s).
(** The environment whose steps are changed likewise. *)
Definition map_sres (r : sres Ob Inf R) : sres Ob Inf R' :=
  mkSres (r_obs r) (f (r_rew r)) (fst (g (r_term r) (r_trunc r))) (snd (g (r_term r) (r_trunc r))) (r_info r).
Definition map_step (estep : nat -> ES -> B -> ES * sres Ob Inf R) (e : nat) (s : ES) (b : B) : ES * sres Ob Inf R' :=
  let '(s', r) := estep e s b in (s', map_sres r).
Definition map_stats (s : stats R) : stats R' := mkStats (st_episodes s) (st_steps s) (map f (st_returns s)) (st_lens s).
Definition map_coll (c : coll Ob A Inf R H ES PS) : coll Ob A Inf R' H ES PS :=
  mkColl (c_envs c) (map_mgr (c_mgr c)) (c_pol c) (c_pre c) (c_hid c) (c_step c) (c_episode c).
Definition map_loop (l : loop Ob A B Inf R H ES PS) : loop Ob A B Inf R' H ES PS :=
  mkLoop (l_envs l) (map_mgr (l_mgr l)) (l_pol l) (l_ready l) (l_obs l) (l_inf l) (l_hid l) (l_steps l) (l_eps l)
    (map_stats (l_stats l)) (map (map map_out) (l_hook l)) (l_calls l).
End Maps.

(** What TruncatedAsTerminated makes of the flags. *)
Definition tat_flags (term trunc : bool) : bool * bool := (term || trunc, trunc).

Section Cut.
Context {Ob A Inf : Type}.
Notation mgr := (mgr Ob A Inf Qc).
(** Whether the rows at [indices] are truncated; [] if one of them does not exist. *)
Definition truncated_at (m : mgr) (indices : list Z) : list bool :=
  match m_meta m with
  | Some l => match mapM (zget (map (fun s : option (slot Ob A Inf Qc) => match s with Some s => s_trunc s | None => false end) l)) indices with Ok ts => ts | Err _ => [] end
  | None => []
  end.
(** Values, replaced by 0 where the flag is set. *)
Definition cut (v : list Qc) (ts : list bool) : list Qc := map (fun x : Qc * bool => if snd x then 0%Qc else fst x) (combine v ts).
Definition cut_rows (q : list (list Qc)) (ts : list bool) : list (list Qc) := map (fun x : list Qc * bool => if snd x then map (fun _ => 0%Qc) (fst x) else fst x) (combine q ts).
(** The row at [i] ends an episode. *)
Definition done_at (m : mgr) (i : Z) : bool :=
  match m_meta m with
  | Some l => match zget l i with Ok s => slot_done s | Err _ => false end
  | None => false
  end.
Definition done_sound (m : mgr) : Prop := forall l s, m_meta m = Some l -> In (Some s) l -> s_done s = s_term s || s_trunc s.
End Cut.
