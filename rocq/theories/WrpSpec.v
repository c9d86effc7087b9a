(** * Environments whose observations or actions are transformed by a wrapper (specification only).

    [fo], [fi] transform observations and infos. *)
From Verif Require Export Py BufferModel ManagerModel CollectModel TatSpec.
Open Scope nat_scope.

Section Obs.
Context {Ob Ob' A B Inf Inf' R H ES PS : Type}.
Variables (fo : Ob -> Ob') (fi : Inf -> Inf').
Definition obs_trans (t : trans Ob A Inf R) : trans Ob' A Inf' R :=
  mkTrans (fo (t_obs t)) (t_act t) (t_rew t) (t_term t) (t_trunc t) (fo (t_obs_next t)) (fi (t_info t)).
Definition obs_slot (s : slot Ob A Inf R) : slot Ob' A Inf' R :=
  mkSlot (fo (s_obs s)) (s_act s) (s_rew s) (s_term s) (s_trunc s) (s_done s) (option_map fo (s_obs_next s)) (fi (s_info s)).
Definition obs_meta (m : meta_t Ob A Inf R) : meta_t Ob' A Inf' R := option_map (map (option_map obs_slot)) m.
Definition obs_mgr (m : mgr Ob A Inf R) : mgr Ob' A Inf' R := mkMgr (m_bufs m) (obs_meta (m_meta m)) (m_last m) (m_lens m).
Definition obs_out (x : row_out Ob A Inf R) : row_out Ob' A Inf' R :=
  mkOut (map (option_map fo) (o_obs x)) (option_map obs_slot (o_cur x)) (map (option_map fo) (o_obs_next x)) (map (option_map fi) (o_info x)).
Definition obs_sres (r : sres Ob Inf R) : sres Ob' Inf' R := mkSres (fo (r_obs r)) (r_rew r) (r_term r) (r_trunc r) (fi (r_info r)).
(** The wrapped environment, and a policy for it used without the wrapper. *)
Definition obs_step (estep : nat -> ES -> B -> ES * sres Ob Inf R) (e : nat) (s : ES) (b : B) : ES * sres Ob' Inf' R :=
  let '(s', r) := estep e s b in (s', obs_sres r).
Definition obs_reset (ereset : nat -> ES -> ES * (Ob * Inf)) (e : nat) (s : ES) : ES * (Ob' * Inf') :=
  let '(s', (ob, inf)) := ereset e s in (s', (fo ob, fi inf)).
Definition obs_act (act_fn : PS -> list nat -> list Ob' -> list Inf' -> option (list H) -> PS * (list (A * B) * option (list H)))
    (p : PS) (ids : list nat) (obs : list Ob) (inf : list Inf) (hid : option (list H)) : PS * (list (A * B) * option (list H)) :=
  act_fn p ids (map fo obs) (map fi inf) hid.
Definition obs_coll (c : coll Ob A Inf R H ES PS) : coll Ob' A Inf' R H ES PS :=
  mkColl (c_envs c) (obs_mgr (c_mgr c)) (c_pol c) (option_map (fun x => (map fo (fst x), map fi (snd x))) (c_pre c)) (c_hid c) (c_step c) (c_episode c).
Definition obs_loop (l : loop Ob A B Inf R H ES PS) : loop Ob' A B Inf' R H ES PS :=
  mkLoop (l_envs l) (obs_mgr (l_mgr l)) (l_pol l) (l_ready l) (map fo (l_obs l)) (map fi (l_inf l)) (l_hid l) (l_steps l) (l_eps l)
    (l_stats l) (map (map obs_out) (l_hook l)) (map (fun x => let '(ids, obs, acts) := x in (ids, map fo obs, acts)) (l_calls l)).
End Obs.

Section Act.
Context {Ob A B B' Inf R H ES PS : Type}.
(** The transformation of actions, as done by [gym.ActionWrapper]. *)
Variable fb : B' -> B.
Definition act_step (estep : nat -> ES -> B -> ES * sres Ob Inf R) (e : nat) (s : ES) (b : B') : ES * sres Ob Inf R := estep e s (fb b).
Definition act_act (act_fn : PS -> list nat -> list Ob -> list Inf -> option (list H) -> PS * (list (A * B') * option (list H)))
    (p : PS) (ids : list nat) (obs : list Ob) (inf : list Inf) (hid : option (list H)) : PS * (list (A * B) * option (list H)) :=
  let '(p', (acts, hid')) := act_fn p ids obs inf hid in (p', (map (fun ab => (fst ab, fb (snd ab))) acts, hid')).
Definition act_loop (l : loop Ob A B' Inf R H ES PS) : loop Ob A B Inf R H ES PS :=
  mkLoop (l_envs l) (l_mgr l) (l_pol l) (l_ready l) (l_obs l) (l_inf l) (l_hid l) (l_steps l) (l_eps l) (l_stats l) (l_hook l)
    (map (fun x => let '(ids, obs, acts) := x in (ids, obs, map (fun ab => (fst ab, fb (snd ab))) acts)) (l_calls l)).
End Act.
