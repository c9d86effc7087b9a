(** * Proofs: wrappers of observations and of actions *)
From Verif Require Import Py PyLemmas BufferModel ManagerModel GetIndicesModel CollectModel TatSpec TatProofs WrpSpec.
Open Scope nat_scope.

Section Obs.
Context {Ob Ob' A B Inf Inf' R H ES PS : Type}.
Variables (r0 : R) (radd : R -> R -> R).
Variables (fo : Ob -> Ob') (fi : Inf -> Inf').
Variable last_frame : Ob -> Ob.
Variable last_frame' : Ob' -> Ob'.
Variable o : opts.
Hypothesis LF : forall x, last_frame' (fo x) = fo (last_frame x).
Notation mslot := (@obs_slot Ob Ob' A Inf Inf' R fo fi).
Notation mmgr := (@obs_mgr Ob Ob' A Inf Inf' R fo fi).
Notation mtrans := (@obs_trans Ob Ob' A Inf Inf' R fo fi).

Lemma oslot_done (x : option (slot Ob A Inf R)) : slot_done (option_map mslot x) = slot_done x.
Proof. destruct x; reflexivity. Qed.
Lemma otranspose n (st : list (list (option (slot Ob A Inf R)))) : transpose n (map (map (option_map mslot)) st) = map (map (option_map mslot)) (transpose n st).
Proof.
  unfold transpose. rewrite map_map. apply map_ext. intros i. rewrite !map_map. apply map_ext. intros r. exact (map_nth (option_map mslot) r None i).
Qed.
Lemma o_prev m idx : m_prev (mmgr m) idx = m_prev m idx.
Proof.
  unfold m_prev. change (m_zip (mmgr m)) with (m_zip m). change (m_total (mmgr m)) with (m_total m). unfold obs_mgr. cbn [m_meta]. destruct (m_meta m) as [l|]; [|reflexivity]. cbn [obs_meta option_map].
  apply mapM_same. intros i. unfold prev_index1. apply foldM_ext. intros [[[a b] c] d] acc. destruct (_ && _); [|reflexivity]. rewrite zget_map, bind_rmap. apply bind_ext. intros x. rewrite oslot_done. reflexivity.
Qed.
Lemma o_next m idx : m_next (mmgr m) idx = m_next m idx.
Proof.
  unfold m_next. change (m_zip (mmgr m)) with (m_zip m). change (m_total (mmgr m)) with (m_total m). unfold obs_mgr. cbn [m_meta]. destruct (m_meta m) as [l|]; [|reflexivity]. cbn [obs_meta option_map].
  apply mapM_same. intros i. unfold next_index1. apply foldM_ext. intros [[[a b] c] d] acc. destruct (_ && _); [|reflexivity]. rewrite zget_map, bind_rmap. apply bind_ext. intros x. rewrite oslot_done. reflexivity.
Qed.
Lemma o_rows_at m idx : m_rows_at (mmgr m) idx = rmap (map (option_map mslot)) (m_rows_at m idx).
Proof.
  unfold m_rows_at, obs_mgr. cbn [m_meta]. destruct (m_meta m) as [l|]; [|reflexivity]. cbn [obs_meta option_map]. apply mapM_rmap. intros i. apply zget_map.
Qed.
Lemma o_get_loop m : forall k idx st, m_get_loop k (mmgr m) idx (map (map (option_map mslot)) st) = rmap (map (map (option_map mslot))) (m_get_loop k m idx st).
Proof.
  induction k as [|k IH]; intros idx st; [reflexivity|]. cbn [m_get_loop]. rewrite o_rows_at, bind_rmap, rmap_bind. apply bind_ext. intros v. rewrite o_prev, rmap_bind. apply bind_ext. intros idx'.
  apply (IH idx' (v :: st)).
Qed.
Lemma o_get_rows m k idx : m_get_rows (mmgr m) k idx = rmap (map (map (option_map mslot))) (m_get_rows m k idx).
Proof.
  unfold m_get_rows. destruct (k =? 1).
  - rewrite o_rows_at, bind_rmap, rmap_bind. apply bind_ext. intros v. cbn [rmap]. f_equal. rewrite !map_map. reflexivity.
  - pose proof (o_get_loop m k idx []) as E. cbn [map] in E. rewrite E, bind_rmap, rmap_bind. apply bind_ext. intros st. cbn [rmap]. f_equal. apply otranspose.
Qed.
Lemma o_getitem m idx : m_getitem o (mmgr m) idx = rmap (map (obs_out fo fi)) (m_getitem o m idx).
Proof.
  unfold m_getitem. rewrite o_get_rows, bind_rmap, rmap_bind. apply bind_ext. intros fr. rewrite rmap_bind.
  assert (E : forall frn, rmap (map (obs_out fo fi)) (let* cur := m_rows_at m idx in Ok (map (fun x => mkOut (map (option_map s_obs) (fst x)) (fst (snd x)) (snd (snd x)) (map (option_map s_info) (fst x))) (combine fr (combine cur frn)))) =
    (let* cur := m_rows_at (mmgr m) idx in Ok (map (fun x => mkOut (map (option_map s_obs) (fst x)) (fst (snd x)) (snd (snd x)) (map (option_map s_info) (fst x))) (combine (map (map (option_map mslot)) fr) (combine cur (map (map (option_map fo)) frn)))))).
  { intros frn. rewrite o_rows_at, bind_rmap, rmap_bind. apply bind_ext. intros cur. cbn [rmap]. f_equal. rewrite !combine_map_l, !combine_map_r, !map_map. apply map_ext. intros [a [b c]]. cbn [fst snd].
    unfold obs_out. cbn [o_obs o_cur o_obs_next o_info]. f_equal; rewrite !map_map; apply map_ext; intros [x|]; reflexivity. }
  assert (E2 : forall f' : list (list (option (slot Ob A Inf R))), map (map (fun x => match x with Some s => s_obs_next s | None => None end)) (map (map (option_map mslot)) f') = map (map (option_map fo)) (map (map (fun x => match x with Some s => s_obs_next s | None => None end)) f')).
  { intros f'. rewrite !map_map. apply map_ext. intros l. rewrite !map_map. apply map_ext. intros [x|]; reflexivity. }
  assert (E3 : forall f' : list (list (option (slot Ob A Inf R))), map (map (option_map s_obs)) (map (map (option_map mslot)) f') = map (map (option_map fo)) (map (map (option_map s_obs)) f')).
  { intros f'. rewrite !map_map. apply map_ext. intros l. rewrite !map_map. apply map_ext. intros [x|]; reflexivity. }
  destruct (save_obs_next o).
  - rewrite ?bind_rmap. destruct (m_get_rows m (stack_num o) idx) as [f'|]; [|reflexivity]. cbn [bind]. rewrite E, E2. reflexivity.
  - rewrite o_next. destruct (m_next m idx) as [nx|]; [|reflexivity]. cbn [bind]. rewrite o_get_rows, bind_rmap. destruct (m_get_rows m (stack_num o) nx) as [f'|]; [|reflexivity]. cbn [bind]. rewrite E, E3. reflexivity.
Qed.
Lemma o_row t : row last_frame' o (mtrans t) = mslot (row last_frame o t).
Proof. unfold row, obs_trans, obs_slot. cbn [t_obs t_act t_rew t_term t_trunc t_obs_next t_info s_obs s_act s_rew s_term s_trunc s_done s_obs_next s_info]. destruct (save_only_last_obs o), (save_obs_next o); cbn [option_map]; rewrite ?LF; reflexivity. Qed.
Lemma o_add_loop : forall xs bufs last lens, add_loop r0 radd bufs last lens (map (fun x => (fst x, mtrans (snd x))) xs) = add_loop r0 radd bufs last lens xs.
Proof.
  induction xs as [|[id t] xs IH]; intros bufs last lens; [reflexivity|]. cbn [map fst snd add_loop]. apply bind_ext. intros k.
  destruct (nth_error bufs k) as [s|]; [|reflexivity]. cbn [obs_trans t_rew t_term t_trunc]. apply bind_ext. intros [s' [[[i ret] len] st]]. rewrite IH. reflexivity.
Qed.
Lemma o_add m ids ts : m_add r0 radd last_frame' o (mmgr m) ids (map mtrans ts) = rmap (fun x => (mmgr (fst x), snd x)) (m_add r0 radd last_frame o m ids ts).
Proof.
  unfold m_add. rewrite !map_length. change (m_bufs (mmgr m)) with (m_bufs m). set (ids' := match ids with Some ids => ids | None => _ end). rewrite rmap_guard. unfold guard at 1 5. destruct (length ids' <=? length ts); [|reflexivity].
  change (m_last (mmgr m)) with (m_last m). change (m_lens (mmgr m)) with (m_lens m). rewrite combine_map_r, o_add_loop, rmap_bind. apply bind_ext. intros [[[bs la] le] rs]. rewrite !rmap_guard. unfold guard. destruct (negb (length ids' =? 0)); [|reflexivity]. destruct (length ids' =? length ts); [|reflexivity].
  assert (El : meta_rows (m_total (mmgr m)) (m_meta (mmgr m)) = map (option_map mslot) (meta_rows (m_total m) (m_meta m))).
  { change (m_total (mmgr m)) with (m_total m). unfold obs_mgr, meta_rows. cbn [m_meta]. destruct (m_meta m); [reflexivity|]. cbn [obs_meta option_map]. induction (m_total m) as [|n IH]; [reflexivity|]. cbn [repeat map option_map]. f_equal. exact IH. }
  rewrite El, map_length. destruct (forallb _ _); [|reflexivity]. cbn [rmap fst snd]. f_equal. f_equal. unfold obs_mgr. cbn [m_bufs m_meta m_last m_lens obs_meta option_map]. f_equal. f_equal.
  rewrite map_map. rewrite <- put_map. f_equal. rewrite <- combine_map_r, map_map. f_equal. apply map_ext. intros t. cbn [option_map]. rewrite o_row. reflexivity.
Qed.

Variable estep : nat -> ES -> B -> ES * sres Ob Inf R.
Variable ereset : nat -> ES -> ES * (Ob * Inf).
Variable act_fn : PS -> list nat -> list Ob' -> list Inf' -> option (list H) -> PS * (list (A * B) * option (list H)).
Variable hreset : list nat -> list H -> list H.
Variable hook : list (row_out Ob A Inf R) -> bool.
Variable hook' : list (row_out Ob' A Inf' R) -> bool.
Hypothesis HK : forall rows, hook' (map (obs_out fo fi) rows) = hook rows.
Notation mloop := (@obs_loop Ob Ob' A B Inf Inf' R H ES PS fo fi).
Notation mcoll := (@obs_coll Ob Ob' A Inf Inf' R H ES PS fo fi).

Lemma o_step_envs : forall ids es acts, step_envs (obs_step fo fi estep) es ids acts = rmap (fun x => (fst x, map (obs_sres fo fi) (snd x))) (step_envs estep es ids acts).
Proof.
  induction ids as [|id ids IH]; intros es [|b acts]; try reflexivity. cbn [step_envs]. destruct (nth_error es id) as [s|]; [|reflexivity]. unfold obs_step at 1. destruct (estep id s b) as [s' r].
  rewrite IH, bind_rmap, rmap_bind. apply bind_ext. intros [es' rs]. reflexivity.
Qed.
Lemma o_reset_envs : forall ids es, reset_envs (obs_reset fo fi ereset) es ids = rmap (fun x => (fst x, map (fun y => (fo (fst y), fi (snd y))) (snd x))) (reset_envs ereset es ids).
Proof.
  induction ids as [|id ids IH]; intros es; [reflexivity|]. cbn [reset_envs]. destruct (nth_error es id) as [s|]; [|reflexivity]. unfold obs_reset at 1. destruct (ereset id s) as [s' [ob inf]].
  rewrite IH, bind_rmap, rmap_bind. apply bind_ext. intros [es' rs]. reflexivity.
Qed.
Lemma o_rows_of : forall obs (acts : list A) rs, rows_of (map fo obs) acts (map (obs_sres fo fi) rs) = map mtrans (rows_of obs acts rs).
Proof. induction obs as [|ob obs IH]; intros [|a acts] [|r rs]; try reflexivity. cbn [map rows_of]. f_equal. apply IH. Qed.
Lemma o_episode_done nep m acc rep : episode_done o hook' nep (mmgr m) (fst acc, map (map (obs_out fo fi)) (snd acc)) rep =
  rmap (fun acc => (fst acc, map (map (obs_out fo fi)) (snd acc))) (episode_done o hook nep m acc rep).
Proof.
  destruct rep as [[[i ret] len] st]. cbn [episode_done]. change (m_edges (mmgr m)) with (m_edges m). rewrite rmap_bind. apply bind_ext. intros idx. rewrite o_getitem, bind_rmap, rmap_bind. apply bind_ext. intros batch.
  rewrite HK. destruct (hook batch && negb nep); [reflexivity|]. cbn [rmap fst snd]. f_equal. f_equal.
  - rewrite map_length. reflexivity.
  - rewrite map_app. reflexivity.
Qed.
Lemma masked_map {X Y} (h : X -> Y) mask (l : list X) : masked mask (map h l) = map h (masked mask l).
Proof. unfold masked. rewrite combine_map_r. induction (combine mask l) as [|[b x] xs IH]; [reflexivity|]. cbn [map filter fst snd]. destruct b; cbn [map snd]; rewrite IH; reflexivity. Qed.
Lemma put_put {X Y} (h : X -> Y) idx (xs l : list X) : put idx (map h xs) (map h l) = map h (put idx xs l).
Proof. unfold put. rewrite combine_map_r. apply put_map. Qed.

Lemma o_iter ne l : CollectModel.iter r0 radd last_frame' o (obs_step fo fi estep) (obs_reset fo fi ereset) act_fn hreset hook' ne (mloop l) =
  rmap mloop (CollectModel.iter r0 radd last_frame o estep ereset (obs_act fo fi act_fn) hreset hook ne l).
Proof.
  unfold CollectModel.iter, obs_act. cbn [obs_loop l_envs l_mgr l_pol l_ready l_obs l_inf l_hid l_steps l_eps l_stats l_hook l_calls].
  destruct (act_fn (l_pol l) (l_ready l) (map fo (l_obs l)) (map fi (l_inf l)) (l_hid l)) as [p [acts hid]].
  rewrite o_step_envs, bind_rmap, rmap_bind. apply bind_ext. intros [es rs]. cbn [fst snd]. rewrite o_rows_of, map_length.
  assert (ED : map r_done (map (obs_sres fo fi) rs) = map r_done rs) by (rewrite map_map; reflexivity).
  assert (EO : map r_obs (map (obs_sres fo fi) rs) = map fo (map r_obs rs)) by (rewrite !map_map; reflexivity).
  assert (EI : map r_info (map (obs_sres fo fi) rs) = map fi (map r_info rs)) by (rewrite !map_map; reflexivity).
  rewrite ED, EO, EI, o_add, bind_rmap, rmap_bind. apply bind_ext. intros [m reps]. cbn [fst snd].
  assert (EC : map (fun x => let '(ids, obs, acts) := x in (ids, map fo obs, acts)) (l_calls l) ++ [(l_ready l, map fo (l_obs l), acts)] = map (fun x => let '(ids, obs, acts) := x in (ids, map fo obs, acts)) (l_calls l ++ [(l_ready l, l_obs l, acts)])) by (rewrite map_app; reflexivity).
  rewrite EC. destruct (length (filter (fun b => b) (map r_done rs)) =? 0); [reflexivity|].
  rewrite rmap_bind. apply bind_ext. intros reps_d. rewrite rmap_bind. apply bind_ext. intros dg. rewrite o_reset_envs, bind_rmap, rmap_bind. apply bind_ext. intros [es' rst]. cbn [fst snd].
  rewrite (foldM_rmap (fun acc => (fst acc, map (map (obs_out fo fi)) (snd acc))) (episode_done o hook (match ne with None => false | Some _ => true end) m) _ reps_d (at_step (l_stats l) (length (rows_of (l_obs l) (map fst acts) rs)), l_hook l)).
  2:{ intros s x. apply o_episode_done. }
  rewrite bind_rmap, rmap_bind. apply bind_ext. intros [st hooks]. cbn [fst snd].
  assert (P1 : forall dl, put dl (map fst (map (fun y : Ob * Inf => (fo (fst y), fi (snd y))) rst)) (map fo (map r_obs rs)) = map fo (put dl (map fst rst) (map r_obs rs))) by (intros dl; rewrite <- put_put, !map_map; reflexivity).
  assert (P2 : forall dl, put dl (map snd (map (fun y : Ob * Inf => (fo (fst y), fi (snd y))) rst)) (map fi (map r_info rs)) = map fi (put dl (map snd rst) (map r_info rs))) by (intros dl; rewrite <- put_put, !map_map; reflexivity).
  rewrite P1, P2. destruct ne as [[|n']|]; [reflexivity| |reflexivity]. destruct (_ <? _)%Z; [|reflexivity]. rewrite !masked_map. reflexivity.
Qed.
Lemma o_iterate ns ne : forall fuel l, iterate r0 radd last_frame' o (obs_step fo fi estep) (obs_reset fo fi ereset) act_fn hreset hook' fuel ns ne (mloop l) =
  rmap mloop (iterate r0 radd last_frame o estep ereset (obs_act fo fi act_fn) hreset hook fuel ns ne l).
Proof.
  induction fuel as [|fuel IH]; intros l; [reflexivity|]. cbn [iterate]. rewrite o_iter, bind_rmap, rmap_bind. apply bind_ext. intros l'. cbn [obs_loop l_steps l_eps]. destruct (_ || _); [reflexivity|]. apply IH.
Qed.
Lemma o_start ns ne c : start ns ne (mcoll c) = rmap mloop (start ns ne c).
Proof.
  unfold start. cbn [obs_coll c_envs c_pre c_hid c_mgr c_pol]. rewrite rmap_bind. apply bind_ext. intros ready. destruct (c_pre c) as [[obs inf]|]; [|reflexivity]. cbn [option_map fst snd]. rewrite take_map, bind_rmap, rmap_bind. apply bind_ext. intros obs'. rewrite take_map, bind_rmap, rmap_bind. apply bind_ext. intros inf'.
  rewrite rmap_bind. apply bind_ext. intros hid. reflexivity.
Qed.
Lemma o_reset_env c : reset_env (obs_reset fo fi ereset) (mcoll c) = rmap mcoll (reset_env ereset c).
Proof. unfold reset_env. cbn [obs_coll c_envs c_mgr c_pol c_step c_episode]. rewrite o_reset_envs, bind_rmap, rmap_bind. apply bind_ext. intros [es rst]. cbn [fst snd rmap]. f_equal. unfold obs_coll. cbn [c_envs c_mgr c_pol c_pre c_hid c_step c_episode option_map fst snd]. rewrite !map_map. reflexivity. Qed.
Lemma o_reset rb c : reset r0 (obs_reset fo fi ereset) rb (mcoll c) = rmap mcoll (reset r0 ereset rb c).
Proof. unfold reset. rewrite o_reset_env, bind_rmap, rmap_bind. apply bind_ext. intros c'. destruct rb; reflexivity. Qed.
Lemma o_collect_ fuel ns ne c : collect_ r0 radd last_frame' o (obs_step fo fi estep) (obs_reset fo fi ereset) act_fn hreset hook' fuel ns ne (mcoll c) =
  rmap (fun x => (mcoll (fst x), mloop (snd x))) (collect_ r0 radd last_frame o estep ereset (obs_act fo fi act_fn) hreset hook fuel ns ne c).
Proof.
  unfold collect_. rewrite o_start, bind_rmap, rmap_bind. apply bind_ext. intros l0. rewrite o_iterate, bind_rmap, rmap_bind. apply bind_ext. intros l.
  cbn [obs_loop l_envs l_mgr l_pol l_steps l_eps l_obs l_inf l_hid obs_coll c_pre c_hid c_step c_episode c_envs c_mgr c_pol].
  assert (E : forall c', (let* c' := reset_env (obs_reset fo fi ereset) (mcoll c') in Ok (c', mloop l)) = rmap (fun x => (mcoll (fst x), mloop (snd x))) (let* c' := reset_env ereset c' in Ok (c', l))).
  { intros c'. rewrite o_reset_env, bind_rmap, rmap_bind. apply bind_ext. intros c''. reflexivity. }
  destruct ns as [[|n]|]; [|reflexivity|]; (destruct ne as [[|m]|]; [reflexivity| |reflexivity]); apply (E (mkColl (l_envs l) (l_mgr l) (l_pol l) (c_pre c) (c_hid c) (c_step c + l_steps l) (c_episode c + l_eps l))).
Qed.
Lemma o_collect fuel ns ne rb c : CollectModel.collect r0 radd last_frame' o (obs_step fo fi estep) (obs_reset fo fi ereset) act_fn hreset hook' fuel ns ne rb (mcoll c) =
  rmap (fun x => (mcoll (fst x), mloop (snd x))) (CollectModel.collect r0 radd last_frame o estep ereset (obs_act fo fi act_fn) hreset hook fuel ns ne rb c).
Proof.
  unfold CollectModel.collect. rewrite rmap_bind. apply bind_ext. intros _. destruct rb.
  - rewrite o_reset, bind_rmap, rmap_bind. apply bind_ext. intros c'. apply o_collect_.
  - cbn [bind]. apply o_collect_.
Qed.
End Obs.

Section Act.
Context {Ob A B B' Inf R H ES PS : Type}.
Variables (r0 : R) (radd : R -> R -> R).
Variable fb : B' -> B.
Variable last_frame : Ob -> Ob.
Variable o : opts.
Variable estep : nat -> ES -> B -> ES * sres Ob Inf R.
Variable ereset : nat -> ES -> ES * (Ob * Inf).
Variable act_fn : PS -> list nat -> list Ob -> list Inf -> option (list H) -> PS * (list (A * B') * option (list H)).
Variable hreset : list nat -> list H -> list H.
Variable hook : list (row_out Ob A Inf R) -> bool.
Notation mloop := (@act_loop Ob A B B' Inf R H ES PS fb).
Lemma a_step_envs : forall ids es acts, step_envs (act_step fb estep) es ids acts = step_envs estep es ids (map fb acts).
Proof.
  induction ids as [|id ids IH]; intros es [|b acts]; try reflexivity. cbn [map step_envs]. destruct (nth_error es id) as [s|]; [|reflexivity]. unfold act_step at 1. destruct (estep id s (fb b)) as [s' r]. rewrite IH. reflexivity.
Qed.
Lemma a_iter ne l : CollectModel.iter r0 radd last_frame o estep ereset (act_act fb act_fn) hreset hook ne (mloop l) =
  rmap mloop (CollectModel.iter r0 radd last_frame o (act_step fb estep) ereset act_fn hreset hook ne l).
Proof.
  unfold CollectModel.iter, act_act. cbn [act_loop l_envs l_mgr l_pol l_ready l_obs l_inf l_hid l_steps l_eps l_stats l_hook l_calls].
  destruct (act_fn (l_pol l) (l_ready l) (l_obs l) (l_inf l) (l_hid l)) as [p [acts hid]]. rewrite a_step_envs.
  assert (E1 : map snd (map (fun ab : A * B' => (fst ab, fb (snd ab))) acts) = map fb (map snd acts)) by (rewrite !map_map; reflexivity).
  assert (E2 : map fst (map (fun ab : A * B' => (fst ab, fb (snd ab))) acts) = map fst acts) by (rewrite !map_map; reflexivity).
  rewrite E1, E2, rmap_bind. apply bind_ext. intros [es rs]. rewrite rmap_bind. apply bind_ext. intros [m reps].
  assert (EC : map (fun x => let '(ids, obs, acts) := x in (ids, obs, map (fun ab => (fst ab, fb (snd ab))) acts)) (l_calls l) ++ [(l_ready l, l_obs l, map (fun ab => (fst ab, fb (snd ab))) acts)] =
    map (fun x => let '(ids, obs, acts) := x in (ids, obs, map (fun ab => (fst ab, fb (snd ab))) acts)) (l_calls l ++ [(l_ready l, l_obs l, acts)])) by (rewrite map_app; reflexivity).
  rewrite EC. destruct (length (filter (fun b => b) (map r_done rs)) =? 0); [reflexivity|].
  rewrite rmap_bind. apply bind_ext. intros reps_d. rewrite rmap_bind. apply bind_ext. intros dg. rewrite rmap_bind. apply bind_ext. intros [es' rst]. rewrite rmap_bind. apply bind_ext. intros [st hooks].
  destruct ne as [[|n']|]; [reflexivity| |reflexivity]. destruct (_ <? _)%Z; reflexivity.
Qed.
Lemma a_iterate ns ne : forall fuel l, iterate r0 radd last_frame o estep ereset (act_act fb act_fn) hreset hook fuel ns ne (mloop l) =
  rmap mloop (iterate r0 radd last_frame o (act_step fb estep) ereset act_fn hreset hook fuel ns ne l).
Proof.
  induction fuel as [|fuel IH]; intros l; [reflexivity|]. cbn [iterate]. rewrite a_iter, bind_rmap, rmap_bind. apply bind_ext. intros l'. cbn [act_loop l_steps l_eps]. destruct (_ || _); [reflexivity|]. apply IH.
Qed.
Lemma a_start ns ne (c : coll Ob A Inf R H ES PS) : start ns ne c = rmap mloop (start ns ne c).
Proof.
  unfold start. rewrite rmap_bind. apply bind_ext. intros ready. destruct (c_pre c) as [[obs inf]|]; [|reflexivity]. rewrite rmap_bind. apply bind_ext. intros obs'. rewrite rmap_bind. apply bind_ext. intros inf'.
  rewrite rmap_bind. apply bind_ext. intros hid. reflexivity.
Qed.
Lemma a_collect fuel ns ne rb c : CollectModel.collect r0 radd last_frame o estep ereset (act_act fb act_fn) hreset hook fuel ns ne rb c =
  rmap (fun x => (fst x, mloop (snd x))) (CollectModel.collect r0 radd last_frame o (act_step fb estep) ereset act_fn hreset hook fuel ns ne rb c).
Proof.
  unfold CollectModel.collect. rewrite rmap_bind. apply bind_ext. intros _. rewrite rmap_bind. apply bind_ext. intros c'.
  unfold collect_. rewrite a_start, bind_rmap, rmap_bind. apply bind_ext. intros l0. rewrite a_iterate, bind_rmap, rmap_bind. apply bind_ext. intros l.
  cbn [act_loop l_envs l_mgr l_pol l_steps l_eps l_obs l_inf l_hid].
  destruct ns as [[|n]|]; [|reflexivity|]; (destruct ne as [[|m]|]; [reflexivity| |reflexivity]); rewrite rmap_bind; apply bind_ext; intros c''; reflexivity.
Qed.
End Act.

(** C337. Transforming the observations and infos in the environments gives what transforming them in
    front of the policy gives, with transformed data in the buffer; everything else is the same. *)
Lemma C337_obs_lemma : forall (Ob Ob' A B Inf Inf' R H ES PS : Type) (r0 : R) (radd : R -> R -> R) (fo : Ob -> Ob') (fi : Inf -> Inf') (last_frame : Ob -> Ob) (last_frame' : Ob' -> Ob') (o : opts)
    (estep : nat -> ES -> B -> ES * sres Ob Inf R) (ereset : nat -> ES -> ES * (Ob * Inf))
    (act_fn : PS -> list nat -> list Ob' -> list Inf' -> option (list H) -> PS * (list (A * B) * option (list H))) (hreset : list nat -> list H -> list H)
    (hook : list (row_out Ob A Inf R) -> bool) (hook' : list (row_out Ob' A Inf' R) -> bool) (fuel : nat) (n_step n_episode : option nat) (reset_before : bool) (c : coll Ob A Inf R H ES PS),
  (forall x, last_frame' (fo x) = fo (last_frame x)) -> (forall rows, hook' (map (obs_out fo fi) rows) = hook rows) ->
  CollectModel.collect r0 radd last_frame' o (obs_step fo fi estep) (obs_reset fo fi ereset) act_fn hreset hook' fuel n_step n_episode reset_before (obs_coll fo fi c) =
  rmap (fun x => (obs_coll fo fi (fst x), obs_loop fo fi (snd x))) (CollectModel.collect r0 radd last_frame o estep ereset (obs_act fo fi act_fn) hreset hook fuel n_step n_episode reset_before c).
Proof. intros. apply o_collect; assumption. Qed.
(** C337. Transforming the actions in the environments gives what transforming them behind the policy
    gives: the same collector, buffer, statistics and episodes. *)
Lemma C337_act_lemma : forall (Ob A B B' Inf R H ES PS : Type) (r0 : R) (radd : R -> R -> R) (fb : B' -> B) (last_frame : Ob -> Ob) (o : opts)
    (estep : nat -> ES -> B -> ES * sres Ob Inf R) (ereset : nat -> ES -> ES * (Ob * Inf))
    (act_fn : PS -> list nat -> list Ob -> list Inf -> option (list H) -> PS * (list (A * B') * option (list H))) (hreset : list nat -> list H -> list H)
    (hook : list (row_out Ob A Inf R) -> bool) (fuel : nat) (n_step n_episode : option nat) (reset_before : bool) (c : coll Ob A Inf R H ES PS),
  CollectModel.collect r0 radd last_frame o estep ereset (act_act fb act_fn) hreset hook fuel n_step n_episode reset_before c =
  rmap (fun x => (fst x, act_loop fb (snd x))) (CollectModel.collect r0 radd last_frame o (act_step fb estep) ereset act_fn hreset hook fuel n_step n_episode reset_before c).
Proof. intros. apply a_collect. Qed.
