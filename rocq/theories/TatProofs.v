(** * Proofs: buffers and collectors treat rewards and flags uniformly; TruncatedAsTerminated *)
From Verif Require Import Py PyLemmas BufferModel ManagerModel GetIndicesModel CollectModel ReturnsModel TatModel TatSpec.
Open Scope nat_scope.

Lemma rmap_bind {X Y Z} (h : Y -> Z) (x : res X) (k : X -> res Y) : rmap h (bind x k) = bind x (fun a => rmap h (k a)).
Proof. destruct x; reflexivity. Qed.
Lemma bind_rmap {X Y Z} (h : X -> Y) (x : res X) (k : Y -> res Z) : bind (rmap h x) k = bind x (fun a => k (h a)).
Proof. destruct x; reflexivity. Qed.
Lemma bind_ext {X Y} (x : res X) (k k' : X -> res Y) : (forall a, k a = k' a) -> bind x k = bind x k'.
Proof. intros E. destruct x; [apply E|reflexivity]. Qed.
Lemma rmap_guard {X Y} (h : X -> Y) b e k : rmap h (guard b e k) = guard b e (rmap h k).
Proof. destruct b; reflexivity. Qed.
Lemma zget_map {X Y} (h : X -> Y) (l : list X) i : zget (map h l) i = rmap h (zget l i).
Proof. unfold zget. rewrite map_length. destruct (norm_index (length l) i) as [k|]; [|reflexivity]. cbn [bind]. rewrite nth_error_map. destruct (nth_error l k); reflexivity. Qed.
Lemma mapM_rmap {X Y Z} (h : Y -> Z) (k : X -> res Y) (k' : X -> res Z) (l : list X) : (forall x, k' x = rmap h (k x)) -> mapM k' l = rmap (map h) (mapM k l).
Proof. intros E. induction l as [|x l IH]; [reflexivity|]. cbn [mapM]. rewrite E, IH. destruct (k x); [|reflexivity]. destruct (mapM k l); reflexivity. Qed.
Lemma mapM_same {X Y} (k k' : X -> res Y) (l : list X) : (forall x, k' x = k x) -> mapM k' l = mapM k l.
Proof. intros E. induction l as [|x l IH]; [reflexivity|]. cbn [mapM]. rewrite E, IH. reflexivity. Qed.
Lemma mapM_map {X Y Z} (k : Y -> res Z) (h : X -> Y) l : mapM k (map h l) = mapM (fun x => k (h x)) l.
Proof. induction l as [|x l IH]; [reflexivity|]. cbn [map mapM]. rewrite IH. reflexivity. Qed.
Lemma upd_map {X Y} (h : X -> Y) : forall (l : list X) i x, upd (map h l) i (h x) = map h (upd l i x).
Proof. induction l as [|y l IH]; intros [|i] x; cbn; try reflexivity. f_equal. apply IH. Qed.
Lemma combine_map_l {X X' Y} (h : X -> X') : forall (a : list X) (b : list Y), combine (map h a) b = map (fun x => (h (fst x), snd x)) (combine a b).
Proof. induction a as [|x a IH]; intros [|y b]; cbn; try reflexivity. f_equal. apply IH. Qed.
Lemma combine_map_r {X Y Y'} (h : Y -> Y') : forall (a : list X) (b : list Y), combine a (map h b) = map (fun x => (fst x, h (snd x))) (combine a b).
Proof. induction a as [|x a IH]; intros [|y b]; cbn; try reflexivity. f_equal. apply IH. Qed.
Lemma put_map {X Y} (h : X -> Y) : forall (xs : list (nat * X)) (l : list X),
  fold_left (fun l ix => upd l (fst ix) (snd ix)) (map (fun ix => (fst ix, h (snd ix))) xs) (map h l) = map h (fold_left (fun l ix => upd l (fst ix) (snd ix)) xs l).
Proof. induction xs as [|[i x] xs IH]; intros l; [reflexivity|]. cbn [fold_left map fst snd]. rewrite upd_map. apply IH. Qed.
Lemma foldM_rmap {X S S'} (h : S -> S') (k : S -> X -> res S) (k' : S' -> X -> res S') : forall (l : list X) s,
  (forall s x, k' (h s) x = rmap h (k s x)) -> foldM k' l (h s) = rmap h (foldM k l s).
Proof.
  induction l as [|x l IH]; intros s E; [reflexivity|]. cbn [foldM]. rewrite E. destruct (k s x) as [s'|]; [|reflexivity]. cbn [rmap bind]. apply IH, E.
Qed.

Lemma foldM_ext {X S} (k k' : S -> X -> res S) (l : list X) : (forall x s, k' s x = k s x) -> forall s, foldM k' l s = foldM k l s.
Proof. intros E. induction l as [|x l IH]; intros s; [reflexivity|]. cbn [foldM]. rewrite E. apply bind_ext. exact IH. Qed.

Section Nat.
Context {Ob A B Inf R R' H ES PS : Type}.
Variables (r0 : R) (radd : R -> R -> R) (r0' : R') (radd' : R' -> R' -> R').
Variable f : R -> R'.
Variable g : bool -> bool -> bool * bool.
Variable last_frame : Ob -> Ob.
Variable o : opts.
Hypothesis F0 : f r0 = r0'.
Hypothesis FA : forall x y, f (radd x y) = radd' (f x) (f y).
Hypothesis G : forall a b, fst (g a b) || snd (g a b) = a || b.
Notation mslot := (@map_slot Ob A Inf R R' f g).
Notation mmgr := (@map_mgr Ob A Inf R R' f g).
Notation mtrans := (@map_trans Ob A Inf R R' f g).
Notation mbst := (map_bst f).

Lemma slot_done_map (x : option (slot Ob A Inf R)) : slot_done (option_map mslot x) = slot_done x.
Proof. destruct x; reflexivity. Qed.
Lemma transpose_map n (st : list (list (option (slot Ob A Inf R)))) : transpose n (map (map (option_map mslot)) st) = map (map (option_map mslot)) (transpose n st).
Proof.
  unfold transpose. rewrite map_map. apply map_ext. intros i. rewrite !map_map. apply map_ext. intros r. exact (map_nth (option_map mslot) r None i).
Qed.

(** ** The buffer manager *)
Lemma mmgr_sizes m : m_sizes (mmgr m) = m_sizes m.
Proof. unfold m_sizes, map_mgr. cbn [m_bufs]. rewrite map_map. reflexivity. Qed.
Lemma mmgr_zip m : m_zip (mmgr m) = m_zip m.
Proof. unfold m_zip, m_offsets, m_edges, m_total, m_offsets. rewrite mmgr_sizes. reflexivity. Qed.
Lemma mmgr_edges m : m_edges (mmgr m) = m_edges m.
Proof. unfold m_edges, m_total, m_offsets. rewrite mmgr_sizes. reflexivity. Qed.
Lemma m_prev_map m idx : m_prev (mmgr m) idx = m_prev m idx.
Proof.
  unfold m_prev. rewrite mmgr_zip. unfold m_total. rewrite mmgr_sizes. unfold map_mgr. cbn [m_meta]. destruct (m_meta m) as [l|]; [|reflexivity]. cbn [map_meta option_map].
  apply mapM_same. intros i. unfold prev_index1. apply foldM_ext. intros [[[a b] c] d] acc. destruct (_ && _); [|reflexivity]. rewrite zget_map, bind_rmap. apply bind_ext. intros x. rewrite slot_done_map. reflexivity.
Qed.
Lemma m_next_map m idx : m_next (mmgr m) idx = m_next m idx.
Proof.
  unfold m_next. rewrite mmgr_zip. unfold m_total. rewrite mmgr_sizes. unfold map_mgr. cbn [m_meta]. destruct (m_meta m) as [l|]; [|reflexivity]. cbn [map_meta option_map].
  apply mapM_same. intros i. unfold next_index1. apply foldM_ext. intros [[[a b] c] d] acc. destruct (_ && _); [|reflexivity]. rewrite zget_map, bind_rmap. apply bind_ext. intros x. rewrite slot_done_map. reflexivity.
Qed.
Lemma m_rows_at_map m idx : m_rows_at (mmgr m) idx = rmap (map (option_map mslot)) (m_rows_at m idx).
Proof.
  unfold m_rows_at, map_mgr. cbn [m_meta]. destruct (m_meta m) as [l|]; [|reflexivity]. cbn [map_meta option_map]. apply mapM_rmap. intros i. apply zget_map.
Qed.
Lemma m_get_loop_map m : forall k idx st, m_get_loop k (mmgr m) idx (map (map (option_map mslot)) st) = rmap (map (map (option_map mslot))) (m_get_loop k m idx st).
Proof.
  induction k as [|k IH]; intros idx st; [reflexivity|]. cbn [m_get_loop]. rewrite m_rows_at_map, bind_rmap, rmap_bind. apply bind_ext. intros v. rewrite m_prev_map, rmap_bind. apply bind_ext. intros idx'.
  apply (IH idx' (v :: st)).
Qed.
Lemma m_get_rows_map m k idx : m_get_rows (mmgr m) k idx = rmap (map (map (option_map mslot))) (m_get_rows m k idx).
Proof.
  unfold m_get_rows. destruct (k =? 1).
  - rewrite m_rows_at_map, bind_rmap, rmap_bind. apply bind_ext. intros v. cbn [rmap]. f_equal. rewrite !map_map. reflexivity.
  - pose proof (m_get_loop_map m k idx []) as E. cbn [map] in E. rewrite E, bind_rmap, rmap_bind. apply bind_ext. intros st. cbn [rmap]. f_equal. apply transpose_map.
Qed.
Lemma m_getitem_map m idx : m_getitem o (mmgr m) idx = rmap (map (map_out f g)) (m_getitem o m idx).
Proof.
  unfold m_getitem. rewrite m_get_rows_map, bind_rmap, rmap_bind. apply bind_ext. intros fr. rewrite rmap_bind.
  assert (E : forall frn, rmap (map (map_out f g)) (let* cur := m_rows_at m idx in Ok (map (fun x => mkOut (map (option_map s_obs) (fst x)) (fst (snd x)) (snd (snd x)) (map (option_map s_info) (fst x))) (combine fr (combine cur frn)))) =
    (let* cur := m_rows_at (mmgr m) idx in Ok (map (fun x => mkOut (map (option_map s_obs) (fst x)) (fst (snd x)) (snd (snd x)) (map (option_map s_info) (fst x))) (combine (map (map (option_map mslot)) fr) (combine cur frn))))).
  { intros frn. rewrite m_rows_at_map, bind_rmap, rmap_bind. apply bind_ext. intros cur. cbn [rmap]. f_equal. rewrite !combine_map_l, combine_map_r, !map_map. apply map_ext. intros [a [b c]]. cbn [fst snd map_out].
    unfold map_out. cbn [o_obs o_cur o_obs_next o_info]. f_equal; rewrite map_map; apply map_ext; intros [x|]; reflexivity. }
  assert (E2 : forall f' : list (list (option (slot Ob A Inf R))), map (map (fun x => match x with Some s => s_obs_next s | None => None end)) (map (map (option_map mslot)) f') = map (map (fun x => match x with Some s => s_obs_next s | None => None end)) f').
  { intros f'. rewrite map_map. apply map_ext. intros l. rewrite map_map. apply map_ext. intros [x|]; reflexivity. }
  assert (E3 : forall f' : list (list (option (slot Ob A Inf R))), map (map (option_map s_obs)) (map (map (option_map mslot)) f') = map (map (option_map s_obs)) f').
  { intros f'. rewrite map_map. apply map_ext. intros l. rewrite map_map. apply map_ext. intros [x|]; reflexivity. }
  destruct (save_obs_next o).
  - rewrite ?bind_rmap. destruct (m_get_rows m (stack_num o) idx) as [f'|]; [|reflexivity]. cbn [bind]. rewrite E, E2. reflexivity.
  - rewrite m_next_map. destruct (m_next m idx) as [nx|]; [|reflexivity]. cbn [bind]. rewrite m_get_rows_map, bind_rmap. destruct (m_get_rows m (stack_num o) nx) as [f'|]; [|reflexivity]. cbn [bind]. rewrite E, E3. reflexivity.
Qed.

Lemma pre_add_map s rew done : update_state_pre_add r0' radd' (mbst s) (f rew) done =
  rmap (fun x => (mbst (fst x), map_rep f (snd x))) (update_state_pre_add r0 radd s rew done).
Proof.
  unfold update_state_pre_add. cbn [map_bst maxsize ins size ep_return ep_len ep_start_idx]. rewrite !rmap_guard. unfold guard. destruct (negb (maxsize s =? 0)); [|reflexivity]. destruct (negb (_ <? _)); [|reflexivity].
  cbn [rmap]. f_equal. destruct done; cbn [fst snd map_rep map_bst maxsize ins size last_index ep_return ep_len ep_start_idx]; rewrite <- ?FA, <- ?F0; reflexivity.
Qed.
Lemma row_map t : row last_frame o (mtrans t) = mslot (row last_frame o t).
Proof. unfold row, map_trans, map_slot. cbn [t_obs t_act t_rew t_term t_trunc t_obs_next t_info s_obs s_act s_rew s_term s_trunc s_done s_obs_next s_info]. rewrite G. reflexivity. Qed.
Lemma add_loop_map : forall xs bufs last lens, add_loop r0' radd' (map mbst bufs) last lens (map (fun x => (fst x, mtrans (snd x))) xs) =
  rmap (fun x => let '(bs, la, le, rs) := x in (map mbst bs, la, le, map (map_rep f) rs)) (add_loop r0 radd bufs last lens xs).
Proof.
  induction xs as [|[id t] xs IH]; intros bufs last lens; [reflexivity|]. cbn [map fst snd add_loop]. rewrite map_length, rmap_bind. apply bind_ext. intros k. rewrite nth_error_map.
  destruct (nth_error bufs k) as [s|]; [|reflexivity]. cbn [option_map]. cbn [map_trans t_rew t_term t_trunc]. rewrite G, pre_add_map, bind_rmap, rmap_bind. apply bind_ext. intros [s' [[[i ret] len] st]]. cbn [fst snd map_rep].
  rewrite upd_map. cbn [map_bst size]. rewrite (IH (upd bufs k s')), bind_rmap, rmap_bind. rewrite map_map. cbn [map_bst maxsize]. apply bind_ext. intros [[[bs la] le] rs]. reflexivity.
Qed.
Lemma m_add_map m ids ts : m_add r0' radd' last_frame o (mmgr m) ids (map mtrans ts) =
  rmap (fun x => (mmgr (fst x), map (map_rep f) (snd x))) (m_add r0 radd last_frame o m ids ts).
Proof.
  unfold m_add. rewrite !map_length. change (m_bufs (mmgr m)) with (map mbst (m_bufs m)). rewrite map_length. set (ids' := match ids with Some ids => ids | None => _ end). rewrite rmap_guard. unfold guard at 1 5. destruct (length ids' <=? length ts); [|reflexivity].
  change (m_last (mmgr m)) with (m_last m). change (m_lens (mmgr m)) with (m_lens m). rewrite combine_map_r, add_loop_map, bind_rmap, rmap_bind. apply bind_ext. intros [[[bs la] le] rs]. rewrite !rmap_guard. unfold guard. destruct (negb (length ids' =? 0)); [|reflexivity]. destruct (length ids' =? length ts); [|reflexivity].
  assert (El : meta_rows (m_total (mmgr m)) (m_meta (mmgr m)) = map (option_map mslot) (meta_rows (m_total m) (m_meta m))).
  { unfold m_total. rewrite mmgr_sizes. unfold map_mgr, meta_rows. cbn [m_meta]. destruct (m_meta m); [reflexivity|]. cbn [map_meta option_map]. induction (list_sum (m_sizes m)) as [|n IH]; [reflexivity|]. cbn [repeat map option_map]. f_equal. exact IH. }
  rewrite El, map_length.
  assert (Ei : map (fun r => fst (fst (fst r))) (map (map_rep f) rs) = map (fun r => fst (fst (fst r))) rs) by (rewrite map_map; apply map_ext; intros [[[i r] n] s]; reflexivity).
  rewrite Ei. destruct (forallb _ _); [|reflexivity]. cbn [rmap fst snd]. f_equal. f_equal. unfold map_mgr. cbn [m_bufs m_meta m_last m_lens map_meta option_map]. f_equal. f_equal.
  rewrite map_map. rewrite <- put_map. f_equal. rewrite <- combine_map_r, map_map. f_equal. apply map_ext. intros t. cbn [option_map]. rewrite row_map. reflexivity.
Qed.

(** ** The collector *)
Variable estep : nat -> ES -> B -> ES * sres Ob Inf R.
Variable ereset : nat -> ES -> ES * (Ob * Inf).
Variable act_fn : PS -> list nat -> list Ob -> list Inf -> option (list H) -> PS * (list (A * B) * option (list H)).
Variable hreset : list nat -> list H -> list H.
Variable hook : list (row_out Ob A Inf R) -> bool.
Variable hook' : list (row_out Ob A Inf R') -> bool.
Hypothesis HK : forall rows, hook' (map (map_out f g) rows) = hook rows.
Notation mloop := (@map_loop Ob A B Inf R R' H ES PS f g).
Notation mcoll := (@map_coll Ob A Inf R R' H ES PS f g).

Lemma step_envs_map : forall ids es acts, step_envs (map_step f g estep) es ids acts = rmap (fun x => (fst x, map (map_sres f g) (snd x))) (step_envs estep es ids acts).
Proof.
  induction ids as [|id ids IH]; intros es [|b acts]; try reflexivity. cbn [step_envs]. destruct (nth_error es id) as [s|]; [|reflexivity]. unfold map_step at 1. destruct (estep id s b) as [s' r].
  rewrite IH, bind_rmap, rmap_bind. apply bind_ext. intros [es' rs]. reflexivity.
Qed.
Lemma rows_of_map : forall obs (acts : list A) rs, rows_of obs acts (map (map_sres f g) rs) = map mtrans (rows_of obs acts rs).
Proof. induction obs as [|ob obs IH]; intros [|a acts] [|r rs]; try reflexivity. cbn [map rows_of]. f_equal. apply IH. Qed.
Lemma take_map {X Y} (h : X -> Y) (l : list X) ids : take (map h l) ids = rmap (map h) (take l ids).
Proof. unfold take. apply mapM_rmap. intros i. rewrite nth_error_map. destruct (nth_error l i); reflexivity. Qed.
Lemma episode_done_map nep m acc rep : episode_done o hook' nep (mmgr m) (map_stats f (fst acc), map (map (map_out f g)) (snd acc)) (map_rep f rep) =
  rmap (fun acc => (map_stats f (fst acc), map (map (map_out f g)) (snd acc))) (episode_done o hook nep m acc rep).
Proof.
  destruct rep as [[[i ret] len] st]. cbn [map_rep episode_done]. rewrite mmgr_edges, rmap_bind. apply bind_ext. intros idx. rewrite m_getitem_map, bind_rmap, rmap_bind. apply bind_ext. intros batch.
  rewrite HK. destruct (hook batch && negb nep); [reflexivity|]. cbn [rmap fst snd]. f_equal. f_equal.
  - unfold at_episode, map_stats. cbn [st_episodes st_steps st_returns st_lens]. rewrite map_app, map_length. reflexivity.
  - rewrite map_app. reflexivity.
Qed.
Lemma foldM_map {X Y S} (h : X -> Y) (k : S -> Y -> res S) : forall (l : list X) s, foldM k (map h l) s = foldM (fun s x => k s (h x)) l s.
Proof. induction l as [|x l IH]; intros s; [reflexivity|]. cbn [map foldM]. apply bind_ext. exact IH. Qed.

Lemma iter_map ne l : CollectModel.iter r0' radd' last_frame o (map_step f g estep) ereset act_fn hreset hook' ne (mloop l) =
  rmap mloop (CollectModel.iter r0 radd last_frame o estep ereset act_fn hreset hook ne l).
Proof.
  unfold CollectModel.iter. cbn [map_loop l_envs l_mgr l_pol l_ready l_obs l_inf l_hid l_steps l_eps l_stats l_hook l_calls].
  destruct (act_fn (l_pol l) (l_ready l) (l_obs l) (l_inf l) (l_hid l)) as [p [acts hid]].
  rewrite step_envs_map, bind_rmap, rmap_bind. apply bind_ext. intros [es rs]. cbn [fst snd]. rewrite rows_of_map, map_length.
  assert (ED : map r_done (map (map_sres f g) rs) = map r_done rs) by (rewrite map_map; apply map_ext; intros r; unfold r_done, map_sres; cbn [r_term r_trunc]; apply G).
  assert (EO : map r_obs (map (map_sres f g) rs) = map r_obs rs) by (rewrite map_map; reflexivity).
  assert (EI : map r_info (map (map_sres f g) rs) = map r_info rs) by (rewrite map_map; reflexivity).
  rewrite ED, EO, EI, m_add_map, bind_rmap, rmap_bind. apply bind_ext. intros [m reps]. cbn [fst snd].
  destruct (length (filter (fun b => b) (map r_done rs)) =? 0); [reflexivity|].
  rewrite take_map, bind_rmap, rmap_bind. apply bind_ext. intros reps_d. rewrite rmap_bind. apply bind_ext. intros dg. rewrite rmap_bind. apply bind_ext. intros [es' rst].
  rewrite foldM_map. rewrite (foldM_rmap (fun acc => (map_stats f (fst acc), map (map (map_out f g)) (snd acc))) (episode_done o hook (match ne with None => false | Some _ => true end) m) _ reps_d (at_step (l_stats l) (length (rows_of (l_obs l) (map fst acts) rs)), l_hook l)).
  2:{ intros s x. apply episode_done_map. }
  rewrite bind_rmap, rmap_bind. apply bind_ext. intros [st hooks]. cbn [fst snd]. destruct ne as [[|n']|]; [reflexivity| |reflexivity]. destruct (_ <? _)%Z; reflexivity.
Qed.
Lemma iterate_map ns ne : forall fuel l, iterate r0' radd' last_frame o (map_step f g estep) ereset act_fn hreset hook' fuel ns ne (mloop l) =
  rmap mloop (iterate r0 radd last_frame o estep ereset act_fn hreset hook fuel ns ne l).
Proof.
  induction fuel as [|fuel IH]; intros l; [reflexivity|]. cbn [iterate]. rewrite iter_map, bind_rmap, rmap_bind. apply bind_ext. intros l'. cbn [map_loop l_steps l_eps]. destruct (_ || _); [reflexivity|]. apply IH.
Qed.
Lemma start_map ns ne c : start ns ne (mcoll c) = rmap mloop (start ns ne c).
Proof.
  unfold start. cbn [map_coll c_envs c_pre c_hid c_mgr c_pol]. rewrite rmap_bind. apply bind_ext. intros ready. destruct (c_pre c) as [[obs inf]|]; [|reflexivity]. rewrite rmap_bind. apply bind_ext. intros obs'. rewrite rmap_bind. apply bind_ext. intros inf'.
  rewrite rmap_bind. apply bind_ext. intros hid. reflexivity.
Qed.
Lemma reset_env_map c : reset_env ereset (mcoll c) = rmap mcoll (reset_env ereset c).
Proof. unfold reset_env. cbn [map_coll c_envs c_mgr c_pol c_step c_episode]. rewrite rmap_bind. apply bind_ext. intros z. reflexivity. Qed.
Lemma m_reset_map keep m : m_reset r0' keep (mmgr m) = mmgr (m_reset r0 keep m).
Proof.
  unfold m_reset, m_offsets. rewrite mmgr_sizes. unfold map_mgr. cbn [m_bufs m_meta m_last m_lens]. rewrite map_length, !map_map. f_equal. apply map_ext. intros s. unfold bst_reset, map_bst. cbn [maxsize ins size last_index ep_return ep_len ep_start_idx].
  destruct keep; rewrite ?F0; reflexivity.
Qed.
Lemma reset_map rb c : reset r0' ereset rb (mcoll c) = rmap mcoll (reset r0 ereset rb c).
Proof. unfold reset. rewrite reset_env_map, bind_rmap, rmap_bind. apply bind_ext. intros c'. cbn [rmap map_coll c_envs c_mgr c_pol c_pre c_hid]. destruct rb; [rewrite m_reset_map|]; reflexivity. Qed.
Lemma collect__map fuel ns ne c : collect_ r0' radd' last_frame o (map_step f g estep) ereset act_fn hreset hook' fuel ns ne (mcoll c) =
  rmap (fun x => (mcoll (fst x), mloop (snd x))) (collect_ r0 radd last_frame o estep ereset act_fn hreset hook fuel ns ne c).
Proof.
  unfold collect_. rewrite start_map, bind_rmap, rmap_bind. apply bind_ext. intros l0. rewrite iterate_map, bind_rmap, rmap_bind. apply bind_ext. intros l.
  cbn [map_loop l_envs l_mgr l_pol l_steps l_eps l_obs l_inf l_hid map_coll c_pre c_hid c_step c_episode c_envs c_mgr c_pol].
  assert (E : forall c', (let* c' := reset_env ereset (mcoll c') in Ok (c', mloop l)) = rmap (fun x => (mcoll (fst x), mloop (snd x))) (let* c' := reset_env ereset c' in Ok (c', l))).
  { intros c'. rewrite reset_env_map, bind_rmap, rmap_bind. apply bind_ext. intros c''. reflexivity. }
  destruct ns as [[|n]|]; [|reflexivity|]; (destruct ne as [[|m]|]; [reflexivity| |reflexivity]); apply (E (mkColl (l_envs l) (l_mgr l) (l_pol l) (c_pre c) (c_hid c) (c_step c + l_steps l) (c_episode c + l_eps l))).
Qed.
Lemma collect_map fuel ns ne rb c : CollectModel.collect r0' radd' last_frame o (map_step f g estep) ereset act_fn hreset hook' fuel ns ne rb (mcoll c) =
  rmap (fun x => (mcoll (fst x), mloop (snd x))) (CollectModel.collect r0 radd last_frame o estep ereset act_fn hreset hook fuel ns ne rb c).
Proof.
  unfold CollectModel.collect. rewrite rmap_bind. apply bind_ext. intros _. destruct rb.
  - rewrite reset_map, bind_rmap, rmap_bind. apply bind_ext. intros c'. apply collect__map.
  - cbn [bind]. apply collect__map.
Qed.
End Nat.

(** C335. Whatever is done to the rewards by a function that respects the addition, and to the flags
    without changing whether an episode ends, by the environment can as well be done to the collected
    data: collector, buffer, statistics, episodes given to the hook and errors are the same. *)
Lemma C335_collect_lemma : forall (Ob A B Inf R R' H ES PS : Type) (r0 : R) (radd : R -> R -> R) (r0' : R') (radd' : R' -> R' -> R') (f : R -> R') (g : bool -> bool -> bool * bool)
    (last_frame : Ob -> Ob) (o : opts) (estep : nat -> ES -> B -> ES * sres Ob Inf R) (ereset : nat -> ES -> ES * (Ob * Inf))
    (act_fn : PS -> list nat -> list Ob -> list Inf -> option (list H) -> PS * (list (A * B) * option (list H))) (hreset : list nat -> list H -> list H)
    (hook : list (row_out Ob A Inf R) -> bool) (hook' : list (row_out Ob A Inf R') -> bool) (fuel : nat) (n_step n_episode : option nat) (reset_before : bool) (c : coll Ob A Inf R H ES PS),
  f r0 = r0' -> (forall x y, f (radd x y) = radd' (f x) (f y)) -> (forall a b, fst (g a b) || snd (g a b) = a || b) -> (forall rows, hook' (map (map_out f g) rows) = hook rows) ->
  CollectModel.collect r0' radd' last_frame o (map_step f g estep) ereset act_fn hreset hook' fuel n_step n_episode reset_before (map_coll f g c) =
  rmap (fun x => (map_coll f g (fst x), map_loop f g (snd x))) (CollectModel.collect r0 radd last_frame o estep ereset act_fn hreset hook fuel n_step n_episode reset_before c).
Proof. intros. apply collect_map; assumption. Qed.

(** ** TruncatedAsTerminated *)
Lemma tat_or a b : fst (tat_flags a b) || snd (tat_flags a b) = a || b.
Proof. destruct a, b; reflexivity. Qed.
Lemma map_id_stats {R} (s : stats R) : map_stats (fun x => x) s = s.
Proof. destruct s as [a b r l]. unfold map_stats. cbn. rewrite map_id. reflexivity. Qed.
Lemma map_id_bufs {R} (l : list (bst R)) : map (map_bst (fun x => x)) l = l.
Proof. rewrite <- (map_id l) at 2. apply map_ext. intros [a b c d e f' g']. reflexivity. Qed.

(** C336. Collecting from environments wrapped in TruncatedAsTerminated stores the same data with
    terminated set at truncated rows: policy, statistics, bookkeeping of the buffer are the same. *)
Lemma C336_collect_lemma : forall (Ob A B Inf R H ES PS : Type) (r0 : R) (radd : R -> R -> R)
    (last_frame : Ob -> Ob) (o : opts) (estep : nat -> ES -> B -> ES * sres Ob Inf R) (ereset : nat -> ES -> ES * (Ob * Inf))
    (act_fn : PS -> list nat -> list Ob -> list Inf -> option (list H) -> PS * (list (A * B) * option (list H))) (hreset : list nat -> list H -> list H)
    (fuel : nat) (n_step n_episode : option nat) (reset_before : bool) (c : coll Ob A Inf R H ES PS),
  let no_hook := fun _ : list (row_out Ob A Inf R) => false in
  let run := fun step c => CollectModel.collect r0 radd last_frame o step ereset act_fn hreset no_hook fuel n_step n_episode reset_before c in
  let tat := map_coll (fun x : R => x) tat_flags in
  match run estep c with
  | Err e => run (tat_step estep) (tat c) = Err e
  | Ok (c', l) => exists l', run (tat_step estep) (tat c) = Ok (tat c', l') /\ l_stats l' = l_stats l /\ l_calls l' = l_calls l /\ m_bufs (c_mgr (tat c')) = m_bufs (c_mgr c')
  end.
Proof.
  intros Ob A B Inf R H ES PS r0 radd last_frame o estep ereset act_fn hreset fuel ns ne rb c no_hook run tat.
  pose proof (C335_collect_lemma Ob A B Inf R R H ES PS r0 radd r0 radd (fun x => x) tat_flags last_frame o estep ereset act_fn hreset no_hook no_hook fuel ns ne rb c eq_refl (fun _ _ => eq_refl) tat_or (fun _ => eq_refl)) as E.
  change (map_step (fun x : R => x) tat_flags estep) with (tat_step estep) in E.
  change (run (tat_step estep) (tat c) = rmap (fun x => (tat (fst x), map_loop (fun x : R => x) tat_flags (snd x))) (run estep c)) in E.
  destruct (run estep c) as [[c' l]|e]; [|exact E]. exists (map_loop (fun x => x) tat_flags l). split; [exact E|]. split; [apply map_id_stats|]. split; [reflexivity|]. apply map_id_bufs.
Qed.

Section Ret.
Context {Ob A Inf : Type}.
Notation mgr := (mgr Ob A Inf Qc).
Notation tatm := (@map_mgr Ob A Inf Qc Qc (fun x => x) tat_flags).

Lemma tat_children (ss : list (bst Qc)) meta : forall off, children_from off (map (map_bst (fun x => x)) ss) (map_meta (fun x => x) tat_flags meta) = map (@map_buf Ob A Inf Qc Qc (fun x => x) tat_flags) (children_from off ss meta).
Proof.
  induction ss as [|s ss IH]; intros off; [reflexivity|]. cbn [map children_from]. rewrite <- IH. f_equal. unfold map_buf. cbn [b_st b_meta]. f_equal. destruct meta as [l|]; [|reflexivity]. cbn [map_meta option_map]. f_equal. cbn [map_bst maxsize]. unfold slice. rewrite skipn_map, firstn_map. reflexivity.
Qed.
Lemma tat_unfinished1 (b : buf Ob A Inf Qc) : unfinished_index (map_buf (fun x => x) tat_flags b) = unfinished_index b.
Proof.
  unfold unfinished_index, map_buf. cbn [b_st b_meta map_bst size ins]. destruct (b_meta b) as [m|]; [|reflexivity]. cbn [map_meta option_map]. rewrite zget_map, bind_rmap. apply bind_ext. intros d. rewrite slot_done_map. reflexivity.
Qed.
Lemma tat_unfinished (m : mgr) : m_unfinished_index (tatm m) = m_unfinished_index m.
Proof.
  unfold m_unfinished_index, m_offsets. rewrite mmgr_sizes. unfold children at 1. change (m_bufs (tatm m)) with (map (map_bst (fun x => x)) (m_bufs m)). change (m_meta (tatm m)) with (map_meta (fun x => x) tat_flags (m_meta m)). rewrite tat_children, combine_map_r.
  rewrite mapM_map. f_equal. apply mapM_same. intros [off b]. cbn [fst snd]. rewrite tat_unfinished1. reflexivity.
Qed.
Lemma column_tat {T} (h h' : slot Ob A Inf Qc -> T) z (m : mgr) : (forall s, h (map_slot (fun x => x) tat_flags s) = h' s) -> column h z (mgr_view (tatm m)) = column h' z (mgr_view m).
Proof.
  intros E. unfold column, mgr_view. cbn [ib_meta map_mgr m_meta]. destruct (m_meta m) as [l|]; [|reflexivity]. cbn [map_meta option_map]. f_equal. rewrite map_map. apply map_ext. intros [s|]; [apply E|reflexivity].
Qed.

Lemma mapM_zget_map {X Y} (h : X -> Y) (l : list X) idx : mapM (zget (map h l)) idx = rmap (map h) (mapM (zget l) idx).
Proof. apply mapM_rmap. intros i. apply zget_map. Qed.
(** [value_mask] of the wrapped data. *)
Lemma tat_mask (m : mgr) indices :
  value_mask (mgr_view (tatm m)) indices = let* mask := value_mask (mgr_view m) indices in Ok (map (fun x => fst x && negb (snd x)) (combine mask (truncated_at m indices))).
Proof.
  unfold value_mask. rewrite (column_tat s_term (fun s => s_term s || s_trunc s)) by reflexivity. unfold column, mgr_view, truncated_at. cbn [ib_meta]. destruct (m_meta m) as [l|]; [|reflexivity]. cbn [bind].
  rewrite !mapM_zget_map. destruct (mapM (zget l) indices) as [rs|]; [|reflexivity]. cbn [rmap bind]. f_equal. induction rs as [|[s|] rs IH]; cbn; [reflexivity| |]; rewrite IH; [rewrite negb_orb|]; reflexivity.
Qed.
Lemma truncated_length (m : mgr) indices mask : value_mask (mgr_view m) indices = Ok mask -> length (truncated_at m indices) = length indices /\ length mask = length indices.
Proof.
  unfold value_mask, column, mgr_view, truncated_at. cbn [ib_meta]. destruct (m_meta m) as [l|]; [|discriminate]. cbn [bind]. rewrite !mapM_zget_map. destruct (mapM (zget l) indices) as [rs|] eqn:E; [|discriminate]. cbn [rmap bind].
  intros K. injection K as <-. rewrite !map_length. apply mapM_length in E. auto.
Qed.
Lemma cut_length v ts : length v = length ts -> length (cut v ts) = length v.
Proof. intros E. unfold cut. rewrite map_length, combine_length. lia. Qed.
Lemma cut_mask : forall v mask ts, length v = length mask -> length ts = length mask ->
  map (fun x => (fst x * b2q (snd x))%Qc) (combine v (map (fun x => fst x && negb (snd x)) (combine mask ts))) = map (fun x => (fst x * b2q (snd x))%Qc) (combine (cut v ts) mask).
Proof.
  induction v as [|x v IH]; intros [|k mask] [|t ts] L1 L2; try discriminate; [reflexivity|]. cbn [combine map fst snd cut]. unfold cut in IH. cbn [length] in L1, L2. rewrite IH by lia. f_equal. destruct t, k; cbn [andb negb b2q]; ring.
Qed.
Lemma cut_rows_mask : forall q mask ts, length q = length mask -> length ts = length mask ->
  map (fun x => map (fun v => (v * b2q (snd x))%Qc) (fst x)) (combine q (map (fun x => fst x && negb (snd x)) (combine mask ts))) = map (fun x => map (fun v => (v * b2q (snd x))%Qc) (fst x)) (combine (cut_rows q ts) mask).
Proof.
  induction q as [|x v IH]; intros [|k mask] [|t ts] L1 L2; try discriminate; [reflexivity|]. cbn [combine map fst snd cut_rows]. unfold cut_rows in IH. cbn [length] in L1, L2. rewrite IH by lia. f_equal.
  destruct t; [|rewrite andb_true_r; reflexivity]. rewrite andb_false_r, map_map. apply map_ext. intros y. cbn [b2q]. ring.
Qed.
Lemma stack_indices_tat (m : mgr) : forall n idx, stack_indices (mgr_view (tatm m)) n idx = stack_indices (mgr_view m) n idx.
Proof. induction n as [|n IH]; intros idx; [reflexivity|]. cbn [stack_indices]. cbn [mgr_view ib_next]. rewrite m_next_map. apply bind_ext. intros nx. change (mkI (m_meta (tatm m)) (m_next (tatm m)) (m_unfinished_index (tatm m))) with (mgr_view (tatm m)). rewrite IH. reflexivity. Qed.
Lemma flags_tat (batch : list (Qc * bool * bool)) (idx : list Z) (P : Z -> bool) :
  map (fun x => let '((_, term, trunc), i) := x in term || trunc || P i) (combine (map (fun x : Qc * bool * bool => (fst (fst x), fst (tat_flags (snd (fst x)) (snd x)), snd (tat_flags (snd (fst x)) (snd x)))) batch) idx) =
  map (fun x => let '((_, term, trunc), i) := x in term || trunc || P i) (combine batch idx).
Proof. rewrite combine_map_l, map_map. apply map_ext. intros [[[r a] b] i]. cbn [fst snd tat_flags]. destruct a, b; reflexivity. Qed.
End Ret.

(** C336. The GAE returns of the wrapped data are those of the original data with the values of the
    next states set to 0 at truncated rows. *)
Lemma C336_gae_lemma : forall (Ob A Inf : Type) (m : mgr Ob A Inf Qc) (batch : list (Qc * bool * bool)) (indices : list Z) (v : list Qc) (v_s : option (list Qc)) (gamma lam : Qc),
  length v = length indices ->
  compute_episodic_return (mgr_view (map_mgr (fun x => x) tat_flags m)) (map (fun x => (fst (fst x), fst (tat_flags (snd (fst x)) (snd x)), snd (tat_flags (snd (fst x)) (snd x)))) batch) indices (Some v) v_s gamma lam =
  compute_episodic_return (mgr_view m) batch indices (Some (cut v (truncated_at m indices))) v_s gamma lam.
Proof.
  intros Ob A Inf m batch indices v v_s gamma lam L. unfold compute_episodic_return. rewrite tat_mask. rewrite map_map. cbn [fst].
  destruct (value_mask (mgr_view m) indices) as [mask|] eqn:E; [|reflexivity]. cbn [bind]. destruct (truncated_length m indices mask E) as (L1 & L2).
  rewrite map_length, combine_length, L1, L2, Nat.min_id, cut_length, L, Nat.eqb_refl by lia. cbn [guard bind]. unfold guard at 1 4. cbn [bind]. rewrite cut_mask by lia. cbn [mgr_view ib_unfinished]. rewrite tat_unfinished. apply bind_ext. intros unf.
  rewrite (flags_tat batch indices (fun i => existsb (fun u => (Z.of_nat u =? i)%Z) unf)). reflexivity.
Qed.
(** C336. The n-step returns of the wrapped data are those of the original data with the target
    values set to 0 at truncated rows. *)
Lemma C336_nstep_lemma : forall (Ob A Inf : Type) (m : mgr Ob A Inf Qc) (n : nat) (indices : list Z) (tq : list Z -> list (list Qc)) (gamma : Qc) (N : nat) (rew_norm : bool),
  (forall idx, length (tq idx) = length idx) ->
  compute_nstep_return (mgr_view (map_mgr (fun x => x) tat_flags m)) n indices tq gamma N rew_norm =
  compute_nstep_return (mgr_view m) n indices (fun idx => cut_rows (tq idx) (truncated_at m idx)) gamma N rew_norm.
Proof.
  intros Ob A Inf m n indices tq gamma N rn L. unfold compute_nstep_return. unfold guard. destruct (negb rn); [|reflexivity]. destruct (length indices =? n); [|reflexivity]. rewrite stack_indices_tat. apply bind_ext. intros stacked.
  rewrite tat_mask. destruct (value_mask (mgr_view m) (last stacked indices)) as [mask|] eqn:E; [|reflexivity]. cbn [bind]. destruct (truncated_length m _ mask E) as (L1 & L2). rewrite cut_rows_mask by (rewrite ?L; lia).
  rewrite (column_tat s_done s_done) by reflexivity. apply bind_ext. intros done. cbn [mgr_view ib_unfinished]. rewrite tat_unfinished. apply bind_ext. intros unf.
  change (column s_rew 0%Qc (mkI (m_meta (map_mgr (fun x => x) tat_flags m)) (m_next (map_mgr (fun x => x) tat_flags m)) (m_unfinished_index (map_mgr (fun x => x) tat_flags m)))) with (column s_rew 0%Qc (mgr_view (map_mgr (fun x => x) tat_flags m))).
  rewrite (column_tat s_rew s_rew) by reflexivity. reflexivity.
Qed.

Lemma tat_mask_done (Ob A Inf : Type) (m : mgr Ob A Inf Qc) indices mask : done_sound m -> value_mask (mgr_view (map_mgr (fun x => x) tat_flags m)) indices = Ok mask -> mask = map (fun i => negb (done_at m i)) indices.
Proof.
  intros S. unfold value_mask. rewrite (column_tat s_term (fun s => s_term s || s_trunc s)) by reflexivity. unfold column, mgr_view, done_at. cbn [ib_meta]. unfold done_sound in S. destruct (m_meta m) as [l|]; [|discriminate]. cbn [bind].
  rewrite mapM_zget_map. destruct (mapM (zget l) indices) as [rs|] eqn:E; [|discriminate]. cbn [rmap bind]. intros K. injection K as <-. revert rs E. induction indices as [|i indices IH]; intros rs E; cbn [mapM] in E; [injection E as <-; reflexivity|].
  destruct (zget l i) as [s|] eqn:Ei; [|discriminate]. cbn [bind] in E. destruct (mapM (zget l) indices) as [rs'|]; [|discriminate]. cbn [bind] in E. injection E as <-. cbn [map]. rewrite Ei. rewrite (IH rs' eq_refl). f_equal.
  destruct s as [s|]; [|reflexivity]. cbn [slot_done]. rewrite (S l s eq_refl); [reflexivity|]. unfold zget in Ei. destruct (norm_index (length l) i) as [k|]; [|discriminate]. cbn [bind] in Ei. destruct (nth_error l k) eqn:En; [|discriminate]. injection Ei as ->. apply (nth_error_In _ _ En).
Qed.
(** C336. So no value of a state after the end of an episode is used, whether it ended by termination
    or by truncation. *)
Lemma C336_end_lemma : forall (Ob A Inf : Type) (m : mgr Ob A Inf Qc) (batch : list (Qc * bool * bool)) (indices : list Z) (v v' : list Qc) (v_s : option (list Qc)) (gamma lam : Qc),
  done_sound m -> length v = length indices -> length v' = length indices ->
  (forall j i, nth_error indices j = Some i -> done_at m i = false -> nth_error v j = nth_error v' j) ->
  compute_episodic_return (mgr_view (map_mgr (fun x => x) tat_flags m)) batch indices (Some v) v_s gamma lam =
  compute_episodic_return (mgr_view (map_mgr (fun x => x) tat_flags m)) batch indices (Some v') v_s gamma lam.
Proof.
  intros Ob A Inf m batch indices v v' v_s gamma lam S L L' D. unfold compute_episodic_return.
  destruct (value_mask (mgr_view (map_mgr (fun x => x) tat_flags m)) indices) as [mask|] eqn:E; [|reflexivity]. cbn [bind]. apply (tat_mask_done Ob A Inf m indices mask S) in E. subst mask. rewrite map_length, L, L'.
  replace (map (fun x => (fst x * b2q (snd x))%Qc) (combine v (map (fun i => negb (done_at m i)) indices))) with (map (fun x => (fst x * b2q (snd x))%Qc) (combine v' (map (fun i => negb (done_at m i)) indices))); [reflexivity|].
  clear -D L L'. revert v v' L L' D. induction indices as [|i indices IH]; intros [|x v] [|y v'] L L' D; try discriminate; [reflexivity|]. cbn [length] in L, L'. injection L as L. injection L' as L'. cbn [map combine fst snd]. rewrite (IH v v' L L'); [|intros j i' Hj; apply (D (Datatypes.S j) i' Hj)].
  f_equal. specialize (D 0 i eq_refl). cbn [nth_error] in D. destruct (done_at m i); cbn [negb b2q]; [ring|]. injection (D eq_refl) as ->. reflexivity.
Qed.
(** C336. The data that are collected satisfy the condition. *)
Lemma C336_sound_lemma : forall (Ob A Inf : Type) (last_frame : Ob -> Ob) (o : opts) (m m' : mgr Ob A Inf Qc) (ids : option (list Z)) (ts : list (trans Ob A Inf Qc)) reps,
  done_sound m -> m_add 0%Qc Qcplus last_frame o m ids ts = Ok (m', reps) -> done_sound m'.
Proof.
  intros Ob A Inf last_frame o m m' ids ts reps S E. unfold m_add in E. set (ids' := match ids with Some ids => ids | None => _ end) in E. unfold guard in E. destruct (length ids' <=? length ts); [|discriminate].
  destruct (add_loop _ _ _ _ _ _) as [[[[bs la] le] rs]|]; [|discriminate]. cbn [bind] in E. destruct (negb (length ids' =? 0)); [|discriminate]. destruct (length ids' =? length ts); [|discriminate]. destruct (forallb _ _); [|discriminate]. injection E as <- _.
  intros l s El Hin. cbn [m_meta] in El. injection El as <-.
  assert (P : forall xs l0, (forall s, In (Some s) l0 -> s_done s = s_term s || s_trunc s) -> (forall i t, In (i, Some t) xs -> s_done t = s_term t || s_trunc t) ->
    forall s : slot Ob A Inf Qc, In (Some s) (fold_left (fun l ix => upd l (fst ix) (snd ix)) xs l0) -> s_done s = s_term s || s_trunc s).
  { clear. induction xs as [|[i x] xs IH]; intros l0 H0 H1 s Hin; [apply H0, Hin|]. cbn [fold_left fst snd] in Hin. revert Hin. apply IH; [|intros j t Ht; apply (H1 j t); right; exact Ht].
    intros s' Hs'. apply In_nth_error in Hs'. destruct Hs' as (k & Hk). destruct (Nat.eq_dec k i) as [->|N].
    - destruct (Nat.lt_ge_cases i (length l0)) as [Hl|Hl]; [rewrite nth_error_upd_same in Hk by exact Hl; injection Hk as ->; apply (H1 i s'); left; reflexivity|].
      assert (nth_error (upd l0 i x) i = None) as K by (apply nth_error_None; rewrite upd_length; exact Hl). rewrite K in Hk. discriminate.
    - rewrite nth_error_upd_other in Hk by congruence. apply H0, (nth_error_In _ _ Hk). }
  revert Hin. apply P.
  - intros s' Hs'. unfold meta_rows in Hs'. destruct (m_meta m) as [l|] eqn:Em; [apply (S l s' Em Hs')|]. apply repeat_spec in Hs'. discriminate.
  - intros i t Ht. apply in_combine_r in Ht. apply in_map_iff in Ht. destruct Ht as (t' & Et & _). injection Et as <-. reflexivity.
Qed.
