From Verif Require Import Py PyLemmas BufferModel ManagerModel CollectModel FreshSpec.
From Coq Require Import Lia.
Open Scope nat_scope.

(** C367.  reset() gives the same collector whatever was observed, counted or remembered before. *)
Lemma C367_reset_lemma : forall (Ob A Inf R H ES PS : Type) (r0 : R) (ereset : nat -> ES -> ES * (Ob * Inf)) (reset_buffer : bool) (c1 c2 : coll Ob A Inf R H ES PS),
  same_parts c1 c2 -> reset r0 ereset reset_buffer c1 = reset r0 ereset reset_buffer c2.
Proof.
  intros Ob A Inf R H ES PS r0 er rb c1 c2 (E1 & E2 & E3). unfold reset, reset_env. rewrite E1, E2, E3.
  destruct (reset_envs er (c_envs c2) _) as [z|]; reflexivity.
Qed.
(** C367.  So collecting with reset_before_collect depends only on the environments, the policy and the buffer. *)
Lemma C367_collect_lemma : forall (Ob A B Inf R H ES PS : Type) (r0 : R) (radd : R -> R -> R) (last_frame : Ob -> Ob) (o : opts) (estep : nat -> ES -> B -> ES * sres Ob Inf R)
    (ereset : nat -> ES -> ES * (Ob * Inf)) (act_fn : PS -> list nat -> list Ob -> list Inf -> option (list H) -> PS * (list (A * B) * option (list H)))
    (hreset : list nat -> list H -> list H) (hook : list (row_out Ob A Inf R) -> bool) (fuel : nat) (n_step n_episode : option nat) (c1 c2 : coll Ob A Inf R H ES PS),
  same_parts c1 c2 ->
  collect r0 radd last_frame o estep ereset act_fn hreset hook fuel n_step n_episode true c1
  = collect r0 radd last_frame o estep ereset act_fn hreset hook fuel n_step n_episode true c2.
Proof.
  intros Ob A B Inf R H ES PS r0 radd lf o es er af hr hk fuel ns ne c1 c2 E. unfold collect.
  destruct (validate ns ne); [|reflexivity]. cbn [bind]. rewrite (C367_reset_lemma _ _ _ _ _ _ _ r0 er false c1 c2 E). reflexivity.
Qed.
Lemma reset_envs_any {ES Ob Inf : Type} (er : nat -> ES -> ES * (Ob * Inf)) (HE : forall e s s', er e s = er e s') : forall ids (es es' : list ES), length es = length es' ->
  (forall i, nth_error es i = nth_error es' i \/ In i ids) -> reset_envs er es ids = reset_envs er es' ids.
Proof.
  induction ids as [|id ids IH]; intros es es' L Hc.
  - cbn. f_equal. f_equal. apply nth_error_ext. intro i. destruct (Hc i) as [E|[]]; exact E.
  - cbn [reset_envs]. destruct (nth_error es id) as [s|] eqn:E, (nth_error es' id) as [s'|] eqn:E'.
    + rewrite (HE id s s'). destruct (er id s') as [t x]. rewrite (IH (upd es id t) (upd es' id t)); [reflexivity|rewrite !upd_length; exact L|].
      intro i. rewrite !nth_error_upd, L. destruct (Nat.eqb_spec id i) as [<-|N]; cbn [andb].
      * left. assert (id < length es') by (apply nth_error_Some; congruence). destruct (Nat.ltb_spec id (length es')); [reflexivity|lia].
      * destruct (Hc i) as [X|[X|X]]; [left; exact X|congruence|right; exact X].
    + apply nth_error_None in E'. assert (id < length es) by (apply nth_error_Some; congruence). lia.
    + apply nth_error_None in E. assert (id < length es') by (apply nth_error_Some; congruence). lia.
    + reflexivity.
Qed.
(** C367.  If the environments start alike after every reset, reset() of the buffer too leaves nothing of the past but rows that no longer count. *)
Lemma C367_memoryless_lemma : forall (Ob A Inf R H ES PS : Type) (r0 : R) (ereset : nat -> ES -> ES * (Ob * Inf)) (c1 c2 : coll Ob A Inf R H ES PS),
  (forall e s s', ereset e s = ereset e s') -> same_sizes c1 c2 ->
  match reset r0 ereset true c1, reset r0 ereset true c2 with
  | Ok c1', Ok c2' => same_but_rows c1' c2'
  | Err e, Err e' => e = e'
  | _, _ => False
  end.
Proof.
  intros Ob A Inf R H ES PS r0 er c1 c2 HE (E1 & E2 & E3). unfold reset, reset_env. rewrite E1.
  rewrite (reset_envs_any er HE (seq 0 (length (c_envs c2))) (c_envs c1) (c_envs c2) E1).
  2:{ intro i. destruct (Nat.lt_ge_cases i (length (c_envs c2))); [right; apply in_seq; lia|left].
      rewrite (proj2 (nth_error_None (c_envs c1) i)), (proj2 (nth_error_None (c_envs c2) i)) by lia. reflexivity. }
  destruct (reset_envs er (c_envs c2) _) as [z|]; [|reflexivity]. cbn [bind]. unfold same_but_rows. cbn [c_envs c_mgr c_pol c_pre c_hid c_step c_episode].
  do 6 (split; [auto|]). unfold m_reset. cbn [m_bufs m_last m_lens].
  assert (X : map (bst_reset r0 false) (m_bufs (c_mgr c1)) = map (bst_reset r0 false) (m_bufs (c_mgr c2))).
  { unfold m_sizes in E2. revert E2. generalize (m_bufs (c_mgr c1)) (m_bufs (c_mgr c2)). induction l as [|s l IH]; intros [|s' l'] E; try discriminate; [reflexivity|].
    cbn in E. injection E as Es El. cbn [map]. rewrite (IH l' El). f_equal. unfold bst_reset. rewrite Es. reflexivity. }
  assert (L : length (m_bufs (c_mgr c1)) = length (m_bufs (c_mgr c2))) by (apply (f_equal (@length _)) in E2; unfold m_sizes in E2; rewrite !map_length in E2; exact E2).
  split; [exact X|]. unfold m_offsets. rewrite ?E2. auto.
Qed.
(** C367.  The first call of the policy after a reset gets the observations of the reset and no hidden state, and the counts start at 0. *)
Lemma C367_first_call_lemma : forall (Ob A B Inf R H ES PS : Type) (r0 : R) (ereset : nat -> ES -> ES * (Ob * Inf)) (reset_buffer : bool) (n_step n_episode : option nat)
    (c c' : coll Ob A Inf R H ES PS) (l : loop Ob A B Inf R H ES PS),
  reset r0 ereset reset_buffer c = Ok c' -> start n_step n_episode c' = Ok l ->
  l_hid l = None /\ l_steps l = 0 /\ l_eps l = 0 /\ c_step c' = 0 /\ c_episode c' = 0 /\
  exists es rs, reset_envs ereset (c_envs c) (seq 0 (length (c_envs c))) = Ok (es, rs) /\ l_envs l = es /\
    forall j id, nth_error (l_ready l) j = Some id -> option_map (fun x => (Some (fst x), Some (snd x))) (nth_error rs id) = Some (nth_error (l_obs l) j, nth_error (l_inf l) j).
Proof.
  intros Ob A B Inf R H ES PS r0 er rb ns ne c c' l HR HS. unfold reset, reset_env in HR.
  destruct (reset_envs er (c_envs c) _) as [[es rs]|] eqn:E; [|discriminate]. cbn [bind fst snd] in HR. injection HR as <-.
  unfold start in HS. cbn [c_pre c_hid c_envs c_mgr c_pol] in HS.
  match type of HS with bind ?a _ = _ => destruct a as [ready|]; [|discriminate] end. cbn [bind] in HS.
  destruct (take (map fst rs) ready) as [obs|] eqn:EO; [|discriminate]. cbn [bind] in HS. destruct (take (map snd rs) ready) as [inf|] eqn:EI; [|discriminate]. cbn [bind] in HS.
  injection HS as <-. cbn. do 5 (split; [reflexivity|]). exists es, rs. split; [reflexivity|]. split; [reflexivity|].
  assert (T : forall T (f : Ob * Inf -> T) xs, take (map f rs) ready = Ok xs -> forall j id, nth_error ready j = Some id -> option_map f (nth_error rs id) = nth_error xs j /\ nth_error xs j <> None).
  { clear. intros T f. unfold take. induction ready as [|i ready IH]; intros xs HT j id Hj; [destruct j; discriminate|]. cbn [mapM] in HT. rewrite nth_error_map in HT.
    destruct (nth_error rs i) as [y|] eqn:Ey; [|discriminate]. cbn [option_map bind] in HT. destruct (mapM _ ready) as [xs'|]; [|discriminate]. cbn [bind] in HT. injection HT as <-.
    destruct j as [|j]; cbn in Hj |- *; [injection Hj as <-; rewrite Ey; split; [reflexivity|discriminate]|apply (IH xs' eq_refl j id Hj)]. }
  intros j id Hj. destruct (T _ fst obs EO j id Hj) as [T1 T2]. destruct (T _ snd inf EI j id Hj) as [T3 T4]. rewrite <- T1, <- T3. destruct (nth_error rs id); [reflexivity|]. cbn in T1. congruence.
Qed.
(** C367.  After collecting whole episodes the collector stands as after reset_env: with the observations of new episodes and no hidden state. *)
Lemma C367_after_episodes_lemma : forall (Ob A B Inf R H ES PS : Type) (r0 : R) (radd : R -> R -> R) (last_frame : Ob -> Ob) (o : opts) (estep : nat -> ES -> B -> ES * sres Ob Inf R)
    (ereset : nat -> ES -> ES * (Ob * Inf)) (act_fn : PS -> list nat -> list Ob -> list Inf -> option (list H) -> PS * (list (A * B) * option (list H)))
    (hreset : list nat -> list H -> list H) (hook : list (row_out Ob A Inf R) -> bool) (fuel n : nat) (reset_before : bool) (c c' : coll Ob A Inf R H ES PS) (l : loop Ob A B Inf R H ES PS),
  collect r0 radd last_frame o estep ereset act_fn hreset hook fuel None (Some n) reset_before c = Ok (c', l) ->
  c_hid c' = None /\ exists es rs, reset_envs ereset (l_envs l) (seq 0 (length (l_envs l))) = Ok (es, rs) /\ c_envs c' = es /\ c_pre c' = Some (map fst rs, map snd rs) /\
  c_mgr c' = l_mgr l /\ c_pol c' = l_pol l.
Proof.
  intros Ob A B Inf R H ES PS r0 radd lf o es er af hr hk fuel n rb c c' l HC. unfold collect in HC. destruct n as [|n]; [discriminate|].
  cbn [validate negb andb bind] in HC. match type of HC with bind ?a _ = _ => destruct a as [c0|]; [|discriminate] end. cbn [bind] in HC. unfold collect_ in HC.
  destruct (start None (Some (S n)) c0) as [l0|]; [|discriminate]. cbn [bind] in HC. destruct (iterate _ _ _ _ _ _ _ _ _ fuel None (Some (S n)) l0) as [l1|]; [|discriminate]. cbn [bind] in HC.
  unfold reset_env in HC. cbn [c_envs] in HC. destruct (reset_envs er (l_envs l1) _) as [[es' rs]|] eqn:E; [|discriminate]. cbn [bind fst snd] in HC. injection HC as <- <-.
  cbn. split; [reflexivity|]. exists es', rs. auto.
Qed.
