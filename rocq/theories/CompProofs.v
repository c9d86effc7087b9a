(** * Proofs about runs that are composed of parts *)
From Verif Require Import Py PyLemmas BufferModel BufferSpec BufferProofs ManagerModel ManagerSpec ManagerProofs ManagerMainProofs GetIndicesModel CollectModel CollectSpec CollectRoundProofs CompSpec.
From Verif Require TrainModel TrainProofs.
From Coq Require Import Permutation.
Open Scope nat_scope.

Section Collect.
Context {Ob A B Inf R H ES PS : Type}.
Variable r0 : R.
Variable radd : R -> R -> R.
Variable last_frame : Ob -> Ob.
Variable o : opts.
Variable estep : nat -> ES -> B -> ES * sres Ob Inf R.
Variable ereset : nat -> ES -> ES * (Ob * Inf).
Variable act_fn : PS -> list nat -> list Ob -> list Inf -> option (list H) -> PS * (list (A * B) * option (list H)).
Variable hreset : list nat -> list H -> list H.
Variable hook : list (row_out Ob A Inf R) -> bool.
Notation loop := (loop Ob A B Inf R H ES PS).
Notation coll := (coll Ob A Inf R H ES PS).
Notation iter := (CollectModel.iter r0 radd last_frame o estep ereset act_fn hreset hook).
Notation iterate := (CollectModel.iterate r0 radd last_frame o estep ereset act_fn hreset hook).
Notation collect := (CollectModel.collect r0 radd last_frame o estep ereset act_fn hreset hook).

Definition res_map {X Y} (f : X -> Y) (x : res X) : res Y := match x with Ok a => Ok (f a) | Err e => Err e end.

Lemma foldM_episode m reps : forall s hk st hk0,
  foldM (episode_done o hook false m) reps (both_stats s st, hk ++ hk0)
  = res_map (fun x => (both_stats s (fst x), hk ++ snd x)) (foldM (episode_done o hook false m) reps (st, hk0)).
Proof.
  induction reps as [|[[[i ret] len] start] reps IH]; intros s hk st hk0; [reflexivity|].
  cbn [foldM]. unfold episode_done at 1 3.
  destruct (get_buffer_indices _ _ _) as [idx|]; [|reflexivity]. cbn [bind].
  destruct (m_getitem o m idx) as [batch|]; [|reflexivity]. cbn [bind].
  destruct (hook batch && negb false); [reflexivity|]. cbn [bind fst snd].
  rewrite <- app_assoc.
  replace (at_episode (both_stats s st) (length batch) ret) with (both_stats s (at_episode st (length batch) ret)).
  - apply IH.
  - unfold both_stats, at_episode. cbn [st_episodes st_steps st_returns st_lens]. rewrite !app_assoc, Nat.add_assoc. reflexivity.
Qed.

Lemma iter_both p l : iter None (both p l) = res_map (both p) (iter None l).
Proof.
  unfold CollectModel.iter. cbn [both l_pol l_ready l_obs l_inf l_hid l_envs l_mgr l_steps l_eps l_stats l_hook l_calls].
  destruct (act_fn _ _ _ _ _) as [pp [acts hid]].
  destruct (step_envs _ _ _ _) as [[es rs]|]; [|reflexivity]. cbn [bind].
  destruct (m_add _ _ _ _ _ _ _) as [[m reps]|]; [|reflexivity]. cbn [bind].
  set (rows := rows_of _ _ _). set (num := length _).
  assert (E : at_step (both_stats (l_stats p) (l_stats l)) (length rows) = both_stats (l_stats p) (at_step (l_stats l) (length rows))).
  { unfold both_stats, at_step. cbn [st_episodes st_steps st_returns st_lens]. rewrite Nat.add_assoc. reflexivity. }
  rewrite E. clear E. destruct (num =? 0).
  - cbn [res_map]. unfold both. cbn [l_envs l_mgr l_pol l_ready l_obs l_inf l_hid l_steps l_eps l_stats l_hook l_calls]. rewrite !Nat.add_assoc, app_assoc. reflexivity.
  - destruct (take reps _) as [reps_d|]; [|reflexivity]. cbn [bind].
    destruct (take (l_ready l) _) as [dg|]; [|reflexivity]. cbn [bind].
    destruct (reset_envs _ _ _) as [[es2 rst]|]; [|reflexivity]. cbn [bind].
    rewrite foldM_episode. destruct (foldM _ _ _) as [[st hooks]|]; [|reflexivity].
    cbn [res_map bind fst snd]. unfold both. cbn [l_envs l_mgr l_pol l_ready l_obs l_inf l_hid l_steps l_eps l_stats l_hook l_calls].
    rewrite !Nat.add_assoc, app_assoc. reflexivity.
Qed.

Lemma reached_some n k : reached (Some n) k = true <-> 0 < n /\ n <= k.
Proof. destruct n; cbn [reached]; [split; [discriminate|lia]|]. rewrite Nat.leb_le. lia. Qed.

Lemma iterate_both p b : forall fuel l l', iterate fuel (Some b) None l = Ok l' -> 0 < b ->
  iterate fuel (Some (l_steps p + b)) None (both p l) = Ok (both p l').
Proof.
  induction fuel as [|fuel IH]; intros l l' E Hb; [discriminate|]. cbn [CollectModel.iterate] in *.
  rewrite iter_both. destruct (iter None l) as [l1|]; [|discriminate]. cbn [bind res_map] in *.
  assert (Q : reached (Some (l_steps p + b)) (l_steps (both p l1)) = reached (Some b) (l_steps l1)).
  { apply eq_true_iff_eq. rewrite !reached_some. cbn [both l_steps]. lia. }
  rewrite Q. change (reached None _) with false in *. rewrite orb_false_r in *.
  destruct (reached (Some b) (l_steps l1)); [injection E as <-; reflexivity|]. apply IH; assumption.
Qed.
Lemma iterate_more a b : 0 < a -> 0 < b -> forall fuel2 fuel l l1 l2, iterate fuel (Some a) None l = Ok l1 -> iterate fuel2 (Some (l_steps l1 + b)) None l1 = Ok l2 ->
  iterate (fuel + fuel2) (Some (l_steps l1 + b)) None l = Ok l2.
Proof.
  intros Ha Hb fuel2. induction fuel as [|fuel IH]; intros l l1 l2 E1 E2; [discriminate|]. cbn [CollectModel.iterate Nat.add] in *.
  destruct (iter None l) as [l3|] eqn:E3; [|discriminate]. cbn [bind] in *.
  change (reached None _) with false in *. rewrite orb_false_r in *.
  assert (M : forall fuel l l', iterate fuel (Some a) None l = Ok l' -> l_steps l <= l_steps l').
  { clear -r0. induction fuel as [|fuel IH]; intros l l' E; [discriminate|]. cbn [CollectModel.iterate] in E.
    destruct (iter None l) as [l3|] eqn:E3; [|discriminate]. cbn [bind] in E.
    assert (S : l_steps l3 = l_steps l + length (l_ready l)).
    { revert E3. unfold CollectModel.iter. destruct (act_fn _ _ _ _ _) as [pp [acts hid]].
      destruct (step_envs _ _ _ _) as [[es rs]|]; [|discriminate]. cbn [bind].
      destruct (m_add _ _ _ _ _ _ _) as [[m reps]|]; [|discriminate]. cbn [bind].
      destruct (_ =? 0); [intros [= <-]; reflexivity|].
      destruct (take reps _) as [reps_d|]; [|discriminate]. cbn [bind].
      destruct (take (l_ready l) _) as [dg|]; [|discriminate]. cbn [bind].
      destruct (reset_envs _ _ _) as [[es2 rst]|]; [|discriminate]. cbn [bind].
      destruct (foldM _ _ _) as [[st hooks]|]; [|discriminate]. cbn [bind]. intros [= <-]. reflexivity. }
    destruct (_ || _); [injection E as <-; lia|]. apply IH in E. lia. }
  destruct (reached (Some a) (l_steps l3)) eqn:Q.
  - injection E1 as <-. assert (Q2 : reached (Some (l_steps l3 + b)) (l_steps l3) = false).
    { apply not_true_is_false. intro X. apply reached_some in X. lia. }
    rewrite Q2. clear -E2. revert fuel E2. intro fuel. revert fuel2 l3 l2. 
    assert (W : forall k fuel2 n l3 l2, iterate fuel2 n None l3 = Ok l2 -> iterate (k + fuel2) n None l3 = Ok l2).
    { intros k fuel2. revert k. induction fuel2 as [|f IH]; intros k n l3 l2 E; [discriminate|].
      rewrite Nat.add_succ_r. cbn [CollectModel.iterate] in *. destruct (iter None l3) as [l4|]; [|discriminate]. cbn [bind] in *.
      destruct (_ || _); [exact E|]. apply IH, E. }
    intros. apply W. assumption.
  - assert (Q2 : reached (Some (l_steps l1 + b)) (l_steps l3) = false).
    { apply M in E1. apply not_true_is_false. intro X. apply reached_some in X. lia. }
    rewrite Q2. apply IH; assumption.
Qed.

(** What a round without n_episode keeps. *)
Definition rowful (l : loop) : Prop :=
  length (l_obs l) = length (l_ready l) /\ length (l_inf l) = length (l_ready l) /\ (forall h, l_hid l = Some h -> length h = length (l_ready l))
  /\ length (l_ready l) = length (l_envs l) /\ l_ready l = seq 0 (length (l_envs l)).
Lemma step_envs_length : forall ids es acts es' rs, step_envs estep es ids acts = Ok (es', rs) -> length rs = length ids /\ length es' = length es.
Proof.
  induction ids as [|id ids IH]; intros es [|b acts] es' rs E; cbn in E; try discriminate; [injection E as <- <-; auto|].
  destruct (nth_error es id) as [s|]; [|discriminate]. destruct (estep id s b) as [s' r].
  destruct (step_envs estep (upd es id s') ids acts) as [[es2 rs2]|] eqn:E2; [|discriminate]. cbn in E. injection E as <- <-.
  apply IH in E2 as [H1 H2]. rewrite upd_length in H2. cbn. lia.
Qed.
Lemma reset_envs_length : forall ids es es' xs, reset_envs ereset es ids = Ok (es', xs) -> length es' = length es.
Proof.
  induction ids as [|id ids IH]; intros es es' xs E; cbn in E; [injection E as <- <-; auto|].
  destruct (nth_error es id) as [s|]; [|discriminate]. destruct (ereset id s) as [s' r].
  destruct (reset_envs ereset (upd es id s') ids) as [[es2 xs2]|] eqn:E2; [|discriminate]. cbn in E. injection E as <- <-.
  apply IH in E2. rewrite upd_length in E2. cbn. lia.
Qed.
Hypothesis rows_hid : forall p ids obs inf hid h, length obs = length ids -> length inf = length ids -> (forall g, hid = Some g -> length g = length ids) ->
    snd (snd (act_fn p ids obs inf hid)) = Some h -> length h = length ids.
Hypothesis rows_reset : forall idx h, length (hreset idx h) = length h.
Lemma iter_rowful l l' : rowful l -> iter None l = Ok l' -> rowful l' /\ length (l_envs l') = length (l_envs l).
Proof.
  intros (H1 & H2 & H3 & H4 & H5). unfold CollectModel.iter.
  destruct (act_fn _ _ _ _ _) as [pp [acts hid]] eqn:Ea.
  assert (Hh : forall h, hid = Some h -> length h = length (l_ready l)) by (intros h ->; eapply rows_hid; [exact H1|exact H2|exact H3|rewrite Ea; reflexivity]).
  destruct (step_envs _ _ _ _) as [[es rs]|] eqn:Es; [|discriminate]. cbn [bind].
  apply step_envs_length in Es as [L1 L2].
  destruct (m_add _ _ _ _ _ _ _) as [[m reps]|]; [|discriminate]. cbn [bind].
  destruct (_ =? 0).
  { intros [= <-]. unfold rowful. cbn [l_obs l_inf l_hid l_ready l_envs]. rewrite !map_length. rewrite L2. intuition. }
  destruct (take reps _) as [reps_d|]; [|discriminate]. cbn [bind].
  destruct (take (l_ready l) _) as [dg|]; [|discriminate]. cbn [bind].
  destruct (reset_envs _ _ _) as [[es2 rst]|] eqn:Er; [|discriminate]. cbn [bind]. apply reset_envs_length in Er.
  destruct (foldM _ _ _) as [[st hooks]|]; [|discriminate]. cbn [bind]. intros [= <-].
  unfold rowful. cbn [l_obs l_inf l_hid l_ready l_envs]. rewrite !put_length, !map_length, Er, L2.
  repeat match goal with |- _ /\ _ => split end; auto.
  intros h E. destruct hid as [h0|]; [|discriminate]. injection E as <-. rewrite rows_reset. apply Hh. reflexivity.
Qed.
Lemma iterate_rowful n : forall fuel l l', rowful l -> iterate fuel n None l = Ok l' -> rowful l' /\ length (l_envs l') = length (l_envs l).
Proof.
  induction fuel as [|fuel IH]; intros l l' W E; [discriminate|]. cbn [CollectModel.iterate] in E.
  destruct (iter None l) as [l1|] eqn:E1; [|discriminate]. cbn [bind] in E. destruct (iter_rowful _ _ W E1) as [W1 L1].
  destruct (_ || _); [injection E as <-; auto|]. destruct (IH _ _ W1 E) as [W2 L2]. split; [exact W2|lia].
Qed.
Lemma take_all {T} (l : list T) : take l (seq 0 (length l)) = Ok l.
Proof.
  unfold take. assert (G : forall pre l : list T, mapM (fun i => match nth_error (pre ++ l) i with Some x => Ok x | None => Err IndexError end) (seq (length pre) (length l)) = Ok l).
  { clear l. intros pre l. revert pre. induction l as [|x l IH]; intro pre; [reflexivity|]. cbn [length seq mapM].
    rewrite nth_error_app2, Nat.sub_diag by lia. cbn [nth_error bind].
    specialize (IH (pre ++ [x])). rewrite app_length in IH. cbn [length] in IH. rewrite Nat.add_1_r in IH. rewrite <- app_assoc in IH. cbn [app] in IH.
    rewrite IH. reflexivity. }
  exact (G [] l).
Qed.
Lemma start_rowful n (c : coll) l : (forall h, c_hid c = Some h -> length h = length (c_envs c)) -> start (B := B) (Some n) None c = Ok l -> rowful l /\ l_envs l = c_envs c.
Proof.
  intro Hh. unfold start. cbn [bind]. destruct (c_pre c) as [[obs inf]|]; [|discriminate].
  destruct (take obs _) as [ob|] eqn:E1; [|discriminate]. cbn [bind]. destruct (take inf _) as [nf|] eqn:E2; [|discriminate]. cbn [bind].
  apply take_spec in E1 as [L1 _]. apply take_spec in E2 as [L2 _]. rewrite seq_length in L1, L2.
  destruct (c_hid c) as [h|] eqn:Eh.
  - destruct (take h _) as [h'|] eqn:E3; [|discriminate]. cbn [bind]. apply take_spec in E3 as [L3 _]. rewrite seq_length in L3. intros [= <-].
    unfold rowful. cbn [l_obs l_inf l_hid l_ready l_envs]. rewrite !seq_length. repeat match goal with |- _ /\ _ => split end; auto. intros x [= <-]. exact L3.
  - cbn [bind]. intros [= <-]. unfold rowful. cbn [l_obs l_inf l_hid l_ready l_envs]. rewrite !seq_length. repeat match goal with |- _ /\ _ => split end; auto.
Qed.
(** The loop of a second call starts where the first one ended. *)
Definition reset_loop (l : loop) : loop := mkLoop (l_envs l) (l_mgr l) (l_pol l) (l_ready l) (l_obs l) (l_inf l) (l_hid l) 0 0 stats0 [] [].
Lemma both_reset l : both l (reset_loop l) = l.
Proof.
  destruct l as [? ? ? ? ? ? ? ? ? [? ? ? ?] ? ?]. unfold both, reset_loop, both_stats, stats0. cbn. rewrite !Nat.add_0_r, !app_nil_r. reflexivity.
Qed.

Lemma parts_main (c c1 c2 : coll) l1 l2 a b fuel1 fuel2 :
  (forall h, c_hid c = Some h -> length h = length (c_envs c)) ->
  collect fuel1 (Some (S a)) None false c = Ok (c1, l1) -> collect fuel2 (Some (S b)) None false c1 = Ok (c2, l2) ->
  collect (fuel1 + fuel2) (Some (l_steps l1 + S b)) None false c = Ok (c2, both l1 l2).
Proof.
  intros Hh E1 E2. unfold CollectModel.collect in *. cbn [validate negb andb bind] in E1, E2.
  rewrite Nat.add_succ_r. cbn [validate negb andb bind]. rewrite <- Nat.add_succ_r.
  unfold collect_ in E1. destruct (start (Some (S a)) None c) as [l0|] eqn:S0; [|discriminate]. cbn [bind] in E1.
  destruct (iterate fuel1 (Some (S a)) None l0) as [l1'|] eqn:I1; [|discriminate]. cbn [bind] in E1. injection E1 as <- ->.
  destruct (start_rowful _ _ _ Hh S0) as [W0 Ev0]. destruct (iterate_rowful _ _ _ _ W0 I1) as [W1 L1].
  destruct W1 as (H1 & H2 & H3 & H4 & H5).
  assert (S1 : start (B := B) (Some (S b)) None (mkColl (l_envs l1) (l_mgr l1) (l_pol l1) (Some (l_obs l1, l_inf l1)) (l_hid l1) (c_step c + l_steps l1) (c_episode c + l_eps l1)) = Ok (reset_loop l1)).
  { unfold start. cbn [c_envs c_pre c_hid c_mgr c_pol bind]. rewrite <- H4, <- H1, take_all, H1. cbn [bind]. rewrite <- H2, take_all, H2. cbn [bind].
    assert (Hr : seq 0 (length (l_ready l1)) = l_ready l1) by (rewrite H4; symmetry; exact H5).
    unfold reset_loop. destruct (l_hid l1) as [h|] eqn:Eh; [|rewrite Hr; reflexivity].
    replace (take h (seq 0 (length (l_ready l1)))) with (Ok h) by (rewrite <- (H3 h eq_refl), take_all; reflexivity). cbn [bind]. rewrite Hr. reflexivity. }
  unfold collect_ in E2. rewrite S1 in E2. cbn [bind] in E2.
  destruct (iterate fuel2 (Some (S b)) None (reset_loop l1)) as [l2'|] eqn:I2; [|discriminate]. cbn [bind] in E2. injection E2 as <- ->.
  assert (I3 : iterate (fuel1 + fuel2) (Some (l_steps l1 + S b)) None l0 = Ok (both l1 l2)).
  { apply (iterate_more (S a) (S b)) with (l1 := l1); [lia|lia|exact I1|].
    pose proof (iterate_both l1 (S b) fuel2 _ _ I2 ltac:(lia)) as X. rewrite both_reset in X. exact X. }
  unfold collect_. assert (S2 : start (B := B) (Some (l_steps l1 + S b)) None c = Ok l0) by exact S0.
  rewrite S2. cbn [bind]. rewrite I3. cbn [bind both l_envs l_mgr l_pol l_obs l_inf l_hid l_steps l_eps c_envs c_mgr c_pol c_step c_episode].
  rewrite Nat.add_succ_r. cbn [c_envs c_mgr c_pol c_step c_episode]. rewrite !Nat.add_assoc. reflexivity.
Qed.
End Collect.

(** C320.  Two collections of steps without a reset in between are one collection of the steps made in the first and those
    asked for in the second: same environments, buffer, policy, observations, hidden states and counters afterwards, same
    calls of the policy, same episodes for the hook, and the statistics of the one are those of the two together. *)
Lemma C320_parts_lemma : forall (Ob A B Inf R H ES PS : Type) (r0 : R) (radd : R -> R -> R) (last_frame : Ob -> Ob) (o : opts)
  (estep : nat -> ES -> B -> ES * sres Ob Inf R) (ereset : nat -> ES -> ES * (Ob * Inf))
  (act_fn : PS -> list nat -> list Ob -> list Inf -> option (list H) -> PS * (list (A * B) * option (list H)))
  (hreset : list nat -> list H -> list H) (hook : list (row_out Ob A Inf R) -> bool)
  (c c1 c2 : coll Ob A Inf R H ES PS) l1 l2 a b fuel1 fuel2,
  (forall p ids obs inf hid h, length obs = length ids -> length inf = length ids -> (forall g, hid = Some g -> length g = length ids) ->
    snd (snd (act_fn p ids obs inf hid)) = Some h -> length h = length ids) ->
  (forall idx h, length (hreset idx h) = length h) ->
  (forall h, c_hid c = Some h -> length h = length (c_envs c)) ->
  CollectModel.collect r0 radd last_frame o estep ereset act_fn hreset hook fuel1 (Some (S a)) None false c = Ok (c1, l1) ->
  CollectModel.collect r0 radd last_frame o estep ereset act_fn hreset hook fuel2 (Some (S b)) None false c1 = Ok (c2, l2) ->
  CollectModel.collect r0 radd last_frame o estep ereset act_fn hreset hook (fuel1 + fuel2) (Some (l_steps l1 + S b)) None false c = Ok (c2, both l1 l2).
Proof. intros. eapply parts_main; eassumption. Qed.

(** ** Managers *)
Section Manager.
Context {Ob A Inf R : Type}.
Variable r0 : R.
Variable radd : R -> R -> R.
Variable last_frame : Ob -> Ob.
Notation mgr := (mgr Ob A Inf R).

Lemma sim_fun ns (m m' : mgr) bs : sim ns m bs -> sim ns m' bs -> (m_meta m = None <-> m_meta m' = None) -> m = m'.
Proof.
  intros S S' N. destruct S as [a1 a2 a3 a4 a5 a6 a7 a8], S' as [b1 b2 b3 b4 b5 b6 b7 b8].
  destruct m as [bufs meta last lens], m' as [bufs' meta' last' lens']. cbn [m_bufs m_meta m_last m_lens] in *.
  assert (E1 : last = last').
  { apply nth_error_ext. intro i. destruct (nth_error bs i) as [b|] eqn:E.
    - rewrite (a7 _ _ E), (b7 _ _ E). reflexivity.
    - apply nth_error_None in E. rewrite (proj2 (nth_error_None last i)), (proj2 (nth_error_None last' i)) by lia. reflexivity. }
  assert (E2 : meta = meta').
  { rewrite <- b3 in a3. destruct meta as [x|], meta' as [y|]; cbn [meta_rows] in a3.
    - f_equal. exact a3.
    - destruct N as [_ N]. specialize (N eq_refl). discriminate.
    - destruct N as [N _]. specialize (N eq_refl). discriminate.
    - reflexivity. }
  congruence.
Qed.

Lemma m_run_meta_none o ops : forall (m m' : mgr) outs, m_run r0 radd last_frame o m ops = Ok (m', outs) ->
  (forall ids ts, ~ In (MAdd ids ts) ops) -> m_meta m' = m_meta m.
Proof.
  induction ops as [|op ops IH]; intros m m' outs E N; cbn [m_run] in E; [injection E as <- _; reflexivity|].
  destruct op as [ids ts|keep]; [exfalso; eapply N; left; reflexivity|].
  rewrite (IH _ _ _ E); [reflexivity|]. intros ids ts I. eapply N. right. exact I.
Qed.

Lemma proj_add N (ops : list (mop Ob A Inf R)) ids ts : Forall (mop_ok N) ops -> In (MAdd ids ts) ops -> exists k t, k < N /\ In (OpAdd t) (proj N k ops).
Proof.
  intros F I. pose proof (proj1 (Forall_forall _ _) F _ I) as K. apply (mop_ok_ids r0 radd) in K as (L & Ne & Rg).
  destruct (ids_of N ids) as [|z zs] eqn:Ei; [contradiction|]. destruct ts as [|t ts']; [discriminate|].
  assert (exists k, k < N /\ mine N k z = true) as (k & Hk & Hm).
  { specialize (Rg z (or_introl eq_refl)). exists (Z.to_nat (z mod Z.of_nat N)).
    assert (0 < Z.of_nat N)%Z by lia. pose proof (Z.mod_pos_bound z (Z.of_nat N) H). split; [lia|].
    unfold mine. apply Z.eqb_eq. rewrite Z2Nat.id by lia. reflexivity. }
  exists k, t. split; [exact Hk|]. clear F Rg L Ne.
  induction ops as [|op ops IH]; [destruct I|]. destruct I as [->|I].
  - cbn [proj]. change (match ids with Some ids0 => ids0 | None => map Z.of_nat (seq 0 N) end) with (ids_of N ids). rewrite Ei.
    cbn [combine]. rewrite select_cons, Hm. cbn [map app]. left. reflexivity.
  - destruct op as [ids' ts''|keep]; cbn [proj]; [apply in_or_app; right; apply IH, I|right; apply IH, I].
Qed.
Lemma add_proj N (ops : list (mop Ob A Inf R)) k t : In (OpAdd t) (proj N k ops) -> exists ids ts, In (MAdd ids ts) ops.
Proof.
  induction ops as [|op ops IH]; cbn [proj]; [intros []|]. destruct op as [ids ts|keep].
  - intros _. exists ids, ts. left. reflexivity.
  - intros [E|I]; [discriminate|]. destruct (IH I) as (ids & ts & J). exists ids, ts. right. exact J.
Qed.

Lemma interleave_main o ns ops ops' (m m' : mgr) outs outs' : (forall n, In n ns -> 0 < n) ->
  m_run r0 radd last_frame o (m_init r0 ns) ops = Ok (m, outs) -> m_run r0 radd last_frame o (m_init r0 ns) ops' = Ok (m', outs') ->
  (forall k, k < length ns -> proj (length ns) k ops = proj (length ns) k ops') ->
  m = m' /\ forall k, k < length ns -> select (length ns) k outs = select (length ns) k outs'.
Proof.
  intros Hpos R1 R2 P.
  destruct (sim_init (Ob := Ob) (A := A) (Inf := Inf) r0 ns Hpos) as [Hs0 Hg0].
  pose proof (m_run_wf r0 radd last_frame o ns ops _ _ _ Hs0 Hg0 R1) as W1. pose proof (m_run_wf r0 radd last_frame o ns ops' _ _ _ Hs0 Hg0 R2) as W2.
  destruct (m_run_sim r0 radd last_frame o ns ops _ _ Hs0 Hg0 W1) as (x1 & bs & y1 & E1 & S1 & _ & M1 & B1).
  rewrite R1 in E1. injection E1 as <- <-.
  destruct (m_run_sim r0 radd last_frame o ns ops' _ _ Hs0 Hg0 W2) as (x2 & bs' & y2 & E2 & S2 & _ & M2 & B2).
  rewrite R2 in E2. injection E2 as <- <-.
  destruct (sim_length _ _ _ S1) as (L1 & _). destruct (sim_length _ _ _ S2) as (L2 & _).
  assert (Q : forall k, k < length ns -> nth_error bs k = nth_error bs' k /\ select (length ns) k outs = select (length ns) k outs').
  { intros k Hk. destruct (nth_error_some ns k Hk) as [n Hn].
    assert (I0 : nth_error (map (buf_init (Ob := Ob) (A := A) (Inf := Inf) r0) ns) k = Some (buf_init r0 n)) by (rewrite nth_error_map, Hn; reflexivity).
    destruct (B1 _ _ I0) as (b1 & o1 & F1 & F2 & F3). destruct (B2 _ _ I0) as (b2 & o2 & G1 & G2 & G3).
    rewrite (P k Hk), G2 in F2. injection F2 as <- <-. rewrite F1, G1, F3, G3. auto. }
  split; [|intros k Hk; apply Q, Hk].
  assert (Eb : bs = bs').
  { apply nth_error_ext. intro i. destruct (Nat.lt_ge_cases i (length ns)) as [Hi|Hi]; [apply Q, Hi|].
    rewrite (proj2 (nth_error_None bs i)), (proj2 (nth_error_None bs' i)) by lia. reflexivity. }
  subst bs'. apply (sim_fun ns _ _ bs S1 S2).
  assert (D : forall (l : list (mop Ob A Inf R)), (exists ids ts, In (MAdd ids ts) l) \/ forall ids ts, ~ In (MAdd ids ts) l).
  { induction l as [|[ids ts|keep] l IH]; [right; intros ? ? []|left; exists ids, ts; left; reflexivity|].
    destruct IH as [(ids & ts & I)|N]; [left; exists ids, ts; right; exact I|right; intros ids ts [E|I]; [discriminate|exact (N _ _ I)]]. }
  assert (T : (exists ids ts, In (MAdd ids ts) ops) <-> exists ids ts, In (MAdd ids ts) ops').
  { split; intros (ids & ts & I).
    - destruct (proj_add _ _ _ _ W1 I) as (k & t & Hk & J). rewrite (P k Hk) in J. eapply add_proj. exact J.
    - destruct (proj_add _ _ _ _ W2 I) as (k & t & Hk & J). rewrite <- (P k Hk) in J. eapply add_proj. exact J. }
  destruct (D ops) as [A1|A1].
  - pose proof (M1 (or_introl A1)) as N1. pose proof (M2 (or_introl (proj1 T A1))) as N2. tauto.
  - destruct (D ops') as [A2|A2]; [apply T in A2 as (ids & ts & I); exfalso; exact (A1 _ _ I)|].
    rewrite (m_run_meta_none _ _ _ _ _ R1 A1), (m_run_meta_none _ _ _ _ _ R2 A2). tauto.
Qed.
End Manager.

(** C321.  Two histories of adds and resets that are the same for every sub-buffer lead to the same manager, and every
    sub-buffer reports the same: it does not matter how the calls are interleaved or grouped. *)
Lemma C321_interleaving_lemma : forall (Ob A Inf R : Type) (r0 : R) radd (last_frame : Ob -> Ob) o ns
    (ops ops' : list (mop Ob A Inf R)) m m' outs outs',
  (forall n, In n ns -> 0 < n) ->
  m_run r0 radd last_frame o (m_init r0 ns) ops = Ok (m, outs) -> m_run r0 radd last_frame o (m_init r0 ns) ops' = Ok (m', outs') ->
  (forall k, k < length ns -> proj (length ns) k ops = proj (length ns) k ops') ->
  m = m' /\ forall k, k < length ns -> select (length ns) k outs = select (length ns) k outs'.
Proof. intros. eapply interleave_main; eassumption. Qed.

Lemma m_run_snoc {Ob A Inf R} (r0 : R) radd (last_frame : Ob -> Ob) o ops2 : forall ops (m : mgr Ob A Inf R) ,
  m_run r0 radd last_frame o m (ops ++ ops2) = let* x := m_run r0 radd last_frame o m ops in let* y := m_run r0 radd last_frame o (fst x) ops2 in Ok (fst y, snd x ++ snd y).
Proof.
  induction ops as [|[ids ts|keep] ops IH]; intro m; cbn [app m_run].
  - cbn [bind fst snd]. destruct (m_run r0 radd last_frame o m ops2) as [[? ?]|]; reflexivity.
  - destruct (m_add r0 radd last_frame o m ids ts) as [[m1 r]|]; [|reflexivity]. cbn [bind fst snd]. rewrite IH.
    destruct (m_run r0 radd last_frame o m1 ops) as [[m2 r2]|]; [|reflexivity]. cbn [bind fst snd].
    destruct (m_run r0 radd last_frame o m2 ops2) as [[m3 r3]|]; [|reflexivity]. cbn [bind fst snd]. rewrite app_assoc. reflexivity.
  - apply IH.
Qed.
Lemma proj_app {Ob A Inf R} N k (a b : list (mop Ob A Inf R)) : proj N k (a ++ b) = proj N k a ++ proj N k b.
Proof. induction a as [|[ids ts|keep] a IH]; cbn [app proj]; [reflexivity| |]; rewrite IH; [rewrite app_assoc|]; reflexivity. Qed.
Lemma combine_app {X Y} (a b : list X) : forall (c d : list Y), length a = length c -> combine (a ++ b) (c ++ d) = combine a c ++ combine b d.
Proof. induction a as [|x a IH]; intros [|y c] d L; try discriminate; [reflexivity|]. cbn. f_equal. apply IH. cbn in L. lia. Qed.

Lemma fst_combine {X Y} (l : list X) : forall l' : list Y, length l = length l' -> map fst (combine l l') = l.
Proof. induction l as [|x l IH]; intros [|y l'] H; try discriminate; [reflexivity|]. cbn. f_equal. apply IH. cbn in H. lia. Qed.
Lemma snd_combine {X Y} (l : list X) : forall l' : list Y, length l = length l' -> map snd (combine l l') = l'.
Proof. induction l as [|x l IH]; intros [|y l'] H; try discriminate; [reflexivity|]. cbn. f_equal. apply IH. cbn in H. lia. Qed.
Lemma m_add_reach {Ob A Inf R} (r0 : R) radd (last_frame : Ob -> Ob) o ns (ops : list (mop Ob A Inf R)) m outs ids ts :
  (forall n, In n ns -> 0 < n) -> m_run r0 radd last_frame o (m_init r0 ns) ops = Ok (m, outs) -> mop_ok (length ns) (MAdd (Ob := Ob) (A := A) (Inf := Inf) (R := R) (Some ids) ts) ->
  exists m' rs, m_add r0 radd last_frame o m (Some ids) ts = Ok (m', rs) /\ length rs = length ts
    /\ m_run r0 radd last_frame o (m_init r0 ns) (ops ++ [MAdd (Some ids) ts]) = Ok (m', outs ++ combine ids rs).
Proof.
  intros Hpos R1 K. destruct (sim_init (Ob := Ob) (A := A) (Inf := Inf) r0 ns Hpos) as [Hs0 Hg0].
  pose proof (m_run_wf r0 radd last_frame o ns ops _ _ _ Hs0 Hg0 R1) as W1.
  destruct (m_run_sim r0 radd last_frame o ns ops _ _ Hs0 Hg0 W1) as (x1 & bs & y1 & E1 & S1 & G1 & _).
  rewrite R1 in E1. injection E1 as <- <-.
  destruct (m_add_sim r0 radd last_frame o ns m bs (Some ids) ts S1 G1 K) as (m' & bs' & rs & E & _ & _ & _ & L & _).
  exists m', rs. split; [exact E|]. split; [exact L|]. rewrite m_run_snoc, R1. cbn [bind fst snd m_run]. rewrite E. cbn [bind fst snd]. rewrite app_nil_r. reflexivity.
Qed.

Lemma select_fun {T} N (l l' : list (Z * T)) : (forall z, In z (map fst l) -> (- Z.of_nat N <= z < Z.of_nat N)%Z) -> map fst l = map fst l' ->
  (forall k, k < N -> select N k l = select N k l') -> l = l'.
Proof.
  revert l'. induction l as [|[z x] l IH]; intros [|[z' x'] l'] Rg E S; try discriminate; [reflexivity|].
  cbn [map fst] in E, Rg. injection E as <- E.
  assert (exists k, k < N /\ mine N k z = true) as (k & Hk & Hm).
  { specialize (Rg z (or_introl eq_refl)). exists (Z.to_nat (z mod Z.of_nat N)).
    assert (0 < Z.of_nat N)%Z by lia. pose proof (Z.mod_pos_bound z (Z.of_nat N) H). split; [lia|].
    unfold mine. apply Z.eqb_eq. rewrite Z2Nat.id by lia. reflexivity. }
  pose proof (S k Hk) as Sk. rewrite !select_cons, Hm in Sk. injection Sk as <- _. f_equal. apply IH; [intros; apply Rg; right; assumption|exact E|].
  intros j Hj. specialize (S j Hj). rewrite !select_cons in S. destruct (mine N j z); [injection S as S|]; exact S.
Qed.

(** C321.  Rows that are added in one call could as well be added in two: same manager, same reports. *)
Lemma C321_grouping_lemma : forall (Ob A Inf R : Type) (r0 : R) radd (last_frame : Ob -> Ob) o ns
    (ops : list (mop Ob A Inf R)) m outs ids1 ids2 ts1 ts2,
  (forall n, In n ns -> 0 < n) -> m_run r0 radd last_frame o (m_init r0 ns) ops = Ok (m, outs) ->
  (forall i, In i (ids1 ++ ids2) -> (- Z.of_nat (length ns) <= i < Z.of_nat (length ns))%Z) ->
  length ts1 = length ids1 -> length ts2 = length ids2 -> ids1 <> [] -> ids2 <> [] ->
  exists m1 m2 r1 r2, m_add r0 radd last_frame o m (Some ids1) ts1 = Ok (m1, r1) /\ m_add r0 radd last_frame o m1 (Some ids2) ts2 = Ok (m2, r2)
    /\ m_add r0 radd last_frame o m (Some (ids1 ++ ids2)) (ts1 ++ ts2) = Ok (m2, r1 ++ r2).
Proof.
  intros Ob A Inf R r0 radd lf o ns ops m outs ids1 ids2 ts1 ts2 Hpos R0 Rg L1 L2 N1 N2.
  destruct (m_add_reach r0 radd lf o ns ops m outs ids1 ts1 Hpos R0) as (m1 & r1 & E1 & K1 & R1).
  { split; [congruence|]. split; [exact N1|]. intros i I. apply Rg, in_or_app. left. exact I. }
  destruct (m_add_reach r0 radd lf o ns _ m1 _ ids2 ts2 Hpos R1) as (m2 & r2 & E2 & K2 & R2).
  { split; [congruence|]. split; [exact N2|]. intros i I. apply Rg, in_or_app. right. exact I. }
  destruct (m_add_reach r0 radd lf o ns ops m outs (ids1 ++ ids2) (ts1 ++ ts2) Hpos R0) as (m3 & r3 & E3 & K3 & R3).
  { split; [rewrite !app_length; congruence|]. split; [destruct ids1; [contradiction|discriminate]|exact Rg]. }
  assert (P : forall k, k < length ns -> proj (length ns) k (ops ++ [MAdd (Some (ids1 ++ ids2)) (ts1 ++ ts2)]) = proj (length ns) k ((ops ++ [MAdd (Some ids1) ts1]) ++ [MAdd (Some ids2) ts2])).
  { intros k _. rewrite !proj_app. cbn [proj]. rewrite !app_nil_r, combine_app by congruence. rewrite select_app, map_app, <- app_assoc. reflexivity. }
  destruct (interleave_main r0 radd lf o ns _ _ _ _ _ _ Hpos R3 R2 P) as [<- Q].
  exists m1, m3, r1, r2. split; [exact E1|]. split; [exact E2|]. rewrite E3. do 2 f_equal.
  assert (E : combine (ids1 ++ ids2) r3 = combine (ids1 ++ ids2) (r1 ++ r2)).
  { apply (select_fun (length ns)).
    - intros z Hz. apply Rg. rewrite fst_combine in Hz by (rewrite K3, !app_length; congruence). exact Hz.
    - rewrite !fst_combine; [reflexivity|rewrite ?K3, !app_length; congruence|rewrite ?K3, !app_length; congruence].
    - intros k Hk. specialize (Q k Hk). rewrite !select_app in Q. rewrite combine_app, select_app by congruence.
      rewrite <- app_assoc in Q. apply app_inv_head in Q. exact Q. }
  apply (f_equal (map snd)) in E. rewrite !snd_combine in E; [exact E|rewrite ?K3, !app_length; congruence|rewrite ?K3, !app_length; congruence].
Qed.

(** C321.  The order of rows for different sub-buffers in one call does not matter: same manager, and every sub-buffer
    reports the same. *)
Lemma C321_order_lemma : forall (Ob A Inf R : Type) (r0 : R) radd (last_frame : Ob -> Ob) o ns
    (ops : list (mop Ob A Inf R)) m outs (xs ys : list (Z * trans Ob A Inf R)),
  (forall n, In n ns -> 0 < n) -> m_run r0 radd last_frame o (m_init r0 ns) ops = Ok (m, outs) ->
  (forall x, In x xs -> (- Z.of_nat (length ns) <= fst x < Z.of_nat (length ns))%Z) -> xs <> [] ->
  Permutation xs ys -> NoDup (map (fun x => (fst x mod Z.of_nat (length ns))%Z) xs) ->
  exists m' r r', m_add r0 radd last_frame o m (Some (map fst xs)) (map snd xs) = Ok (m', r)
    /\ m_add r0 radd last_frame o m (Some (map fst ys)) (map snd ys) = Ok (m', r')
    /\ forall k, k < length ns -> select (length ns) k (combine (map fst xs) r) = select (length ns) k (combine (map fst ys) r').
Proof.
  intros Ob A Inf R r0 radd lf o ns ops m outs xs ys Hpos R0 Rg Nx P Nd.
  destruct (m_add_reach r0 radd lf o ns ops m outs (map fst xs) (map snd xs) Hpos R0) as (m1 & r1 & E1 & K1 & R1).
  { split; [rewrite !map_length; reflexivity|]. split; [destruct xs; [contradiction|discriminate]|]. intros i I. apply in_map_iff in I as (x & <- & I). apply Rg, I. }
  destruct (m_add_reach r0 radd lf o ns ops m outs (map fst ys) (map snd ys) Hpos R0) as (m2 & r2 & E2 & K2 & R2).
  { split; [rewrite !map_length; reflexivity|]. split.
    - destruct ys; [apply Permutation_length in P; destruct xs; [contradiction|discriminate]|discriminate].
    - intros i I. apply in_map_iff in I as (x & <- & I). apply Rg. eapply Permutation_in; [symmetry; exact P|exact I]. }
  assert (S : forall k, k < length ns -> select (length ns) k xs = select (length ns) k ys).
  { intros k _. unfold select. f_equal. set (f := fun x : Z * trans Ob A Inf R => mine (length ns) k (fst x)).
    assert (Pf : Permutation (filter f xs) (filter f ys)).
    { clear -P. induction P; cbn [filter]; [constructor| | |etransitivity; eassumption].
      - destruct (f x); [constructor|]; assumption.
      - destruct (f y), (f x); try reflexivity. constructor. }
    assert (Le : length (filter f xs) <= 1).
    { clear -Nd. set (N := Z.of_nat (length ns)) in *. 
      assert (G : forall l : list (Z * trans Ob A Inf R), NoDup (map (fun x => (fst x mod N)%Z) l) -> length (filter f l) <= 1).
      { induction l as [|x l IH]; intro Q; [cbn; lia|]. cbn [map] in Q. inversion Q as [|? ? Q1 Q2]; subst. cbn [filter].
        destruct (f x) eqn:Fx; [|apply IH, Q2]. cbn [length]. destruct (filter f l) as [|y t] eqn:Ft; [cbn; lia|]. exfalso. apply Q1.
        assert (Iy : In y (filter f l)) by (rewrite Ft; left; reflexivity). apply filter_In in Iy as [Iy Fy].
        apply in_map_iff. exists y. split; [|exact Iy]. unfold f, mine in Fx, Fy. apply Z.eqb_eq in Fx, Fy. fold N in Fx, Fy. congruence. }
      apply G, Nd. }
    destruct (filter f xs) as [|x [|? ?]]; [|apply Permutation_length_1_inv in Pf; auto|cbn in Le; lia].
    apply Permutation_nil in Pf. auto. }
  assert (Cb : forall l : list (Z * trans Ob A Inf R), combine (map fst l) (map snd l) = l).
  { clear. induction l as [|[z t] l IH]; [reflexivity|]. cbn. f_equal. exact IH. }
  destruct (interleave_main r0 radd lf o ns _ _ _ _ _ _ Hpos R1 R2) as [<- Q].
  { intros k Hk. rewrite !proj_app. cbn [proj]. rewrite !Cb, S by exact Hk. reflexivity. }
  exists m1, r1, r2. split; [exact E1|]. split; [exact E2|]. intros k Hk. specialize (Q k Hk). rewrite !select_app in Q. apply app_inv_head in Q. exact Q.
Qed.

(** ** Trainers *)
Import TrainModel TrainProofs.
Open Scope Z_scope.
Section Trainer.
Variable c : config.
Variable collect : nat -> cstat.
Variable test : nat -> tstat.
Variable buflen : nat -> Z.
Notation cE := (with_epochs c).
Lemma epoch_loop_epochs E : forall fuel dn s, epoch_loop (cE E) collect test buflen fuel dn s = epoch_loop c collect test buflen fuel dn s.
Proof. 
  assert (T : forall s, training_step (cE E) collect test buflen s = training_step c collect test buflen s) by reflexivity.
  induction fuel as [|fuel IH]; intros dn s; [reflexivity|]. cbn [TrainModel.epoch_loop]. rewrite T. cbn [with_epochs c_step_per_epoch].
  destruct (_ && _); [|reflexivity]. destruct (training_step _ _ _ _ _) as [s1 [[k b]|]]; [|reflexivity]. apply IH.
Qed.
Lemma next_epochs E E' fuel s : (0 < s_iter s -> s_epoch s + 1 <= E /\ s_epoch s + 1 <= E') ->
  next (cE E) collect test buflen fuel s = next (cE E') collect test buflen fuel s.
Proof.
  intro L. unfold TrainModel.next. set (s0 := set_epoch s (s_epoch s + 1) (s_iter s + 1)).
  assert (C : forall e, (0 < s_iter s -> s_epoch s + 1 <= e) -> (1 <? s_iter s0) && (c_max_epoch (cE e) <? s_epoch s0) = false).
  { intros e Le. cbn [s0 set_epoch s_iter s_epoch with_epochs c_max_epoch]. apply andb_false_iff.
    destruct (Z.ltb_spec 1 (s_iter s + 1)) as [I|I]; [right|left; reflexivity]. apply Z.ltb_ge. apply Le. lia. }
  rewrite (C E), (C E') by (intros; apply L; assumption). destruct (_ && s_stop s0); [reflexivity|]. rewrite !epoch_loop_epochs. reflexivity.
Qed.
Lemma run_loop_prefix E E' fuel : E <= E' -> forall n n' s s1 s2 l1 l2, 0 <= s_iter s -> (s_iter s <= 0 -> s_stop s = false) ->
  run_loop (cE E) collect test buflen fuel n s = (s1, Ok l1) -> run_loop (cE E') collect test buflen fuel n' s = (s2, Ok l2) ->
  exists rest ev, l2 = l1 ++ rest /\ s_ev s2 = s_ev s1 ++ ev /\ (s_stop s1 = true -> rest = [] /\ ev = []).
Proof.
  intros LE n. induction n as [|n IH]; intros n' s s1 s2 l1 l2 Hi Hst R1 R2; [discriminate|].
  destruct n' as [|n']; [discriminate|]. cbn [TrainModel.run_loop] in R1, R2.
  destruct (Z_lt_le_dec 0 (s_iter s)) as [I|I].
  - destruct (Bool.bool_dec (s_stop s) true) as [St|St]; [|apply Bool.not_true_is_false in St].
    { (* both end *)
      assert (X : forall e, next (cE e) collect test buflen fuel s = (set_epoch s (s_epoch s + 1) (s_iter s + 1), Err StopIteration)).
      { intro e. unfold TrainModel.next. set (s0 := set_epoch s (s_epoch s + 1) (s_iter s + 1)).
        assert (J : (1 <? s_iter s0) = true) by (apply Z.ltb_lt; cbn [s0 set_epoch s_iter]; lia). rewrite J. cbn [andb].
        destruct (c_max_epoch (cE e) <? s_epoch s0); [reflexivity|].
        replace (s_stop s0) with true by (symmetry; exact St). reflexivity. }
      rewrite X in R1, R2. injection R1 as <- <-. injection R2 as <- <-. exists [], []. split; [reflexivity|]. split; [symmetry; apply app_nil_r|auto]. }
    destruct (Z_lt_le_dec E (s_epoch s + 1)) as [Q|Q].
    + (* only the shorter ends *)
      assert (X : next (cE E) collect test buflen fuel s = (set_epoch s (s_epoch s + 1) (s_iter s + 1), Err StopIteration)).
      { unfold TrainModel.next. set (s0 := set_epoch s (s_epoch s + 1) (s_iter s + 1)).
        assert (J : (1 <? s_iter s0) && (c_max_epoch (cE E) <? s_epoch s0) = true).
        { apply andb_true_iff. split; apply Z.ltb_lt; cbn [s0 set_epoch s_iter s_epoch with_epochs c_max_epoch]; lia. }
        rewrite J. reflexivity. }
      rewrite X in R1. injection R1 as <- <-.
      assert (R3 : run_loop (cE E') collect test buflen fuel (S n') s = (s2, Ok l2)) by exact R2.
      apply run_loop_book in R3; [|exact Hi|intros _; exact St|rewrite St; discriminate].
      destruct R3 as (_ & _ & _ & _ & _ & _ & m & ev & Ev & _). exists l2, ev. split; [reflexivity|]. split; [exact Ev|].
      cbn [set_epoch s_stop]. rewrite St. discriminate.
    + rewrite (next_epochs E E') in R1 by lia. 
      destruct (next (cE E') collect test buflen fuel s) as [s3 [e|e]] eqn:N.
      * destruct (run_loop (cE E) collect test buflen fuel n s3) as [s4 [l3|]] eqn:R3; [|discriminate]. injection R1 as <- <-.
        destruct (run_loop (cE E') collect test buflen fuel n' s3) as [s5 [l4|]] eqn:R4; [|discriminate]. injection R2 as <- <-.
        destruct (next_book (cE E') collect test buflen _ _ _ _ Hst N) as (_ & _ & N3 & _).
        assert (A3 : 0 <= s_iter s3) by lia. assert (B3 : s_iter s3 <= 0 -> s_stop s3 = false) by (intro; exfalso; lia). destruct (IH _ _ _ _ _ _ A3 B3 R3 R4) as (rest & ev & -> & Ev & Es). exists rest, ev. auto.
      * destruct e; try discriminate. injection R1 as <- <-. injection R2 as <- <-. exists [], []. split; [reflexivity|]. split; [symmetry; apply app_nil_r|auto].
  - rewrite (next_epochs E E') in R1 by lia.
    destruct (next (cE E') collect test buflen fuel s) as [s3 [e|e]] eqn:N.
    + destruct (run_loop (cE E) collect test buflen fuel n s3) as [s4 [l3|]] eqn:R3; [|discriminate]. injection R1 as <- <-.
      destruct (run_loop (cE E') collect test buflen fuel n' s3) as [s5 [l4|]] eqn:R4; [|discriminate]. injection R2 as <- <-.
      destruct (next_book (cE E') collect test buflen _ _ _ _ Hst N) as (_ & _ & N3 & _).
      assert (A3 : 0 <= s_iter s3) by lia. assert (B3 : s_iter s3 <= 0 -> s_stop s3 = false) by (intro; exfalso; lia). destruct (IH _ _ _ _ _ _ A3 B3 R3 R4) as (rest & ev & -> & Ev & Es). exists rest, ev. auto.
    + destruct e; try discriminate. injection R1 as <- <-. injection R2 as <- <-. exists [], []. split; [reflexivity|]. split; [symmetry; apply app_nil_r|auto].
Qed.
Lemma reset_epochs E s : reset (cE E) test s = reset c test s.
Proof. reflexivity. Qed.
End Trainer.

(** C322.  A training begins like any longer training with the same collections and tests: its epochs and everything it
    does (calls of train_fn, collections, updates, tests, saving) are the beginning of those of the longer one, and all of them
    if the stop function ended it. *)
Lemma C322_prefix_lemma : forall (c : config) (E E' : Z) collect test buflen fuel n n' rp s s1 s2 l1 l2, (E <= E')%Z ->
  run (with_epochs c E) collect test buflen fuel n rp s = (s1, Ok l1) -> run (with_epochs c E') collect test buflen fuel n' rp s = (s2, Ok l2) ->
  exists rest ev, l2 = l1 ++ rest /\ s_ev s2 = s_ev s1 ++ ev /\ (s_stop s1 = true -> rest = [] /\ ev = []).
Proof.
  intros c E E' collect test buflen fuel n n' rp s s1 s2 l1 l2 LE R1 R2.
  apply run_ok in R1 as (sa & sb & Ha & Hb & R1). apply run_ok in R2 as (sa' & sb' & Ha' & Hb' & R2).
  rewrite reset_epochs in *.
  assert (Es : sa = sa').
  { destruct Ha as [[-> Hr]|[Ha Hr]], Ha' as [[-> Hr']|[Ha' Hr']]; congruence. }
  subst sa'. rewrite Hb in Hb'. injection Hb' as <-.
  apply reset_ok in Hb as (_ & _ & I & St & _). eapply run_loop_prefix; [exact LE| | |exact R1|exact R2]; [lia|auto].
Qed.
