(** * Whole runs of the collector *)
From Verif Require Import Py PyLemmas BufferModel BufferSpec BufferProofs BufferMainProofs ManagerModel ManagerSpec ManagerProofs ManagerMainProofs
  GetIndicesModel GetIndicesProofs CollectModel CollectSpec CollectRoundProofs CollectEpisodeProofs.
Open Scope nat_scope.

Lemma where_filter_from {T} (f : T -> bool) (l : list T) : forall a k i,
  nth_error (filter (fun j => nth (j - a) (map f l) false) (seq a (length (map f l)))) k = Some i -> a <= i /\ nth_error (filter f l) k = nth_error l (i - a).
Proof.
  induction l as [|x l IH]; intros a k i H; [destruct k; discriminate|].
  assert (Q : filter (fun j => nth (j - a) (map f (x :: l)) false) (seq (S a) (length (map f l))) = filter (fun j => nth (j - S a) (map f l) false) (seq (S a) (length (map f l)))).
  { apply filter_ext_in. intros j Hj. apply in_seq in Hj. replace (j - a) with (S (j - S a)) by lia. reflexivity. }
  change (seq a (length (map f (x :: l)))) with (a :: seq (S a) (length (map f l))) in H.
  change (filter (fun j => nth (j - a) (map f (x :: l)) false) (a :: seq (S a) (length (map f l))))
    with (if nth (a - a) (map f (x :: l)) false then a :: filter (fun j => nth (j - a) (map f (x :: l)) false) (seq (S a) (length (map f l)))
          else filter (fun j => nth (j - a) (map f (x :: l)) false) (seq (S a) (length (map f l)))) in H.
  rewrite Q, Nat.sub_diag in H. change (nth 0 (map f (x :: l)) false) with (f x) in H. cbn [filter].
  destruct (f x).
  - destruct k as [|k]; [injection H as <-; split; [lia|rewrite Nat.sub_diag; reflexivity]|]. cbn [nth_error] in H. destruct (IH _ _ _ H) as [H1 H2].
    split; [lia|]. cbn [nth_error]. rewrite H2. replace (i - a) with (S (i - S a)) by lia. reflexivity.
  - destruct (IH _ _ _ H) as [H1 H2]. split; [lia|]. rewrite H2. replace (i - a) with (S (i - S a)) by lia. reflexivity.
Qed.
Lemma where_filter {T} (f : T -> bool) (l : list T) k i : nth_error (where_true (map f l)) k = Some i -> nth_error (filter f l) k = nth_error l i.
Proof.
  intro H. destruct (where_filter_from f l 0 k i) as [_ E]; [|rewrite E, Nat.sub_0_r; reflexivity].
  rewrite <- H. f_equal. unfold where_true. apply filter_ext. intro j. rewrite Nat.sub_0_r. reflexivity.
Qed.
Lemma nth_error_combine {X Y} : forall (l : list X) (l' : list Y) i x y, nth_error l i = Some x -> nth_error l' i = Some y -> nth_error (combine l l') i = Some (x, y).
Proof. induction l as [|a l IH]; intros [|b l'] [|i] x y H1 H2; try discriminate; cbn in *; [congruence|]. apply IH; assumption. Qed.
Lemma filter_map_length {X Y} (f : X -> Y) g (l : list X) : length (filter g (map f l)) = length (filter (fun x => g (f x)) l).
Proof. induction l as [|x l IH]; [reflexivity|]. cbn. destruct (g (f x)); cbn; rewrite IH; reflexivity. Qed.

Lemma combine_snd {X Y} : forall (l : list X) (l' : list Y), length l = length l' -> map snd (combine l l') = l'.
Proof. induction l as [|x l IH]; intros [|y l'] H; try discriminate; [reflexivity|]. cbn. f_equal. apply IH. cbn in H. lia. Qed.

Section Run.
Context {Ob A B Inf R H ES PS : Type}.
Variable r0 : R.
Variable radd : R -> R -> R.
Variable last_frame : Ob -> Ob.
Variable o : opts.
Variable estep : nat -> ES -> B -> ES * sres Ob Inf R.
Variable ereset : nat -> ES -> ES * (Ob * Inf).
Variable act_fn : PS -> list nat -> list Ob -> list Inf -> option (list H) -> PS * (list (A * B) * option (list H)).
Variable hreset : list nat -> list H -> list H.
Variable hook : list (row_out Ob A Inf R) -> bool.
Notation trans := (trans Ob A Inf R).
Notation mgr := (mgr Ob A Inf R).
Notation loop := (loop Ob A B Inf R H ES PS).
Notation coll := (coll Ob A Inf R H ES PS).
Notation mop := (mop Ob A Inf R).
Notation iter := (iter r0 radd last_frame o estep ereset act_fn hreset hook).
Notation iterate := (iterate r0 radd last_frame o estep ereset act_fn hreset hook).
Notation after := (after estep ereset).
Notation solo := (solo estep ereset).
Notation solo_end := (solo_end estep ereset).
Notation transition := (transition estep).
Notation round := (round r0 radd last_frame o estep ereset act_fn hook).
Notation m_run := (m_run r0 radd last_frame o).
Notation kept := (kept last_frame o).

Lemma solo_app e : forall a1 s ob (a2 : list (A * B)), solo e s ob (a1 ++ a2) = solo e s ob a1 ++ solo e (fst (solo_end e s ob a1)) (snd (solo_end e s ob a1)) a2.
Proof. induction a1 as [|[a b] a1 IH]; intros s ob a2; [reflexivity|]. cbn [app CollectSpec.solo CollectSpec.solo_end]. rewrite IH. reflexivity. Qed.
Lemma solo_end_app e : forall a1 s ob (a2 : list (A * B)), solo_end e s ob (a1 ++ a2) = solo_end e (fst (solo_end e s ob a1)) (snd (solo_end e s ob a1)) a2.
Proof. induction a1 as [|[a b] a1 IH]; intros s ob a2; [reflexivity|]. cbn [app CollectSpec.solo CollectSpec.solo_end]. apply IH. Qed.

(** ** Statistics of a round *)
Lemma episodes_done nep m : forall reps st hs st' hs', foldM (episode_done o hook nep m) reps (st, hs) = Ok (st', hs') ->
  exists bs, length bs = length reps /\ hs' = hs ++ bs
    /\ st' = mkStats (st_episodes st + length reps) (st_steps st) (st_returns st ++ map (fun r : nat * R * nat * nat => snd (fst (fst r))) reps) (st_lens st ++ map (@length _) bs)
    /\ forall k r b, nth_error reps k = Some r -> nth_error bs k = Some b ->
         (let* idx := get_buffer_indices (map Z.of_nat (m_edges m)) (Z.of_nat (snd r)) (Z.of_nat (fst (fst (fst r))) + 1) in m_getitem o m idx) = Ok b.
Proof.
  induction reps as [|r reps IH]; intros st hs st' hs' E.
  - cbn in E. injection E as <- <-. exists []. split; [reflexivity|]. split; [symmetry; apply app_nil_r|]. split.
    + destruct st; cbn. rewrite !app_nil_r, Nat.add_0_r. reflexivity.
    + intros [|k]; discriminate.
  - cbn [foldM] in E. destruct r as [[[i ret] len] start] eqn:Er. cbn [episode_done] in E.
    destruct (get_buffer_indices _ _ _) as [idx|] eqn:Eg; [|discriminate]. cbn [bind] in E.
    destruct (m_getitem o m idx) as [b|] eqn:Eb; [|discriminate]. cbn [bind] in E.
    destruct (hook b && negb nep); [discriminate|]. cbn [bind] in E.
    destruct (IH _ _ _ _ E) as (bs & H1 & H2 & H3 & H4). exists (b :: bs). cbn [length fst snd] in *.
    split; [lia|]. split; [rewrite H2, <- app_assoc; reflexivity|]. split.
    + rewrite H3. cbn. rewrite <- !app_assoc. cbn. f_equal. lia.
    + intros [|k] r' b' Hr Hb; cbn in Hr, Hb; [|eapply H4; eauto]. injection Hr as <-. injection Hb as <-. cbn [fst snd]. rewrite Eg. exact Eb.
Qed.

(** ** The invariant *)
Variable ns : list nat.
Variable ops0 : list mop.
Variable es0 : list ES.
Variable obs0 : list Ob.
Variable w : nat.
Hypothesis Hpos : forall n, In n ns -> 0 < n.
Hypothesis Hw1 : w <= length es0.
Hypothesis Hw2 : w <= length obs0.
Hypothesis Hw3 : w <= length ns.

Record linv (l : loop) (rds : list (list nat * list trans)) : Prop := {
  v_mgr : exists outs, m_run (m_init r0 ns) (ops0 ++ as_adds rds) = Ok (l_mgr l, outs);
  v_nd : NoDup (l_ready l);
  v_lt : forall e, In e (l_ready l) -> e < w;
  v_obs : length (l_obs l) = length (l_ready l);
  v_inf : length (l_inf l) = length (l_ready l);
  v_envlen : length (l_envs l) = length es0;
  v_rds : forall rd, In rd rds -> NoDup (fst rd) /\ length (snd rd) = length (fst rd) /\ forall e, In e (fst rd) -> e < w;
  v_calls : map (fun c => fst (fst c)) (l_calls l) = map fst rds;
  v_env : forall e s ob, e < w -> nth_error es0 e = Some s -> nth_error obs0 e = Some ob ->
    parts e rds = solo e s ob (answered e (l_calls l)) /\ shown e (l_calls l) = map (@t_obs _ _ _ _) (parts e rds)
    /\ nth_error (l_envs l) e = Some (fst (solo_end e s ob (answered e (l_calls l))))
    /\ forall j, nth_error (l_ready l) j = Some e -> nth_error (l_obs l) j = Some (snd (solo_end e s ob (answered e (l_calls l))));
  v_out : forall e, w <= e -> nth_error (l_envs l) e = nth_error es0 e;
  v_steps : l_steps l = list_sum (map (fun rd => length (fst rd)) rds);
  v_ststeps : st_steps (l_stats l) = l_steps l;
  v_eps : l_eps l = length (enders rds);
  v_steps_eps : st_episodes (l_stats l) = l_eps l /\ length (st_returns (l_stats l)) = l_eps l /\ length (st_lens (l_stats l)) = l_eps l /\ length (l_hook l) = l_eps l;
  v_drop : forall e, e < w -> ~ In e (l_ready l) -> exists ts t, parts e rds = ts ++ [t] /\ ends t = true;
  v_dropped : forall pre rd post e, rds = pre ++ rd :: post -> e < w -> ~ In e (fst rd) -> exists ts t, parts e pre = ts ++ [t] /\ ends t = true
}.

(** What is reported about the finished episodes. *)
Definition before (e : nat) : list trans * list R := open_episode (proj (length ns) e ops0).
Definition fits (rds : list (list nat * list trans)) : Prop :=
  forall e n ep, e < w -> nth_error ns e = Some n -> In ep (finished (before e) (parts e rds)) -> length (fst ep) < n.
Definition stats_ok (l : loop) (rds : list (list nat * list trans)) : Prop :=
  forall e, e < w -> let eps := finished (before e) (parts e rds) in
    part e (enders rds, st_returns (l_stats l)) = map (fun ep => total r0 radd (snd ep)) eps
    /\ part e (enders rds, st_lens (l_stats l)) = map (fun ep => length (fst ep)) eps
    /\ part e (enders rds, map (map (@o_cur _ _ _ _)) (l_hook l)) = map (fun ep => map (fun t => Some (kept t)) (fst ep)) eps.

Lemma fits_app r1 r2 : fits (r1 ++ r2) -> fits r1.
Proof. intros F e n ep He Hn Hi. apply (F e n ep He Hn). rewrite parts_app, finished_app. apply in_or_app. left. exact Hi. Qed.

Lemma enders_app (r1 r2 : list (list nat * list trans)) : enders (r1 ++ r2) = enders r1 ++ enders r2.
Proof. unfold enders. rewrite map_app, concat_app. reflexivity. Qed.
Lemma enders_one ids (ts : list trans) : enders [(ids, ts)] = map fst (filter (fun y => ends (snd y)) (combine ids ts)).
Proof. unfold enders. cbn. apply app_nil_r. Qed.
Lemma shown_snoc e calls ids (obs : list Ob) (acts : list (A * B)) : shown e (calls ++ [(ids, obs, acts)]) = shown e calls ++ part e (ids, obs).
Proof. unfold shown. rewrite map_app, parts_app. cbn [map fst snd]. rewrite parts_one. reflexivity. Qed.
Lemma answered_snoc e calls ids (obs : list Ob) (acts : list (A * B)) : answered e (calls ++ [(ids, obs, acts)]) = answered e calls ++ part e (ids, acts).
Proof. unfold answered. rewrite map_app, parts_app. cbn [map fst snd]. rewrite parts_one. reflexivity. Qed.

Section Step.
Variable nep : option nat.
Variables l l' : loop.
Variable rds : list (list nat * list trans).
Variable acts : list (A * B).
Variable rs : list (sres Ob Inf R).
Variable reps : list (nat * R * nat * nat).
Hypothesis V : linv l rds.
Hypothesis D : round nep l l' acts rs reps.
Let ids := l_ready l.
Let rows := rows_of (l_obs l) (map fst acts) rs.
Let rd := (ids, rows).

Lemma row_at j e s ob ab : nth_error ids j = Some e -> nth_error acts j = Some ab -> nth_error (l_envs l) e = Some s -> nth_error (l_obs l) j = Some ob ->
  nth_error rows j = Some (transition e s ob (fst ab) (snd ab)).
Proof.
  intros He Ha Hs Ho. destruct (rd_env _ _ _ _ _ _ _ _ _ _ _ _ _ _ D j e ab He Ha) as (s' & K1 & K2 & _). rewrite K1 in Hs. injection Hs as ->.
  unfold rows. erewrite rows_of_nth; eauto; [reflexivity|]. rewrite nth_error_map, Ha. reflexivity.
Qed.
Lemma rows_len : length rows = length ids.
Proof.
  unfold rows. rewrite rows_of_length; [apply (v_obs _ _ V)| |].
  - rewrite map_length, (v_obs _ _ V). apply (rd_len1 _ _ _ _ _ _ _ _ _ _ _ _ _ _ D).
  - rewrite (v_obs _ _ V). apply (rd_len2 _ _ _ _ _ _ _ _ _ _ _ _ _ _ D).
Qed.
Lemma rows_done : map ends rows = map (@r_done _ _ _) rs.
Proof.
  pose proof (v_obs _ _ V) as L0. pose proof (rd_len1 _ _ _ _ _ _ _ _ _ _ _ _ _ _ D) as L1. pose proof (rd_len2 _ _ _ _ _ _ _ _ _ _ _ _ _ _ D) as L2.
  unfold rows. assert (L1' : length (map fst acts) = length (l_obs l)) by (rewrite map_length; lia). assert (L2' : length rs = length (l_obs l)) by lia.
  revert L1' L2'. clear. revert rs. generalize (map fst acts). induction (l_obs l) as [|x obs IH]; intros [|a al] [|r rl] H1 H2; try discriminate; [reflexivity|].
  cbn. f_equal. apply IH; cbn in *; lia.
Qed.
Lemma env_step e s ob : e < w -> nth_error es0 e = Some s -> nth_error obs0 e = Some ob ->
  let x := solo_end e s ob (answered e (l_calls l)) in
  (forall j, nth_error ids j = Some e -> exists ab, nth_error acts j = Some ab /\ nth_error rows j = Some (transition e (fst x) (snd x) (fst ab) (snd ab))
     /\ nth_error (l_obs l) j = Some (snd x) /\ nth_error (l_envs l') e = Some (fst (after e (fst x) (snd ab)))).
Proof.
  intros He Hs Ho x j Hj. destruct (v_env _ _ V e s ob He Hs Ho) as (P1 & P2 & P3 & P4). fold x in P3, P4.
  destruct (nth_error_some acts j) as [ab Hab]; [rewrite (rd_len1 _ _ _ _ _ _ _ _ _ _ _ _ _ _ D); eapply nth_error_lt; eauto|].
  exists ab. split; [exact Hab|]. split; [apply row_at; auto|]. split; [apply P4; exact Hj|].
  destruct (rd_env _ _ _ _ _ _ _ _ _ _ _ _ _ _ D j e ab Hj Hab) as (s' & K1 & K2 & K3). congruence.
Qed.

Lemma linv_step : linv l' (rds ++ [rd]).
Proof.
  pose proof (v_nd _ _ V) as ND. pose proof (v_obs _ _ V) as L0.
  assert (Henv : forall e s ob, e < w -> nth_error es0 e = Some s -> nth_error obs0 e = Some ob ->
    parts e (rds ++ [rd]) = solo e s ob (answered e (l_calls l')) /\ shown e (l_calls l') = map (@t_obs _ _ _ _) (parts e (rds ++ [rd]))
    /\ nth_error (l_envs l') e = Some (fst (solo_end e s ob (answered e (l_calls l'))))
    /\ forall j ab, nth_error ids j = Some e -> nth_error acts j = Some ab -> nth_error (l_envs l) e = Some (fst (solo_end e s ob (answered e (l_calls l)))) /\
        snd (solo_end e s ob (answered e (l_calls l'))) = snd (after e (fst (solo_end e s ob (answered e (l_calls l)))) (snd ab))).
  { intros e s ob He Hs Ho. destruct (v_env _ _ V e s ob He Hs Ho) as (P1 & P2 & P3 & P4).
    rewrite (rd_calls _ _ _ _ _ _ _ _ _ _ _ _ _ _ D), answered_snoc, shown_snoc, parts_app, parts_one, solo_app, solo_end_app, map_app, P1, <- P1, <- P2.
    fold ids. unfold rd. destruct (in_dec Nat.eq_dec e ids) as [Hi|Hi].
    - apply In_nth_error in Hi. destruct Hi as [j Hj]. destruct (env_step e s ob He Hs Ho j Hj) as (ab & Q1 & Q2 & Q3 & Q4).
      rewrite (part_single e ids rows j _ ND Hj Q2), (part_single e ids acts j _ ND Hj Q1), (part_single e ids (l_obs l) j _ ND Hj Q3).
      destruct ab as [a b]. cbn [CollectSpec.solo CollectSpec.solo_end map fst snd] in *. split; [reflexivity|]. split; [reflexivity|]. split; [exact Q4|].
      intros j' ab' Hj' Hab'. assert (j' = j) by (exact (nodup_pos _ _ _ _ ND Hj' Hj)). subst j'. rewrite Q1 in Hab'. injection Hab' as <-. cbn. split; [exact P3|reflexivity].
    - rewrite !part_none by exact Hi. cbn [CollectSpec.solo CollectSpec.solo_end map]. rewrite !app_nil_r. split; [reflexivity|]. split; [reflexivity|].
      split; [rewrite (rd_other _ _ _ _ _ _ _ _ _ _ _ _ _ _ D e Hi); exact P3|]. intros j ab Hj. exfalso. apply Hi. eapply nth_error_In; eauto. }
  destruct (rd_sel _ _ _ _ _ _ _ _ _ _ _ _ _ _ D) as (sel & S1 & S2 & S3 & S4 & S5 & S6 & S7 & S8).
  assert (RDY : forall j e, nth_error (l_ready l') j = Some e -> exists i, nth_error sel j = Some i /\ nth_error ids i = Some e).
  { intros j e Hj. destruct (nth_error_some sel j) as [i Hi]; [rewrite <- S4; eapply nth_error_lt; eauto|]. exists i. split; [exact Hi|].
    destruct (S7 _ _ Hi) as [Q _]. exact (eq_trans (eq_sym Q) Hj). }
  destruct (rd_stats _ _ _ _ _ _ _ _ _ _ _ _ _ _ D) as (reps_d & T1 & T2).
  destruct (episodes_done _ _ _ _ _ _ _ T2) as (bs & B1 & B2 & B3 & _).
  assert (Lreps : length reps_d = num_done rs) by (rewrite (proj1 (take_spec _ _ _ T1)), where_length; reflexivity).
  assert (Hnum : length (enders [rd]) = num_done rs).
  { unfold rd. rewrite enders_one, map_length. unfold num_done. rewrite <- rows_done, filter_map_length.
    pose proof rows_len as RL. revert RL. generalize rows. clear. induction ids as [|i il IH]; intros [|t ts] L; try discriminate; [reflexivity|].
    cbn. destruct (ends t); cbn; rewrite IH by (cbn in L; lia); reflexivity. }
  destruct (v_steps_eps _ _ V) as (E1 & E2 & E3 & E4).
  split.
  - destruct (v_mgr _ _ V) as [outs Hr]. exists (outs ++ combine (map Z.of_nat ids) reps).
    rewrite as_adds_app, app_assoc, m_run_app, Hr. cbn [bind fst snd as_adds map]. unfold rd. cbn [ManagerSpec.m_run fst snd]. unfold rows, ids.
    rewrite (rd_add _ _ _ _ _ _ _ _ _ _ _ _ _ _ D). cbn [bind fst snd]. rewrite app_nil_r. reflexivity.
  - apply NoDup_nth_error. intros i j Hi Eij. destruct (nth_error_some _ _ Hi) as [e He]. rewrite He in Eij. symmetry in Eij.
    destruct (RDY _ _ He) as (i' & I1 & I2). destruct (RDY _ _ Eij) as (j' & J1 & J2).
    assert (i' = j') by (exact (nodup_pos _ _ _ _ ND I2 J2)). subst. exact (nodup_pos _ _ _ _ S1 I1 J1).
  - intros e He. apply In_nth_error in He. destruct He as [j Hj]. destruct (RDY _ _ Hj) as (i & _ & Hi). apply (v_lt _ _ V). eapply nth_error_In; eauto.
  - congruence.
  - congruence.
  - rewrite (rd_envlen _ _ _ _ _ _ _ _ _ _ _ _ _ _ D). apply (v_envlen _ _ V).
  - intros x Hx. apply in_app_or in Hx. destruct Hx as [Hx|[<-|[]]]; [apply (v_rds _ _ V); exact Hx|]. cbn [fst snd rd].
    split; [exact ND|]. split; [exact rows_len|]. apply (v_lt _ _ V).
  - rewrite (rd_calls _ _ _ _ _ _ _ _ _ _ _ _ _ _ D), !map_app, (v_calls _ _ V). reflexivity.
  - intros e s ob He Hs Ho. destruct (Henv e s ob He Hs Ho) as (P1 & P2 & P3 & P4). split; [exact P1|]. split; [exact P2|]. split; [exact P3|].
    intros j Hj. destruct (RDY _ _ Hj) as (i & I1 & I2).
    destruct (nth_error_some acts i) as [ab Hab]; [rewrite (rd_len1 _ _ _ _ _ _ _ _ _ _ _ _ _ _ D); eapply nth_error_lt; eauto|].
    destruct (P4 _ _ I2 Hab) as [Q1 Q2]. rewrite Q2. destruct (S7 _ _ I1) as [_ Q3]. apply (Q3 e _ ab I2 Hab Q1).
  - intros e He. rewrite <- (v_out _ _ V e He). apply (rd_other _ _ _ _ _ _ _ _ _ _ _ _ _ _ D). intro K. apply (v_lt _ _ V) in K. lia.
  - rewrite (rd_steps _ _ _ _ _ _ _ _ _ _ _ _ _ _ D), (v_steps _ _ V), map_app, list_sum_app. cbn. fold ids. lia.
  - rewrite B3. cbn [st_steps at_step]. rewrite (v_ststeps _ _ V), (rd_steps _ _ _ _ _ _ _ _ _ _ _ _ _ _ D). fold rows. rewrite rows_len. reflexivity.
  - rewrite (rd_eps _ _ _ _ _ _ _ _ _ _ _ _ _ _ D), (v_eps _ _ V), enders_app, app_length, Hnum. reflexivity.
  - rewrite (rd_eps _ _ _ _ _ _ _ _ _ _ _ _ _ _ D), B2, B3. cbn [st_episodes st_returns st_lens at_step]. rewrite !app_length, !map_length, B1, Lreps, E2, E3, E4, E1. auto.
  - intros e He Hn. rewrite parts_app, parts_one. unfold rd. destruct (in_dec Nat.eq_dec e ids) as [Hi|Hi].
    + apply In_nth_error in Hi. destruct Hi as [i Hi].
      destruct (nth_error_some es0 e) as [s Hs]; [lia|]. destruct (nth_error_some obs0 e) as [ob Ho]; [lia|].
      destruct (env_step e s ob He Hs Ho i Hi) as (ab & Q1 & Q2 & Q3 & Q4). rewrite (part_single e ids rows i _ ND Hi Q2).
      eexists _, _. split; [reflexivity|].
      assert (Ei : ~ In i sel).
      { intro K. apply In_nth_error in K. destruct K as [j Hj]. apply Hn. destruct (S7 _ _ Hj) as [Q _]. apply nth_error_In with j. rewrite Q. exact Hi. }
      destruct (rd_env _ _ _ _ _ _ _ _ _ _ _ _ _ _ D i e ab Hi Q1) as (s' & K1 & K2 & K3). specialize (S3 _ _ Ei K2).
      destruct (v_env _ _ V e s ob He Hs Ho) as (_ & _ & P3 & _). rewrite P3 in K1. injection K1 as <-. exact S3.
    + rewrite part_none by exact Hi. rewrite app_nil_r. apply (v_drop _ _ V e He Hi).
  - intros pre x post e Eq He Hn. destruct post as [|y post] using rev_ind.
    + apply app_inj_tail in Eq. destruct Eq as [<- <-]. apply (v_drop _ _ V e He Hn).
    + rewrite app_comm_cons, app_assoc in Eq. apply app_inj_tail in Eq. destruct Eq as [Eq _]. apply (v_dropped _ _ V pre x post e Eq He Hn).
Qed.

Lemma stats_step : 0 < stack_num o -> fits (rds ++ [rd]) -> stats_ok l rds -> stats_ok l' (rds ++ [rd]).
Proof.
  intros Hk F S e He. cbv zeta. destruct (S e He) as (T1 & T2 & T3). clear S.
  pose proof (v_nd _ _ V) as ND. destruct (v_steps_eps _ _ V) as (E1 & E2 & E3 & E4). pose proof (v_eps _ _ V) as E0.
  destruct (rd_stats _ _ _ _ _ _ _ _ _ _ _ _ _ _ D) as (reps_d & G1 & G2). destruct (take_spec _ _ _ G1) as [Lr Hr].
  destruct (episodes_done _ _ _ _ _ _ _ G2) as (bs & B1 & B2 & B3 & B4).
  set (dl := where_true (map (@r_done _ _ _) rs)) in *.
  set (ne := enders [rd]).
  assert (Ndl : forall k i, nth_error dl k = Some i -> nth_error ne k = nth_error ids i).
  { intros k i Hi. unfold ne, rd. rewrite enders_one, nth_error_map.
    assert (Q : map (fun y => ends (snd y)) (combine ids rows) = map (@r_done _ _ _) rs).
    { rewrite <- (map_map snd ends). rewrite combine_snd by (symmetry; exact rows_len). exact rows_done. }
    unfold dl in Hi. rewrite <- Q in Hi. rewrite (where_filter _ _ _ _ Hi).
    assert (Li : i < length ids).
    { apply nth_error_In, where_in in Hi. apply nth_error_lt in Hi. rewrite map_length, combine_length, rows_len in Hi. lia. }
    destruct (nth_error_some ids i Li) as [x Hx]. destruct (nth_error_some rows i) as [t Ht]; [rewrite rows_len; lia|].
    rewrite (nth_error_combine _ _ _ _ _ Hx Ht), Hx. reflexivity. }
  assert (Lne : length ne = length dl).
  { unfold ne, rd. rewrite enders_one, map_length. unfold dl. rewrite where_length. rewrite <- rows_done.
    rewrite <- (combine_snd ids rows) at 2 by (symmetry; exact rows_len). rewrite map_map, filter_map_length. reflexivity. }
  assert (NDne : NoDup ne).
  { apply NoDup_nth_error. intros i j Hi Eij. rewrite Lne in Hi. destruct (nth_error_some _ _ Hi) as [di Hdi]. rewrite (Ndl _ _ Hdi) in Eij.
    assert (Ldi : di < length ids).
    { apply nth_error_In, where_in in Hdi. apply nth_error_lt in Hdi. rewrite map_length, (rd_len2 _ _ _ _ _ _ _ _ _ _ _ _ _ _ D) in Hdi. exact Hdi. }
    destruct (nth_error_some _ _ Ldi) as [x Hx]. rewrite Hx in Eij. symmetry in Eij.
    assert (Lj : j < length dl) by (rewrite <- Lne; eapply nth_error_lt; eauto). destruct (nth_error_some _ _ Lj) as [dj Hdj]. rewrite (Ndl _ _ Hdj) in Eij.
    assert (di = dj) by (exact (nodup_pos _ _ _ _ ND Hx Eij)). subst. exact (nodup_pos _ _ _ _ (where_nodup _) Hdi Hdj). }
  rewrite B2, B3. cbn [st_returns st_lens at_step]. rewrite enders_app. fold ne. rewrite map_app.
  rewrite !part_app by (rewrite ?map_length; congruence). rewrite T1, T2, T3.
  rewrite parts_app, parts_one, finished_app, !map_app.
  enough (G : part e (ne, map (fun r : nat * R * nat * nat => snd (fst (fst r))) reps_d) = map (fun ep => total r0 radd (snd ep)) (finished (add_all (before e) (parts e rds)) (part e rd))
    /\ part e (ne, map (@length _) bs) = map (fun ep => length (fst ep)) (finished (add_all (before e) (parts e rds)) (part e rd))
    /\ part e (ne, map (map (@o_cur _ _ _ _)) bs) = map (fun ep => map (fun t => Some (kept t)) (fst ep)) (finished (add_all (before e) (parts e rds)) (part e rd))).
  { destruct G as (-> & -> & ->). auto. }
  destruct (in_dec Nat.eq_dec e ids) as [Hi|Hi].
  2:{ assert (Hne : ~ In e ne).
      { intro K. apply In_nth_error in K. destruct K as [k Hk']. assert (Lk : k < length dl) by (rewrite <- Lne; eapply nth_error_lt; eauto).
        destruct (nth_error_some _ _ Lk) as [i Hdi]. rewrite (Ndl _ _ Hdi) in Hk'. apply Hi. eapply nth_error_In; eauto. }
      unfold rd. rewrite !part_none by assumption. auto. }
  apply In_nth_error in Hi. destruct Hi as [j Hj].
  destruct (nth_error_some rows j) as [t Ht]; [rewrite rows_len; eapply nth_error_lt; eauto|].
  unfold rd. rewrite (part_single e ids rows j t ND Hj Ht). cbn [finished]. rewrite app_nil_r.
  assert (Dj : nth_error (map (@r_done _ _ _) rs) j = Some (ends t)) by (rewrite <- rows_done, nth_error_map, Ht; reflexivity).
  destruct (ends t) eqn:Et.
  2:{ assert (Hne : ~ In e ne).
      { intro K. apply In_nth_error in K. destruct K as [k Hk']. assert (Lk : k < length dl) by (rewrite <- Lne; eapply nth_error_lt; eauto).
        destruct (nth_error_some _ _ Lk) as [i Hdi]. rewrite (Ndl _ _ Hdi) in Hk'. assert (i = j) by (exact (nodup_pos _ _ _ _ ND Hk' Hj)). subst.
        apply nth_error_In, where_in in Hdi. congruence. }
      rewrite !part_none by assumption. auto. }
  assert (Hd : In j dl) by (apply where_in; exact Dj). apply In_nth_error in Hd. destruct Hd as [k Hdk].
  assert (Hne : nth_error ne k = Some e) by (rewrite (Ndl _ _ Hdk); exact Hj).
  (* the report *)
  destruct (v_mgr _ _ V) as [outs Hrun]. destruct (v_mgr _ _ linv_step) as [outs' Hrun'].
  assert (Ho : outs' = outs ++ combine (map Z.of_nat ids) reps).
  { pose proof Hrun' as Q. rewrite as_adds_app, app_assoc, m_run_app, Hrun in Q. cbn [bind fst snd as_adds map] in Q. unfold rd in Q. cbn [ManagerSpec.m_run fst snd] in Q. unfold rows, ids in Q.
    rewrite (rd_add _ _ _ _ _ _ _ _ _ _ _ _ _ _ D) in Q. cbn [bind fst snd] in Q. rewrite app_nil_r in Q. injection Q as <-. reflexivity. }
  destruct (nth_error_some ns e) as [n Hn]; [lia|]. assert (Hn0 : 0 < n) by (apply Hpos; eapply nth_error_In; eauto).
  set (ops := ops0 ++ as_adds rds) in *.
  assert (Hops' : ops0 ++ as_adds (rds ++ [rd]) = ops ++ [MAdd (Some (map Z.of_nat ids)) rows]) by (unfold ops; rewrite as_adds_app, app_assoc; reflexivity).
  rewrite Hops' in Hrun'.
  assert (Hids : forall i, In i ids -> i < length ns) by (intros i Hi; apply (v_lt _ _ V) in Hi; lia).
  assert (Hproj : proj (length ns) e (ops ++ [MAdd (Some (map Z.of_nat ids)) rows]) = proj (length ns) e ops ++ [OpAdd t]).
  { rewrite proj_app. cbn [proj]. rewrite select_part by (auto; lia). rewrite (part_single e ids rows j t ND Hj Ht). reflexivity. }
  assert (Hbefore : add_all (before e) (parts e rds) = open_episode (proj (length ns) e ops)).
  { unfold before, ops. rewrite proj_app, open_app, proj_adds; [reflexivity|lia|]. intros x i Hx Hxi. destruct (v_rds _ _ V x Hx) as (_ & _ & Q). specialize (Q i Hxi). lia. }
  destruct (run_view r0 radd last_frame o ns _ _ _ Hpos Hrun) as (_ & _ & _ & _ & bfs & Hs & Hb). destruct (Hb e n Hn) as (b1 & bo1 & _ & R1 & R2).
  destruct (run_view r0 radd last_frame o ns _ _ _ Hpos Hrun') as (_ & _ & _ & _ & bfs' & Hs' & Hb'). destruct (Hb' e n Hn) as (b2 & bo2 & _ & R3 & R4).
  destruct (C02_episode_report_lemma _ _ _ _ r0 radd last_frame o n (proj (length ns) e ops) Hn0) as [b1' C1]. rewrite C1 in R1. injection R1 as <- <-.
  rewrite Hproj in R3. destruct (C02_episode_report_lemma _ _ _ _ r0 radd last_frame o n (proj (length ns) e ops ++ [OpAdd t]) Hn0) as [b2' C2]. rewrite C2 in R3. injection R3 as <- <-.
  destruct (epi_open r0 radd last_frame o n (proj (length ns) e ops)) as (P1 & P2 & P3 & _).
  set (E := fst (epi_run r0 radd n epi0 (proj (length ns) e ops))) in *.
  rewrite Ho, select_app, R2, epi_run_app in R4. cbn [snd] in R4. rewrite map_app in R4. apply app_inv_head in R4. fold E in R4.
  cbn [epi_run] in R4. cbn [epi_step] in R4. change (t_term t || t_trunc t) with (ends t) in R4. rewrite Et in R4. cbn [fst snd map] in R4.
  rewrite select_part in R4 by (auto; lia).
  destruct (nth_error_some reps_d k) as [rep Hrep]; [rewrite Lr; eapply nth_error_lt; eauto|].
  pose proof Hrep as Hrep'. rewrite (Hr _ _ Hdk) in Hrep'. rewrite (part_single e ids reps j rep ND Hj Hrep') in R4. injection R4 as R4.
  destruct (nth_error_some bs k) as [b Hb0]; [rewrite B1; eapply nth_error_lt; eauto|].
  specialize (B4 k rep b Hrep Hb0).
  rewrite (part_single e ne _ k (snd (fst (fst rep))) NDne Hne) by (rewrite nth_error_map, Hrep; reflexivity).
  rewrite (part_single e ne _ k (length b) NDne Hne) by (rewrite nth_error_map, Hb0; reflexivity).
  rewrite (part_single e ne _ k (map (@o_cur _ _ _ _) b) NDne Hne) by (rewrite nth_error_map, Hb0; reflexivity).
  rewrite Hbefore. cbn [map fst snd].
  destruct (lookup_episode r0 radd last_frame o ns _ _ _ e n _ t Hpos Hk Hn Hrun' Hproj) as (batch & idx & L1 & L2 & L3).
  { assert (Hin : In (fst (open_episode (proj (length ns) e ops)) ++ [t], snd (open_episode (proj (length ns) e ops)) ++ [t_rew t]) (finished (before e) (parts e (rds ++ [rd])))).
    { rewrite parts_app, parts_one, finished_app, Hbefore. unfold rd. rewrite (part_single e ids rows j t ND Hj Ht). cbn [finished]. rewrite Et. apply in_or_app. right. left. reflexivity. }
    pose proof (F e n _ He Hn Hin) as Q. cbn [fst] in Q. rewrite app_length in Q. cbn [length] in Q. lia. }
  fold E in L1. subst rep. cbn [fst snd shift] in *. rewrite L1 in B4. cbn [bind] in B4. rewrite L2 in B4. injection B4 as ->.
  rewrite L3. rewrite P2. split; [reflexivity|]. split; [|reflexivity].
  pose proof (f_equal (@length _) L3) as Q. rewrite !map_length in Q. rewrite Q. reflexivity.
Qed.
End Step.

(** ** The loop *)
Definition room (nep : option nat) (l : loop) : Prop := match nep with Some (S n') => l_eps l + length (l_ready l) <= S n' | _ => True end.
Lemma num_done_le (rs : list (sres Ob Inf R)) : num_done rs <= length rs.
Proof.
  unfold num_done. pose proof (filter_partition_length (fun b : bool => b) (map (@r_done Ob Inf R) rs)) as P. rewrite map_length in P. rewrite <- P. apply Nat.le_add_r.
Qed.
(** Remaining environments after a round of an n_episode collection. *)
Lemma ready_step nep l l' acts rs reps : room nep l -> round nep l l' acts rs reps ->
  length (l_ready l') = match nep with Some (S n') => Nat.min (length (l_ready l)) (S n' - l_eps l') | _ => length (l_ready l) end /\ room nep l'.
Proof.
  intros Rm D. destruct (rd_sel _ _ _ _ _ _ _ _ _ _ _ _ _ _ D) as (sel & _ & _ & _ & S4 & _ & _ & _ & S8).
  pose proof (rd_eps _ _ _ _ _ _ _ _ _ _ _ _ _ _ D) as E. pose proof (num_done_le rs) as L. rewrite (rd_len2 _ _ _ _ _ _ _ _ _ _ _ _ _ _ D) in L.
  rewrite S4, S8. unfold room in *. destruct nep as [[|n']|]; [split; [lia|exact Logic.I]| |split; [lia|exact Logic.I]]. rewrite S4, S8. lia.
Qed.

Lemma iterate_inv nst nep : forall fuel l lf rds, linv l rds -> room nep l -> iterate fuel nst nep l = Ok lf ->
  exists more, linv lf (rds ++ more) /\ room nep lf /\ more <> []
    /\ (0 < stack_num o -> fits (rds ++ more) -> stats_ok l rds -> stats_ok lf (rds ++ more))
    /\ reached nst (l_steps lf) || reached nep (l_eps lf) = true
    /\ match nep with Some (S _) => True | _ => l_ready lf = l_ready l /\ (forall rd, In rd more -> fst rd = l_ready l) end
    /\ (forall pre rd, more = pre ++ [rd] -> reached nst (l_steps lf - length (fst rd)) = false \/ pre = []).
Proof.
  induction fuel as [|fuel IH]; intros l lf rds V Rm E; [discriminate|]. cbn [CollectModel.iterate] in E.
  destruct (iter nep l) as [l1|] eqn:Ei; [|discriminate]. cbn [bind] in E.
  destruct (iter_round _ _ _ _ _ _ _ _ _ nep l l1 (v_nd _ _ V) (v_obs _ _ V) Rm Ei) as (acts & rs & reps & D).
  pose proof (linv_step nep l l1 rds acts rs reps V D) as V1. destruct (ready_step _ _ _ _ _ _ Rm D) as [_ Rm1].
  set (rd := (l_ready l, rows_of (l_obs l) (map fst acts) rs)) in *.
  pose proof (rd_same _ _ _ _ _ _ _ _ _ _ _ _ _ _ D) as SM.
  destruct (reached nst (l_steps l1) || reached nep (l_eps l1)) eqn:Er.
  - injection E as <-. exists [rd]. split; [exact V1|]. split; [exact Rm1|]. split; [discriminate|]. split; [apply (stats_step nep l l1 rds acts rs reps V D)|]. split; [exact Er|].
    split; [destruct nep as [[|?]|]; auto; (split; [exact SM|intros x [<-|[]]; reflexivity])|].
    intros pre x Ex. right. destruct pre as [|y pre]; [reflexivity|]. destruct pre; discriminate.
  - destruct (IH _ _ _ V1 Rm1 E) as (more & K1 & K2 & K3 & K4 & K5 & K6 & K7). exists (rd :: more).
    rewrite <- app_assoc in K1. cbn [app] in K1. split; [exact K1|]. split; [exact K2|]. split; [discriminate|]. split; [|split; [exact K5|split]].
    + intros Hk F St. change (rd :: more) with ([rd] ++ more) in *. rewrite app_assoc in *. apply K4; [exact Hk|exact F|].
      apply (stats_step nep l l1 rds acts rs reps V D); auto. apply fits_app in F. exact F.
    + destruct nep as [[|?]|]; auto; destruct K6 as [Q1 Q2]; rewrite SM in Q1, Q2; (split; [exact Q1|intros x [<-|Hx]; [reflexivity|apply Q2; exact Hx]]).
    + intros pre x Ex. left. destruct pre as [|y pre]; [injection Ex as -> ->; contradiction|]. injection Ex as <- ->.
      destruct (K7 pre x eq_refl) as [Q | ->]; [exact Q|].
      apply orb_false_iff in Er. destruct Er as [Er _].
      replace (l_steps lf - length (fst x)) with (l_steps l1); [exact Er|].
      rewrite (v_steps _ _ K1), (v_steps _ _ V1). rewrite !map_app, !list_sum_app. cbn. lia.
Qed.

(** ** A round succeeds *)
Lemma foldM_total {X Y} (f : X -> Y -> res X) (P : Y -> Prop) : (forall x y, P y -> exists x', f x y = Ok x') -> forall ys x, (forall y, In y ys -> P y) -> exists x', foldM f ys x = Ok x'.
Proof.
  intros Hf. induction ys as [|y ys IH]; intros x HP; [exists x; reflexivity|]. destruct (Hf x y) as [x1 E]; [apply HP; left; reflexivity|].
  cbn [foldM]. rewrite E. cbn [bind]. apply IH. intros; apply HP; right; assumption.
Qed.

Definition open_now (e : nat) (rds : list (list nat * list trans)) : nat := length (fst (add_all (before e) (parts e rds))).

Lemma report_lookup l rds rows m reps j e t n : 0 < stack_num o -> linv l rds -> length rows = length (l_ready l) ->
  m_add r0 radd last_frame o (l_mgr l) (Some (map Z.of_nat (l_ready l))) rows = Ok (m, reps) ->
  nth_error (l_ready l) j = Some e -> nth_error rows j = Some t -> ends t = true -> nth_error ns e = Some n -> S (open_now e rds) < n -> j < length reps ->
  exists rep batch idx, nth_error reps j = Some rep
    /\ get_buffer_indices (map Z.of_nat (m_edges m)) (Z.of_nat (snd rep)) (Z.of_nat (fst (fst (fst rep))) + 1) = Ok idx /\ m_getitem o m idx = Ok batch.
Proof.
  intros Hk V Lrows Em Hj Ht Et Hn HL Lj. set (ids := l_ready l) in *. pose proof (v_nd _ _ V) as ND. fold ids in ND.
  destruct (v_mgr _ _ V) as [outs Hrun]. assert (Hn0 : 0 < n) by (apply Hpos; eapply nth_error_In; eauto).
  set (ops := ops0 ++ as_adds rds) in *.
  assert (Hrun' : m_run (m_init r0 ns) (ops ++ [MAdd (Some (map Z.of_nat ids)) rows]) = Ok (m, outs ++ combine (map Z.of_nat ids) reps)).
  { rewrite m_run_app, Hrun. cbn [bind fst snd ManagerSpec.m_run]. rewrite Em. cbn [bind fst snd]. rewrite app_nil_r. reflexivity. }
  assert (He : e < w) by (apply (v_lt _ _ V); eapply nth_error_In; eauto).
  assert (Hids : forall i, In i ids -> i < length ns) by (intros i Hi; apply (v_lt _ _ V) in Hi; lia).
  assert (Hproj : proj (length ns) e (ops ++ [MAdd (Some (map Z.of_nat ids)) rows]) = proj (length ns) e ops ++ [OpAdd t]).
  { rewrite proj_app. cbn [proj]. rewrite select_part by (auto; lia). rewrite (part_single e ids rows j t ND Hj Ht). reflexivity. }
  assert (Hbefore : add_all (before e) (parts e rds) = open_episode (proj (length ns) e ops)).
  { unfold before, ops. rewrite proj_app, open_app, proj_adds; [reflexivity|lia|]. intros x i Hx Hxi. destruct (v_rds _ _ V x Hx) as (_ & _ & Q). specialize (Q i Hxi). lia. }
  destruct (run_view r0 radd last_frame o ns _ _ _ Hpos Hrun) as (_ & _ & _ & _ & bfs & Hs & Hb). destruct (Hb e n Hn) as (b1 & bo1 & _ & R1 & R2).
  destruct (run_view r0 radd last_frame o ns _ _ _ Hpos Hrun') as (_ & _ & _ & _ & bfs' & Hs' & Hb'). destruct (Hb' e n Hn) as (b2 & bo2 & _ & R3 & R4).
  destruct (C02_episode_report_lemma _ _ _ _ r0 radd last_frame o n (proj (length ns) e ops) Hn0) as [b1' C1]. rewrite C1 in R1. injection R1 as <- <-.
  rewrite Hproj in R3. destruct (C02_episode_report_lemma _ _ _ _ r0 radd last_frame o n (proj (length ns) e ops ++ [OpAdd t]) Hn0) as [b2' C2]. rewrite C2 in R3. injection R3 as <- <-.
  set (E := fst (epi_run r0 radd n epi0 (proj (length ns) e ops))) in *.
  rewrite select_app, R2, epi_run_app in R4. cbn [snd] in R4. rewrite map_app in R4. apply app_inv_head in R4. fold E in R4.
  cbn [epi_run] in R4. cbn [epi_step] in R4. change (t_term t || t_trunc t) with (ends t) in R4. rewrite Et in R4. cbn [fst snd map] in R4.
  rewrite select_part in R4 by (auto; lia).
  destruct (nth_error_some reps j Lj) as [rep Hrep]. rewrite (part_single e ids reps j rep ND Hj Hrep) in R4. injection R4 as R4.
  destruct (lookup_episode r0 radd last_frame o ns _ _ _ e n _ t Hpos Hk Hn Hrun' Hproj) as (batch & idx & L1 & L2 & L3).
  { rewrite <- Hbefore. exact HL. }
  fold E in L1. subst rep. exists (ManagerSpec.shift (off ns e) (e_cnt E mod n, total r0 radd (e_rews E ++ [t_rew t]), length (e_rews E ++ [t_rew t]), e_start E mod n)), batch, idx.
  split; [exact Hrep|]. split; [exact L1|exact L2].
Qed.

Lemma iter_total nep l rds : 0 < stack_num o -> linv l rds -> l_ready l <> [] ->
  (forall p ids obs inf hid, length obs = length ids -> length (fst (snd (act_fn p ids obs inf hid))) = length ids) ->
  (nep = None -> forall b, hook b = false) ->
  (forall e n, In e (l_ready l) -> nth_error ns e = Some n -> S (open_now e rds) < n) ->
  exists l', iter nep l = Ok l'.
Proof.
  intros Hk V NE Hact Hhook Hcap. unfold CollectModel.iter.
  pose proof (v_nd _ _ V) as ND. pose proof (v_obs _ _ V) as L0.
  destruct (act_fn (l_pol l) (l_ready l) (l_obs l) (l_inf l) (l_hid l)) as [p [acts hid]] eqn:Ea.
  assert (La : length acts = length (l_ready l)).
  { specialize (Hact (l_pol l) (l_ready l) (l_obs l) (l_inf l) (l_hid l) (v_obs _ _ V)). rewrite Ea in Hact. exact Hact. }
  assert (HIe : forall i, In i (l_ready l) -> i < length (l_envs l)) by (intros i Hi; rewrite (v_envlen _ _ V); apply (v_lt _ _ V) in Hi; lia).
  destruct (step_envs_total estep (l_ready l) (l_envs l) (map snd acts)) as (es & rs & Est); [rewrite map_length; exact La|exact HIe|].
  rewrite Est. cbn [bind]. destruct (step_envs_spec estep _ _ _ _ _ ND Est) as (_ & L2 & L3 & _ & _).
  set (rows := rows_of (l_obs l) (map fst acts) rs).
  assert (Lrows : length rows = length (l_ready l)) by (unfold rows; rewrite rows_of_length; rewrite ?map_length; lia).
  destruct (v_mgr _ _ V) as [outs Hrun]. destruct (run_view r0 radd last_frame o ns _ _ _ Hpos Hrun) as (_ & _ & _ & _ & bs & Hs & _).
  destruct (m_run_sim r0 radd last_frame o ns (ops0 ++ as_adds rds) _ _ (proj1 (sim_init r0 ns Hpos)) (proj2 (sim_init r0 ns Hpos))
    (m_run_wf r0 radd last_frame o ns _ _ _ _ (proj1 (sim_init r0 ns Hpos)) (proj2 (sim_init r0 ns Hpos)) Hrun)) as (m1 & bs1 & outs1 & E1 & Hs1 & Hg1 & _).
  rewrite Hrun in E1. injection E1 as <- <-.
  destruct (m_add_sim r0 radd last_frame o ns (l_mgr l) bs1 (Some (map Z.of_nat (l_ready l))) rows Hs1 Hg1) as (m & bs2 & reps & Em & _ & _ & _ & Lreps & _).
  { cbn. rewrite map_length. split; [symmetry; exact Lrows|]. split; [destruct (l_ready l); [contradiction|discriminate]|].
    intros i Hi. apply in_map_iff in Hi. destruct Hi as (x & <- & Hx). apply (v_lt _ _ V) in Hx. lia. }
  rewrite Em. cbn [bind]. destruct (length (filter (fun b => b) (map (@r_done _ _ _) rs)) =? 0); [eauto|].
  assert (Hdl : forall j, In j (where_true (map (@r_done _ _ _) rs)) -> exists t e, nth_error rows j = Some t /\ ends t = true /\ nth_error (l_ready l) j = Some e).
  { intros j Hj. apply where_in in Hj. rewrite nth_error_map in Hj. destruct (nth_error rs j) as [r|] eqn:Er; [|discriminate]. injection Hj as Hj.
    assert (Lj : j < length (l_ready l)) by (rewrite <- L2; eapply nth_error_lt; eauto).
    destruct (nth_error_some (l_obs l) j) as [ob Hob]; [lia|]. destruct (nth_error_some acts j) as [ab Hab]; [lia|]. destruct (nth_error_some (l_ready l) j Lj) as [e He].
    eexists _, e. split; [unfold rows; eapply rows_of_nth; [exact Hob|rewrite nth_error_map, Hab; reflexivity|exact Er]|]. split; [exact Hj|exact He]. }
  destruct (take_total reps (where_true (map (@r_done _ _ _) rs))) as [reps_d T1].
  { intros i Hi. destruct (Hdl i Hi) as (t & e & K & _). rewrite Lreps. eapply nth_error_lt; eauto. }
  destruct (take_total (l_ready l) (where_true (map (@r_done _ _ _) rs))) as [dg T2].
  { intros i Hi. destruct (Hdl i Hi) as (t & e & _ & _ & K). eapply nth_error_lt; eauto. }
  rewrite T1, T2. cbn [bind]. destruct (take_spec _ _ _ T2) as [Lg Hg]. destruct (take_spec _ _ _ T1) as [Lr Hr].
  destruct (reset_envs_total ereset dg es) as (es2 & xs & Er).
  { intros i Hi. apply In_nth_error in Hi. destruct Hi as [k Hk']. destruct (nth_error_some (where_true (map (@r_done _ _ _) rs)) k) as [d Hd]; [rewrite <- Lg; eapply nth_error_lt; eauto|].
    rewrite (Hg _ _ Hd) in Hk'. rewrite L3. apply HIe. eapply nth_error_In; eauto. }
  rewrite Er. cbn [bind].
  match goal with |- context [foldM ?f0 reps_d ?a0] => destruct (foldM_total f0 (fun rep => exists batch idx,
      get_buffer_indices (map Z.of_nat (m_edges m)) (Z.of_nat (snd rep)) (Z.of_nat (fst (fst (fst rep))) + 1) = Ok idx /\ m_getitem o m idx = Ok batch)) with (ys := reps_d) (x := a0) as [[st hooks] Ef] end.
  - intros [st0 h0] [[[i ret] len] start] (batch & idx & Q1 & Q2). cbn [fst snd] in Q1. cbn [episode_done]. rewrite Q1. cbn [bind]. rewrite Q2. cbn [bind].
    destruct nep as [k|]; [rewrite andb_false_r; eauto|]. rewrite (Hhook eq_refl batch). cbn [andb]. eauto.
  - intros rep Hrep. apply In_nth_error in Hrep. destruct Hrep as [k Hrep].
    destruct (nth_error_some (where_true (map (@r_done _ _ _) rs)) k) as [d Hd]; [rewrite <- Lr; eapply nth_error_lt; eauto|]. rewrite (Hr _ _ Hd) in Hrep.
    destruct (Hdl d) as (t & e & K1 & K2 & K3); [eapply nth_error_In; eauto|].
    destruct (nth_error_some ns e) as [n Hn]; [assert (e < w) by (apply (v_lt _ _ V); eapply nth_error_In; eauto); lia|].
    destruct (report_lookup l rds rows m reps d e t n Hk V Lrows Em K3 K1 K2 Hn) as (rep' & batch & idx & Q1 & Q2 & Q3).
    + apply Hcap; [eapply nth_error_In; eauto|exact Hn].
    + eapply nth_error_lt; eauto.
    + rewrite Q1 in Hrep. injection Hrep as <-. eauto.
  - rewrite Ef. cbn [bind]. destruct nep as [[|n']|]; eauto. destruct (0 <? _)%Z; eauto.
Qed.

(** ** Termination *)
Variable left : nat -> ES -> nat.
Variable T : nat.
Hypothesis Hreset : forall e s, left e (fst (ereset e s)) <= T.
Hypothesis Hstep : forall e s b, r_done (snd (estep e s b)) = false -> left e (fst (estep e s b)) < left e s.
Hypothesis Hcap : forall e n, e < w -> nth_error ns e = Some n -> T + 1 < n.

Definition ranked (l : loop) (rds : list (list nat * list trans)) : Prop :=
  fits rds /\ forall e s n, e < w -> nth_error (l_envs l) e = Some s -> nth_error ns e = Some n -> left e s <= T /\ open_now e rds + left e s + 1 < n.

Lemma ranked_step nep l l' rds acts rs reps : linv l rds -> round nep l l' acts rs reps -> ranked l rds -> ranked l' (rds ++ [(l_ready l, rows_of (l_obs l) (map fst acts) rs)]).
Proof.
  intros V D [F K]. pose proof (v_nd _ _ V) as ND. set (rd := (l_ready l, rows_of (l_obs l) (map fst acts) rs)).
  assert (P : forall e n, e < w -> nth_error ns e = Some n ->
    (exists s, part e rd = [] /\ nth_error (l_envs l) e = Some s /\ nth_error (l_envs l') e = Some s) \/
    (exists s t b, part e rd = [t] /\ nth_error (l_envs l) e = Some s /\ nth_error (l_envs l') e = Some (fst (after e s b)) /\ ends t = r_done (snd (estep e s b)))).
  { intros e n He Hn. destruct (nth_error_some es0 e) as [s0 Hs0]; [lia|]. destruct (nth_error_some obs0 e) as [ob0 Ho0]; [lia|].
    destruct (v_env _ _ V e s0 ob0 He Hs0 Ho0) as (_ & _ & P3 & _). destruct (in_dec Nat.eq_dec e (l_ready l)) as [Hi|Hi].
    - right. apply In_nth_error in Hi. destruct Hi as [j Hj]. destruct (env_step nep l l' rds acts rs reps V D e s0 ob0 He Hs0 Ho0 j Hj) as (ab & Q1 & Q2 & Q3 & Q4).
      eexists _, _, (snd ab). split; [apply (part_single e _ _ j _ ND Hj Q2)|]. split; [exact P3|]. split; [exact Q4|]. reflexivity.
    - left. eexists. split; [apply part_none; exact Hi|]. split; [exact P3|]. rewrite (rd_other _ _ _ _ _ _ _ _ _ _ _ _ _ _ D e Hi). exact P3. }
  split.
  - intros e n ep He Hn Hin. rewrite parts_app, parts_one, finished_app in Hin. apply in_app_or in Hin. destruct Hin as [Hin|Hin]; [apply (F e n ep He Hn Hin)|].
    destruct (P e n He Hn) as [(s & Q1 & _)|(s & t & b & Q1 & Q2 & _)]; rewrite Q1 in Hin; [contradiction|].
    destruct (K e s n He Q2 Hn) as [_ K2]. unfold open_now in K2. cbn [finished] in Hin. rewrite app_nil_r in Hin. destruct (ends t); [|contradiction].
    destruct Hin as [<-|[]]. cbn [fst]. rewrite app_length. cbn [length]. lia.
  - intros e s' n He Hs' Hn. destruct (P e n He Hn) as [(s & Q1 & Q2 & Q3)|(s & t & b & Q1 & Q2 & Q3 & Q4)].
    + assert (s = s') by congruence. subst. destruct (K e s' n He Q2 Hn) as [K1 K2]. split; [exact K1|]. unfold open_now in *. rewrite parts_app, parts_one, Q1, app_nil_r. exact K2.
    + destruct (K e s n He Q2 Hn) as [K1 K2]. rewrite Q3 in Hs'. injection Hs' as <-. unfold open_now in *. rewrite parts_app, parts_one, Q1, add_all_app.
      set (x := add_all (before e) (parts e rds)) in *. unfold add_all. cbn [map fold_left open_step]. rewrite Q4. unfold CollectSpec.after.
      specialize (Hstep e s b). destruct (estep e s b) as [s1 r]. cbn [fst snd] in *. fold (r_done r). destruct (r_done r).
      * pose proof (Hreset e s1) as Q. destruct (ereset e s1) as [s2 y]. cbn [fst snd length] in *. specialize (Hcap e n He Hn). lia.
      * cbn [fst]. rewrite app_length. cbn [length]. specialize (Hstep eq_refl). lia.
Qed.

Hypothesis Hk : 0 < stack_num o.
Hypothesis Hact : forall p ids obs inf hid, length obs = length ids -> length (fst (snd (act_fn p ids obs inf hid))) = length ids.

Lemma ranked_iter nep l rds : linv l rds -> ranked l rds -> l_ready l <> [] -> room nep l -> (nep = None -> forall b, hook b = false) ->
  exists l' acts rs reps, iter nep l = Ok l' /\ round nep l l' acts rs reps.
Proof.
  intros V [F K] NE Rm Hh. destruct (iter_total nep l rds Hk V NE Hact Hh) as [l' E].
  - intros e n He Hn. assert (Hw : e < w) by (apply (v_lt _ _ V); exact He). destruct (nth_error_some (l_envs l) e) as [s Hs]; [rewrite (v_envlen _ _ V); lia|].
    destruct (K e s n Hw Hs Hn) as [_ Q]. lia.
  - destruct (iter_round _ _ _ _ _ _ _ _ _ nep l l' (v_nd _ _ V) (v_obs _ _ V) Rm E) as (acts & rs & reps & D). eauto 6.
Qed.

Lemma iterate_steps_total nep n : match nep with Some (S _) => False | _ => True end -> (nep = None -> forall b, hook b = false) ->
  forall fuel l rds, linv l rds -> ranked l rds -> l_ready l <> [] -> S n - l_steps l <= fuel * length (l_ready l) -> 0 < fuel ->
  exists lf more, iterate fuel (Some (S n)) nep l = Ok lf /\ linv lf (rds ++ more) /\ ranked lf (rds ++ more).
Proof.
  intros Hnep Hh. assert (Rm : forall l, room nep l) by (intro; unfold room; destruct nep as [[|?]|]; try contradiction; exact Logic.I).
  induction fuel as [|fuel IH]; intros l rds V K NE Hf Hp; [lia|]. cbn [CollectModel.iterate].
  destruct (ranked_iter nep l rds V K NE (Rm l) Hh) as (l' & acts & rs & reps & E & D). rewrite E. cbn [bind].
  pose proof (linv_step nep l l' rds acts rs reps V D) as V1. pose proof (ranked_step nep l l' rds acts rs reps V D K) as K1.
  set (rd := (l_ready l, rows_of (l_obs l) (map fst acts) rs)) in *.
  assert (SM : l_ready l' = l_ready l) by (pose proof (rd_same _ _ _ _ _ _ _ _ _ _ _ _ _ _ D); destruct nep as [[|?]|]; auto; contradiction).
  destruct (reached (Some (S n)) (l_steps l') || reached nep (l_eps l')) eqn:Er; [exists l', [rd]; auto|].
  apply orb_false_iff in Er. destruct Er as [Er _]. cbn [reached] in Er. apply Nat.leb_gt in Er.
  destruct (IH l' (rds ++ [rd]) V1 K1) as (lf & more & Q1 & Q2 & Q3).
  - congruence.
  - rewrite SM. rewrite (rd_steps _ _ _ _ _ _ _ _ _ _ _ _ _ _ D). rewrite Nat.mul_succ_l in Hf. lia.
  - destruct fuel; [|lia]. rewrite (rd_steps _ _ _ _ _ _ _ _ _ _ _ _ _ _ D) in Er. rewrite Nat.mul_1_l in Hf. lia.
  - rewrite <- app_assoc in Q2, Q3. cbn [app] in Q2, Q3. exists lf, (rd :: more). auto.
Qed.

Lemma iterate_episodes_total nst k : match nst with Some (S _) => False | _ => True end ->
  forall fuel l rds, linv l rds -> ranked l rds -> l_eps l < S k -> room (Some (S k)) l ->
  (exists e s, hd_error (l_ready l) = Some e /\ nth_error (l_envs l) e = Some s /\ (k - l_eps l) * (T + 1) + left e s < fuel) ->
  exists lf more, iterate fuel nst (Some (S k)) l = Ok lf /\ linv lf (rds ++ more) /\ ranked lf (rds ++ more).
Proof.
  intros Hnst. induction fuel as [|fuel IH]; intros l rds V K Hlt Rm (e & s & H1 & H2 & H3); [apply Nat.nlt_0_r in H3; contradiction|]. cbn [CollectModel.iterate].
  assert (NE : l_ready l <> []) by (intro Q; rewrite Q in H1; discriminate).
  destruct (ranked_iter (Some (S k)) l rds V K NE Rm) as (l' & acts & rs & reps & E & D); [discriminate|]. rewrite E. cbn [bind].
  pose proof (linv_step _ l l' rds acts rs reps V D) as V1. pose proof (ranked_step _ l l' rds acts rs reps V D K) as K1.
  set (rd := (l_ready l, rows_of (l_obs l) (map fst acts) rs)) in *.
  destruct (ready_step _ _ _ _ _ _ Rm D) as [Lr Rm1]. cbn match in Lr.
  destruct (reached nst (l_steps l') || reached (Some (S k)) (l_eps l')) eqn:Er; [exists l', [rd]; auto|].
  apply orb_false_iff in Er. destruct Er as [_ Er]. cbn [reached] in Er. apply Nat.leb_gt in Er.
  assert (NE' : l_ready l' <> []).
  { intro Q. rewrite Q in Lr. cbn [length] in Lr. destruct (l_ready l); [contradiction|]. cbn [length] in Lr. lia. }
  assert (HD : exists e' s', hd_error (l_ready l') = Some e' /\ nth_error (l_envs l') e' = Some s' /\ left e' s' <= T).
  { destruct (l_ready l') as [|e' rest] eqn:El; [contradiction|]. assert (He' : e' < w) by (apply (v_lt _ _ V1); rewrite El; left; reflexivity).
    destruct (nth_error_some (l_envs l') e') as [s' Hs']; [rewrite (v_envlen _ _ V1); lia|]. destruct (nth_error_some ns e') as [n Hn]; [lia|].
    exists e', s'. split; [reflexivity|]. split; [exact Hs'|]. apply (proj2 K1 e' s' n He' Hs' Hn). }
  assert (M : exists e' s', hd_error (l_ready l') = Some e' /\ nth_error (l_envs l') e' = Some s' /\ (k - l_eps l') * (T + 1) + left e' s' < fuel).
  { pose proof (rd_eps _ _ _ _ _ _ _ _ _ _ _ _ _ _ D) as Ee. destruct (Nat.eq_dec (num_done rs) 0) as [Z0|Z0].
    - (* nobody finished: the head stays and moves on *)
      assert (Nd : forall r, In r rs -> r_done r = false).
      { intros r Hr. destruct (r_done r) eqn:Q; [|reflexivity]. exfalso. unfold num_done in Z0.
        assert (In true (filter (fun b => b) (map (@r_done _ _ _) rs))) by (apply filter_In; split; [rewrite <- Q; apply in_map; exact Hr|reflexivity]).
        destruct (filter (fun b => b) (map (@r_done _ _ _) rs)); [contradiction|discriminate]. }
      destruct (l_ready l) as [|e0 rest] eqn:El; [discriminate|]. injection H1 as ->.
      assert (Hj : nth_error (l_ready l) 0 = Some e) by (rewrite El; reflexivity).
      destruct (nth_error_some acts 0) as [ab Hab]; [rewrite (rd_len1 _ _ _ _ _ _ _ _ _ _ _ _ _ _ D), El; cbn; lia|].
      destruct (rd_env _ _ _ _ _ _ _ _ _ _ _ _ _ _ D 0 e ab Hj Hab) as (s' & P1 & P2 & P3). assert (s' = s) by congruence. subst s'.
      pose proof (Nd _ (nth_error_In _ _ P2)) as Q. pose proof (Hstep _ _ _ Q) as Hl. unfold CollectSpec.after in P3.
      destruct (estep e s (snd ab)) as [s1 r]. cbn [fst snd] in *. change (r_term r || r_trunc r) with (r_done r) in P3. rewrite Q in P3. cbn [fst] in P3.
      exists e, s1. split; [|split; [exact P3|rewrite Ee, Z0, Nat.add_0_r; lia]].
      destruct (rd_head _ _ _ _ _ _ _ _ _ _ _ _ _ _ D Z0). exact Hj.
    - destruct HD as (e' & s' & Q1 & Q2 & Q3). exists e', s'. split; [exact Q1|]. split; [exact Q2|].
      assert (k - l_eps l' + 1 <= k - l_eps l) by lia. assert ((k - l_eps l' + 1) * (T + 1) <= (k - l_eps l) * (T + 1)) by (apply Nat.mul_le_mono_r; assumption). lia. }
  destruct (IH l' (rds ++ [rd]) V1 K1 Er Rm1 M) as (lf & more & Q1 & Q2 & Q3).
  rewrite <- app_assoc in Q2, Q3. cbn [app] in Q2, Q3. exists lf, (rd :: more). auto.
Qed.
End Run.
