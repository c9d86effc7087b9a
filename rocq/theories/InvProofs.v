(** * Proofs: what does not depend on other environments, on the unit of priorities, on the order of rows *)
From Verif Require Import Py PyLemmas Num BufferModel BufferSpec ManagerModel ManagerSpec ManagerMainProofs CollectModel CollectSpec CollectProofs SegTreeModel PrioModel
  DqnModel StatModel StatProofs EvalProofs TatSpec TatProofs QuantModel ActorModel OfflineModel OnpolModel DistModel SepSpec SepProofs AffSpec AffProofs InvSpec.
Open Scope nat_scope.

(** C352.  Two sequences of n_step collections, from vector environments of any sizes, with the same environment among them at any
    place, and policies that act row by row and treat the two places alike: if as many rounds are collected, the environment ends in
    the same state with the same observation, and its sub-buffers are the same. *)
Lemma C352_data_lemma : forall (Ob A B Inf R H ES PS H1 PS1 : Type) (r0 : R) (radd : R -> R -> R) (last_frame : Ob -> Ob) (o : opts)
  (estep estep1 : nat -> ES -> B -> ES * sres Ob Inf R) (ereset ereset1 : nat -> ES -> ES * (Ob * Inf))
  (act_fn : PS -> list nat -> list Ob -> list Inf -> option (list H) -> PS * (list (A * B) * option (list H)))
  (act_fn1 : PS1 -> list nat -> list Ob -> list Inf -> option (list H1) -> PS1 * (list (A * B) * option (list H1)))
  (hreset : list nat -> list H -> list H) (hreset1 : list nat -> list H1 -> list H1) (hook hook1 : list (row_out Ob A Inf R) -> bool)
  (f f1 : nat -> Ob -> A * B) ns ops (c c' : coll Ob A Inf R H ES PS) ls fuel e ns1 ops1 (c1 c1' : coll Ob A Inf R H1 ES PS1) ls1 fuel1 e1 n js js1 ks,
  by_rows f act_fn -> by_rows f1 act_fn1 -> estep1 e1 = estep e -> ereset1 e1 = ereset e -> f1 e1 = f e ->
  coll_ok r0 radd last_frame o ns ops c -> coll_ok r0 radd last_frame o ns1 ops1 c1 -> same_envs ns ops c e ns1 ops1 c1 e1 n ->
  Forall2 (fun j k => length (c_envs c) * k < S j <= length (c_envs c) * S k) js ks ->
  Forall2 (fun j k => length (c_envs c1) * k < S j <= length (c_envs c1) * S k) js1 ks ->
  collects (fun a b => collect r0 radd last_frame o estep ereset act_fn hreset hook fuel a b false) (map Steps js) c = Ok (c', ls) ->
  collects (fun a b => collect r0 radd last_frame o estep1 ereset1 act_fn1 hreset1 hook1 fuel1 a b false) (map Steps js1) c1 = Ok (c1', ls1) ->
  nth_error (c_envs c') e = nth_error (c_envs c1') e1 /\ pre_obs c' e = pre_obs c1' e1
  /\ nth_error (m_bufs (c_mgr c')) e = nth_error (m_bufs (c_mgr c1')) e1
  /\ slice (off ns e) n (meta_rows (list_sum ns) (m_meta (c_mgr c'))) = slice (off ns1 e1) n (meta_rows (list_sum ns1) (m_meta (c_mgr c1'))).
Proof.
  intros Ob A B Inf R H ES PS H1 PS1 r0 radd last_frame o estep estep1 ereset ereset1 act_fn act_fn1 hreset hreset1 hook hook1 f f1 ns ops c c' ls fuel e ns1 ops1 c1 c1' ls1 fuel1 e1 n js js1 ks Hf Hf1 Es1 Er1 Ef1 Hc Hc1 Hs Hjk Hjk1.
  revert ops c ls ops1 c1 ls1 Hc Hc1 Hs Hjk Hjk1. revert js1 ks. induction js as [|j js IH]; intros js1 ks ops c ls ops1 c1 ls1 Hc Hc1 Hs Hjk Hjk1 E E1.
  - inversion Hjk; subst ks. inversion Hjk1; subst js1. cbn [map collects] in E, E1. injection E as <- _. injection E1 as <- _.
    destruct Hs as (S1 & S2 & S3 & S3' & S4 & S5 & S6). split; [exact S5|]. split; [exact S6|].
    destruct Hc as (Hpos & _ & _ & (outs & Hrun) & _). destruct Hc1 as (Hpos1 & _ & _ & (outs1 & Hrun1) & _).
    destruct (C08_independent_lemma _ _ _ _ r0 radd last_frame o ns ops (c_mgr c) outs Hpos Hrun e n S1) as (b & rep & B1 & _ & B2 & _ & _ & B3).
    destruct (C08_independent_lemma _ _ _ _ r0 radd last_frame o ns1 ops1 (c_mgr c1) outs1 Hpos1 Hrun1 e1 n S2) as (b1 & rep1 & D1 & _ & D2 & _ & _ & D3).
    rewrite <- S4, B1 in D1. injection D1 as <- _. split; [congruence|]. rewrite B3, <- D3. reflexivity.
  - inversion Hjk as [|j0 k js0 ks0 Hk Hjk']; subst. inversion Hjk1 as [|j1 k1 js2 ks2 Hk1 Hjk1']; subst. cbn [map collects by_steps by_episodes] in E, E1.
    destruct (collect r0 radd last_frame o estep ereset act_fn hreset hook fuel (Some (S j)) None false c) as [[c2 l]|] eqn:Ea; [|discriminate].
    destruct (collect r0 radd last_frame o estep1 ereset1 act_fn1 hreset1 hook1 fuel1 (Some (S j1)) None false c1) as [[c3 l3]|] eqn:Eb; [|discriminate].
    destruct (collects _ (map Steps js) c2) as [[c4 l4]|] eqn:Ec in E; [|discriminate].
    destruct (collects _ (map Steps js2) c3) as [[c5 l5]|] eqn:Ed in E1; [|discriminate].
    injection E as <- _. injection E1 as <- _.
    destruct (one_call r0 radd last_frame o estep ereset act_fn hreset hook f Hf ns ops c c2 l fuel j k Hc Hk Ea) as (rounds & Rec & Hc2 & Le & Hx).
    destruct (one_call r0 radd last_frame o estep1 ereset1 act_fn1 hreset1 hook1 f1 Hf1 ns1 ops1 c1 c3 l3 fuel1 j1 k Hc1 Hk1 Eb) as (rounds1 & Rec1 & Hc3 & Le1 & Hx1).
    destruct Hs as (S1 & S2 & S3 & S3' & S4 & S5 & S6).
    destruct (nth_error (c_envs c) e) as [s|] eqn:Es; [|apply nth_error_None in Es; lia].
    destruct (pre_obs c e) as [ob|] eqn:Eo.
    2: { exfalso. destruct Hc as (_ & _ & _ & _ & obs & inf & Hpre & Lo & _). unfold pre_obs in Eo. rewrite Hpre in Eo. apply nth_error_None in Eo. lia. }
    destruct (Hx e s ob Es Eo) as (_ & P1 & P2 & P3). destruct (Hx1 e1 s ob (eq_sym S5) (eq_sym S6)) as (_ & Q1 & Q2 & Q3).
    rewrite Es1, Er1, Ef1 in Q1, Q2, Q3.
    apply (IH js2 ks0 (ops ++ as_adds rounds) c2 l4 (ops1 ++ as_adds rounds1) c3 l5 Hc2 Hc3); [|rewrite Le; exact Hjk'|rewrite Le1; exact Hjk1'|exact Ec|exact Ed].
    split; [exact S1|]. split; [exact S2|]. split; [rewrite Le; exact S3|]. split; [rewrite Le1; exact S3'|]. split; [|split].
    + rewrite Q1, P1, S4. reflexivity.
    + rewrite P2, Q2. reflexivity.
    + rewrite P3, Q3. reflexivity.
Qed.

(** ** Scaled trees *)
Lemma tget_scale k l i : tget (map (fun x => k * x)%Qc l) i = (k * tget l i)%Qc.
Proof. unfold tget. rewrite <- (map_nth (fun x => (k * x)%Qc)). rewrite Qcmult_0_r. reflexivity. Qed.
Lemma upd_map {X Y} (g : X -> Y) (l : list X) : forall i x, upd (map g l) i (g x) = map g (upd l i x).
Proof. induction l as [|y l IH]; intros [|i] x; try reflexivity. cbn. rewrite IH. reflexivity. Qed.
Lemma assign_scale k idx : forall vals tree, assign (map (fun x => k * x)%Qc tree) idx (map (fun x => k * x)%Qc vals) = map (fun x => k * x)%Qc (assign tree idx vals).
Proof.
  unfold assign. induction idx as [|i idx IH]; intros [|v vals] tree; try reflexivity. cbn [map combine fold_left fst snd].
  rewrite (upd_map (fun x => (k * x)%Qc)). apply IH.
Qed.
Lemma loop_scale k fuel : forall tree idx, setitem_loop fuel (map (fun x => k * x)%Qc tree) idx = rmap (map (fun x => k * x)%Qc) (setitem_loop fuel tree idx).
Proof.
  induction fuel as [|fuel IH]; intros tree [|i idx]; cbn [setitem_loop]; try reflexivity; destruct (1 <? i); try reflexivity.
  rewrite <- IH. f_equal. set (ix := map (fun i => i / 2) (i :: idx)). clearbody ix. rewrite <- assign_scale. f_equal. rewrite map_map. apply map_ext. intros j. rewrite !tget_scale. ring.
Qed.
Lemma setitem_scale k s idx vals : st_setitem (scale_tree k s) idx (map (fun x => k * x)%Qc vals) = rmap (scale_tree k) (st_setitem s idx vals).
Proof.
  unfold st_setitem, scale_tree. cbn [st_size st_bound st_value]. unfold guard. destruct (forallb _ idx); [|reflexivity]. destruct (forallb _ idx); [|reflexivity].
  unfold setitem_. rewrite !map_length. destruct (length idx =? length vals); [|reflexivity]. rewrite assign_scale, loop_scale.
  destruct (setitem_loop _ _ _); reflexivity.
Qed.
Lemma zget_scale k l i : zget (map (fun x => k * x)%Qc l) i = rmap (fun x => k * x)%Qc (zget l i).
Proof. apply (zget_map (fun x => (k * x)%Qc)). Qed.
Lemma ltb_scale k x y : (0 < k)%Qc -> Qcltb (k * x) (k * y) = Qcltb x y.
Proof. intros Hk. apply (inc_ltb (fun x => (k * x)%Qc)). intros a b H. pose proof (scale_inc k 0 Hk a b H) as E. cbv beta in E. clear - E. qclra. Qed.
Lemma leb_scale k x y : (0 < k)%Qc -> Qcleb (k * x) (k * y) = Qcleb x y.
Proof. intros Hk. apply (inc_leb (fun x => (k * x)%Qc)). intros a b H. pose proof (scale_inc k 0 Hk a b H) as E. cbv beta in E. clear - E. qclra. Qed.
Lemma prefix_scale k fuel : (0 < k)%Qc -> forall bound sums iv,
  prefix_loop fuel bound (map (fun x => k * x)%Qc sums) (map (fun p => (fst p, k * snd p)%Qc) iv) = rmap (map (fun p => (fst p, k * snd p)%Qc)) (prefix_loop fuel bound sums iv).
Proof.
  intros Hk. induction fuel as [|fuel IH]; intros bound sums [|[i v] iv]; cbn [prefix_loop map fst snd]; try reflexivity; destruct (i <? bound); try reflexivity.
  rewrite <- IH. f_equal. cbn [map fst snd]. f_equal.
  - rewrite tget_scale, ltb_scale by exact Hk. destruct (Qcltb _ _); cbn [fst snd]; f_equal; ring.
  - rewrite !map_map. apply map_ext. intros [j w]. cbn [fst snd]. rewrite tget_scale, ltb_scale by exact Hk. destruct (Qcltb _ _); cbn [fst snd]; f_equal; ring.
Qed.

(** C353.  Scaling all entries of a segment tree scales its sums, and the search for scaled values finds the same entries. *)
Lemma C353_tree_lemma : forall (k : Qc) (s : segtree), (0 < k)%Qc ->
  (forall idx vals, st_setitem (scale_tree k s) idx (map (fun x => k * x)%Qc vals) = rmap (scale_tree k) (st_setitem s idx vals))
  /\ (forall i, st_getitem (scale_tree k s) i = rmap (fun x => k * x)%Qc (st_getitem s i))
  /\ (forall start e, st_reduce (scale_tree k s) start e = rmap (fun x => k * x)%Qc (st_reduce s start e))
  /\ (forall vals, st_prefix (scale_tree k s) (map (fun x => k * x)%Qc vals) = st_prefix s vals).
Proof.
  intros k s Hk. split; [intros; apply setitem_scale|]. split; [intros i; apply zget_scale|].
  assert (L : forall fuel tree a b r, reduce_loop fuel (map (fun x => k * x)%Qc tree) a b (k * r)%Qc = rmap (fun x => k * x)%Qc (reduce_loop fuel tree a b r)).
  { induction fuel as [|fuel IH]; intros tree a b r; cbn [reduce_loop]; destruct (1 <? b - a)%Z; try reflexivity.
    rewrite !tget_scale. rewrite <- IH. f_equal. destruct (a mod 2 =? 0)%Z, (b mod 2 =? 1)%Z; ring. }
  split.
  - intros start e. unfold st_reduce, scale_tree. cbn [st_size st_bound st_value]. rewrite map_length.
    assert (L0 : forall fuel tree a b, reduce_loop fuel (map (fun x => k * x)%Qc tree) a b 0%Qc = rmap (fun x => k * x)%Qc (reduce_loop fuel tree a b 0%Qc)).
    { intros. rewrite <- L. rewrite Qcmult_0_r. reflexivity. }
    destruct e as [e|]; [apply L0|]. destruct (start =? 0)%Z; [apply zget_scale|apply L0].
  - intros vals. unfold st_prefix, scale_tree. cbn [st_size st_bound st_value]. rewrite map_length, tget_scale.
    assert (F1 : forallb (fun v => Qcleb 0 v) (map (fun x => k * x)%Qc vals) = forallb (fun v => Qcleb 0 v) vals).
    { induction vals as [|v vals IH]; [reflexivity|]. cbn [map forallb]. rewrite IH. f_equal. rewrite <- (leb_scale k 0 v Hk). rewrite Qcmult_0_r. reflexivity. }
    assert (F2 : forallb (fun v => Qcltb v (k * tget (st_value s) 1)) (map (fun x => k * x)%Qc vals) = forallb (fun v => Qcltb v (tget (st_value s) 1)) vals).
    { clear F1. induction vals as [|v vals IH]; [reflexivity|]. cbn [map forallb]. rewrite IH. f_equal. apply ltb_scale, Hk. }
    rewrite F1, F2. unfold guard. destruct (forallb _ vals); [|reflexivity]. destruct (forallb _ vals); [|reflexivity].
    replace (map (fun v => (1, v)) (map (fun x => (k * x)%Qc) vals)) with (map (fun p : nat * Qc => (fst p, k * snd p)%Qc) (map (fun v => (1, v)) vals)) by (rewrite !map_map; reflexivity).
    rewrite prefix_scale by exact Hk. destruct (prefix_loop _ _ _ _) as [iv|]; [|reflexivity]. cbn [rmap bind]. rewrite map_map. reflexivity.
Qed.

Lemma fold_max_scale k l : (0 < k)%Qc -> forall b, max_of (k * b) (map (fun x => k * x)%Qc l) = (k * max_of b l)%Qc.
Proof.
  intros Hk. unfold max_of. induction l as [|x l IH]; intros b; [reflexivity|]. cbn [map fold_left]. rewrite <- IH. f_equal.
  unfold Qcmaxb. rewrite leb_scale by exact Hk. destruct (Qcleb b x); reflexivity.
Qed.
Lemma fold_min_scale k l : (0 < k)%Qc -> forall b, min_of (k * b) (map (fun x => k * x)%Qc l) = (k * min_of b l)%Qc.
Proof.
  intros Hk. unfold min_of. induction l as [|x l IH]; intros b; [reflexivity|]. cbn [map fold_left]. rewrite <- IH. f_equal.
  unfold Qcminb. rewrite leb_scale by exact Hk. destruct (Qcleb b x); reflexivity.
Qed.
Lemma qabs_scale k x : (0 < k)%Qc -> PrioModel.qabs (k * x) = (k * PrioModel.qabs x)%Qc.
Proof.
  intros Hk. unfold PrioModel.qabs. rewrite <- (Qcmult_0_r k) at 1. rewrite ltb_scale by exact Hk. destruct (Qcltb x 0); ring.
Qed.

(** C353.  A prioritized buffer whose weights, with eps, are measured in another unit: new weights and weights of new transitions
    are the same in that unit, the same indices are drawn, and the normalised importance weights are the same. *)
Lemma C353_prio_lemma : forall (pw ipw : Qc -> Qc) (eps k k' m : Qc) (p : prio), (0 < k)%Qc -> (0 < k')%Qc -> (0 < m)%Qc ->
  (forall x, pw (k * x)%Qc = (k' * pw x)%Qc) -> (forall x, ipw (k' / k * x)%Qc = (m * ipw x)%Qc) ->
  (forall index, init_weight pw (scale_prio k k' p) index = rmap (scale_prio k k') (init_weight pw p index))
  /\ (forall index new_weight, update_weight pw (k * eps)%Qc (scale_prio k k' p) index (map (fun x => k * x)%Qc new_weight)
        = rmap (scale_prio k k') (update_weight pw eps p index new_weight))
  /\ (forall draws, prio_draw (scale_prio k k' p) draws = prio_draw p draws)
  /\ (forall index, batch_weight ipw true (scale_prio k k' p) index = batch_weight ipw true p index).
Proof.
  intros pw ipw eps k k' m p Hk Hk' Hm Hpw Hipw. destruct (C353_tree_lemma k' (p_tree p) Hk') as (T1 & T2 & T3 & T4).
  split; [|split; [|split]].
  - intros index. unfold init_weight, scale_prio. cbn [p_tree p_max p_min].
    replace (map (fun _ : Z => pw (k * p_max p)%Qc) index) with (map (fun x => k' * x)%Qc (map (fun _ : Z => pw (p_max p)) index)) by (rewrite map_map; apply map_ext; intros; symmetry; apply Hpw).
    rewrite T1. destruct (st_setitem _ _ _); reflexivity.
  - intros index w. unfold update_weight, scale_prio. cbn [p_tree p_max p_min].
    assert (Ew : map (fun w => (PrioModel.qabs w + k * eps)%Qc) (map (fun x => (k * x)%Qc) w) = map (fun x => (k * x)%Qc) (map (fun w => (PrioModel.qabs w + eps)%Qc) w)).
    { rewrite !map_map. apply map_ext. intros x. rewrite qabs_scale by exact Hk. ring. }
    rewrite Ew. set (w' := map (fun w => (PrioModel.qabs w + eps)%Qc) w).
    replace (map pw (map (fun x => (k * x)%Qc) w')) with (map (fun x => k' * x)%Qc (map pw w')) by (rewrite !map_map; apply map_ext; intros; symmetry; apply Hpw).
    rewrite T1, fold_max_scale, fold_min_scale by exact Hk. destruct (st_setitem _ _ _); reflexivity.
  - intros draws. unfold prio_draw, scale_prio. cbn [p_tree]. rewrite T3. destruct (st_reduce _ _ _) as [t|]; [|reflexivity]. cbn [rmap bind].
    rewrite <- T4. f_equal. rewrite map_map. apply map_ext. intros r. ring.
  - intros index. unfold batch_weight.
    assert (G : get_weight ipw (scale_prio k k' p) index = rmap (map (fun x => (m * x)%Qc)) (get_weight ipw p index)).
    { unfold get_weight, scale_prio. cbn [p_tree p_min]. induction index as [|i index IH]; [reflexivity|]. cbn [mapM]. rewrite T2.
      destruct (st_getitem (p_tree p) i) as [w|]; [|reflexivity]. cbn [rmap bind]. rewrite IH.
      replace (k' * w / (k * p_min p))%Qc with (k' / k * (w / p_min p))%Qc.
      2:{ assert (k <> 0%Qc) by (intro E; rewrite E in Hk; qclra). destruct (Qceqb_spec (p_min p) 0) as [E|E]; [rewrite E, Qcmult_0_r; unfold Qcdiv; change (/ 0)%Qc with 0%Qc; ring|field; auto]. }
      rewrite Hipw. clear IH. destruct (mapM _ _) as [r|]; reflexivity. }
    rewrite G. destruct (get_weight ipw p index) as [[|x t]|]; try reflexivity. cbn [rmap bind map]. f_equal. rewrite fold_max_scale by exact Hm.
    assert (Hm0 : m <> 0%Qc) by (intro E; rewrite E in Hm; qclra).
    assert (D : forall y d, (m * y / (m * d))%Qc = (y / d)%Qc).
    { intros y d. destruct (Qceqb_spec d 0) as [E|E]; [rewrite E, Qcmult_0_r; unfold Qcdiv; change (/ 0)%Qc with 0%Qc; ring|field; auto]. }
    rewrite D. f_equal. rewrite map_map. apply map_ext. intros y. apply D.
Qed.

(** ** The order of rows *)
Lemma perm_mean l l' : Permutation l l' -> np_mean l = np_mean l'.
Proof. intros P. unfold np_mean. rewrite (perm_sum _ _ P), (Permutation_length P). reflexivity. Qed.
Lemma mapM_perm {X Y} (f : X -> res Y) (e : exn) (l l' : list X) : (forall x e', f x = Err e' -> e' = e) -> Permutation l l' ->
  (mapM f l = Err e /\ mapM f l' = Err e) \/ exists r r', mapM f l = Ok r /\ mapM f l' = Ok r' /\ Permutation r r'.
Proof.
  intros Hf P. induction P as [|x l l' P IH|x y l|l l' l'' P1 IH1 P2 IH2].
  - right. exists [], []. auto.
  - cbn [mapM]. destruct (f x) as [v|e'] eqn:E; [|left; apply Hf in E; subst; auto]. cbn [bind].
    destruct IH as [[-> ->]|(r & r' & -> & -> & Pr)]; [left; auto|right; exists (v :: r), (v :: r'); auto].
  - assert (Hm : forall e', mapM f l = Err e' -> e' = e).
    { induction l as [|z l IHl]; intros e' E; [discriminate|]. cbn [mapM] in E. destruct (f z) eqn:Ez; [|injection E as <-; eapply Hf; eauto]. cbn [bind] in E.
      destruct (mapM f l) eqn:El; [discriminate|]. injection E as <-. apply IHl. reflexivity. }
    cbn [mapM]. destruct (f x) as [v|e'] eqn:E, (f y) as [w|e''] eqn:E'; cbn [bind]; try (apply Hf in E); try (apply Hf in E'); subst; auto.
    destruct (mapM f l) as [r|e'] eqn:El; cbn [bind]; [right; exists (w :: v :: r), (v :: w :: r); repeat split; constructor|left; rewrite (Hm _ eq_refl); auto].
  - destruct IH1 as [[A1 A2]|(r & r' & A1 & A2 & A3)], IH2 as [[B1 B2]|(q & q' & B1 & B2 & B3)]; try congruence; [left; auto|].
    right. exists r, q'. split; [exact A1|]. split; [exact B2|]. rewrite A2 in B1. injection B1 as <-. etransitivity; eauto.
Qed.

(** C354.  The losses of PPO, of the quantile learners, of branching DQN, discrete BCQ, discrete CQL and TD3+BC do not depend on
    the order of the rows of the minibatch. *)
Lemma C354_losses_lemma :
  (forall eps_clip dual_clip (rows rows' : list (Qc * Qc)), Permutation rows rows' -> ppo_clip_loss eps_clip dual_clip rows = ppo_clip_loss eps_clip dual_clip rows')
  /\ (forall rows rows' : list (list Qc * list Qc * list Qc * Qc), Permutation rows rows' -> quantile_loss rows = quantile_loss rows')
  /\ (forall (w w' : list Qc) (td td' : list (list Qc)), Permutation (combine w td) (combine w' td') -> bdq_loss w td = bdq_loss w' td')
  /\ (forall lsm (rows rows' : list dbcq_row), Permutation rows rows' ->
        dbcq_q_loss rows = dbcq_q_loss rows' /\ dbcq_i_loss lsm rows = dbcq_i_loss lsm rows' /\ dbcq_reg rows = dbcq_reg rows')
  /\ (forall lse (rows rows' : list (list Qc * nat)), Permutation rows rows' -> cql_min_q_loss lse rows = cql_min_q_loss lse rows')
  /\ (forall alpha (q q' : list Qc), Permutation q q' -> td3bc_term alpha q = td3bc_term alpha q').
Proof.
  split; [|split; [|split; [|split; [|split]]]].
  - intros eps d rows rows' P. unfold ppo_clip_loss. f_equal. apply perm_mean, Permutation_map, P.
  - intros rows rows' P. unfold quantile_loss.
    match goal with |- context [mapM ?f rows] => destruct (mapM_perm f RuntimeError rows rows') as [[-> ->]|(r & r' & -> & -> & Pr)]; [|exact P|reflexivity|cbn [bind]; f_equal; apply perm_mean, Pr] end.
    intros [[[taus curr] targets] w] e E. unfold quantile_row, guard in E. destruct (length taus =? length curr); cbn [bind] in E; [discriminate|]. congruence.
  - intros w w' td td' P. unfold bdq_loss. apply perm_mean, Permutation_map, P.
  - intros lsm rows rows' P. unfold dbcq_q_loss, dbcq_i_loss, dbcq_reg. repeat split; apply perm_mean, Permutation_map; try exact P.
    rewrite <- !flat_map_concat_map. apply Permutation_flat_map, P.
  - intros lse rows rows' P. unfold cql_min_q_loss. f_equal; apply perm_mean, Permutation_map, P.
  - intros alpha q q' P. unfold td3bc_term. rewrite (perm_mean q q' P), (perm_mean (map qc_abs q) (map qc_abs q')) by (apply Permutation_map, P). reflexivity.
Qed.

(** C354.  The critics of DDPG, TD3 and SAC: if rows and weights change places together, the errors, which become the new priorities, change
    places with them and the loss stays. *)
Lemma C354_critic_lemma : forall (Cfg OS Ob Rnd : Type) (W : @world Cfg OS Ob Rnd) (p : prm) (rows rows' : list (@ActorModel.row Ob)) (w w' : list Qc),
  length w = length rows -> length w' = length rows' -> Permutation (combine rows w) (combine rows' w') ->
  let e := td W p (mkMB rows (Some w)) in let e' := td W p (mkMB rows' (Some w')) in
  Permutation (combine rows e) (combine rows' e') /\ np_mean (weighted (Some w) e) = np_mean (weighted (Some w') e').
Proof.
  intros Cfg OS Ob Rnd W p rows rows' w w' L L' P.
  assert (E1 : forall (rows : list (@ActorModel.row Ob)) (w : list Qc), length w = length rows -> map fst (combine rows w) = rows).
  { clear. induction rows as [|r rows IH]; intros [|x w] H; try discriminate; [reflexivity|]. cbn. f_equal. apply IH. cbn in H. congruence. }
  unfold td. cbn [mb_rows]. set (g := fun r : ActorModel.row => (w_critic W p (ActorModel.r_obs r) (ActorModel.r_act r) - ActorModel.r_ret r)%Qc). split.
  - assert (E2 : forall l : list (@ActorModel.row Ob), combine l (map g l) = map (fun r => (r, g r)) l) by (clear; induction l as [|r l IH]; [reflexivity|cbn; f_equal; exact IH]).
    rewrite !E2. apply Permutation_map. rewrite <- (E1 rows w L), <- (E1 rows' w' L'). apply Permutation_map, P.
  - apply perm_mean. unfold weighted.
    assert (E2 : forall (rows : list (@ActorModel.row Ob)) (w : list Qc), map (fun xw : Qc * Qc => (fst xw * fst xw * snd xw)%Qc) (combine (map g rows) w)
      = map (fun rw : ActorModel.row * Qc => (g (fst rw) * g (fst rw) * snd rw)%Qc) (combine rows w)).
    { clear. intros rows. induction rows as [|r rows IH]; intros [|x w]; try reflexivity. cbn. f_equal. apply IH. }
    rewrite !E2. apply Permutation_map, P.
Qed.

(** C354.  Normalised advantages belong to their rows: in another order of rows they are the same numbers in that order. *)
Lemma C354_advantages_lemma : forall (sqrt : Qc -> Qc) (eps : Qc) (adv adv' : list Qc), Permutation adv adv' ->
  match norm_adv sqrt eps adv, norm_adv sqrt eps adv' with
  | Some l, Some l' => Permutation (combine adv l) (combine adv' l')
  | None, None => True
  | _, _ => False
  end.
Proof.
  intros sqrt eps adv adv' P.
  assert (E : forall l, norm_adv sqrt eps l = if length l <? 2 then None else Some (map (fun a => ((a - np_mean l) / (sqrt (qsum (map (fun a => sqr (a - np_mean l)) l) / sq (length l - 1)) + eps))%Qc) l)).
  { intros [|x [|y l]]; reflexivity. }
  rewrite !E, <- (Permutation_length P). destruct (length adv <? 2); [exact I|].
  rewrite <- (perm_mean _ _ P), <- (perm_sum _ _ (Permutation_map (fun a => sqr (a - np_mean adv)) P)).
  assert (E2 : forall (g : Qc -> Qc) l, combine l (map g l) = map (fun r => (r, g r)) l) by (clear; induction l as [|r l IH]; [reflexivity|cbn; f_equal; exact IH]).
  rewrite !E2. apply Permutation_map, P.
Qed.
