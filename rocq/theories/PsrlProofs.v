(** * Proofs about PSRL *)
From Verif Require Import Py PyLemmas Num PsrlModel DqnProofs.
From Coq Require Import Permutation Qround.
Open Scope nat_scope.

(** ** Specification: counting rows *)
Definition cnt (f : row -> bool) (rows : list row) : Qc := qn (length (filter f rows)).
Definition at_sa (s a : nat) (w : row) : bool := (w_obs w =? s) && (w_act w =? a).
(** A self-loop is recorded at the next state of a finished step (if requested). *)
Definition loops_at (loop : bool) (s : nat) (w : row) : bool := loop && w_done w && (w_next w =? s).
Definition rew_at (f : Qc -> Qc) (s a : nat) (rows : list row) : Qc := qsum (map (fun w => f (w_rew w)) (filter (at_sa s a) rows)).
Definition in_bounds (ns na : nat) (w : row) : Prop := w_obs w < ns /\ w_act w < na /\ w_next w < ns.

Lemma cnt_cons f w l : cnt f (w :: l) = (cnt f l + if f w then 1 else 0)%Qc.
Proof. unfold cnt. cbn [filter]. destruct (f w); cbn [length]; [apply qn_S|ring]. Qed.
Lemma cnt_app f l m : cnt f (l ++ m) = (cnt f l + cnt f m)%Qc.
Proof. induction l as [|w l IH]; [unfold cnt at 2; cbn; change (qn 0) with 0%Qc; ring|]. cbn [app]. rewrite !cnt_cons, IH. ring. Qed.
Lemma cnt_perm f l m : Permutation l m -> cnt f l = cnt f m.
Proof. intros H. induction H; rewrite ?cnt_cons; try congruence. ring. Qed.
Lemma rew_at_cons f s a w l : rew_at f s a (w :: l) = (rew_at f s a l + if at_sa s a w then f (w_rew w) else 0)%Qc.
Proof. unfold rew_at. cbn [filter]. destruct (at_sa s a w); cbn [map qsum]; ring. Qed.
Lemma rew_at_app f s a l m : rew_at f s a (l ++ m) = (rew_at f s a l + rew_at f s a m)%Qc.
Proof. unfold rew_at. rewrite filter_app, map_app, qsum_app. reflexivity. Qed.
Lemma rew_at_perm f s a l m : Permutation l m -> rew_at f s a l = rew_at f s a m.
Proof. intros H. induction H; rewrite ?rew_at_cons; try congruence. ring. Qed.
Lemma cnt_nonneg f l : (0 <= cnt f l)%Qc.
Proof. induction l as [|w l IH]; [apply Qcle_refl|]. rewrite cnt_cons. destruct (f w); qclra. Qed.

Lemma rows_ok ns na loop rows : (forall w, In w rows -> in_bounds ns na w) -> forall t,
  exists t', foldM (learn_row ns na loop) rows t = Ok t'
    /\ (forall s a, t_rs t' s a = (t_rs t s a + rew_at (fun r => r) s a rows)%Qc)
    /\ (forall s a, t_rq t' s a = (t_rq t s a + rew_at (fun r => (r * r)%Qc) s a rows)%Qc)
    /\ (forall s a, t_rc t' s a = (t_rc t s a + cnt (at_sa s a) rows + cnt (loops_at loop s) rows)%Qc)
    /\ (forall s a s', t_tc t' s a s' = (t_tc t s a s' + cnt (fun w => at_sa s a w && (w_next w =? s')%nat) rows
          + if s =? s' then cnt (loops_at loop s) rows else 0)%Qc).
Proof.
  induction rows as [|w rows IH]; intros Hb t.
  - exists t. split; [reflexivity|]. unfold rew_at, cnt. cbn [filter map qsum length]. change (qn 0) with 0%Qc.
    repeat split; intros; try ring. destruct (s =? s'); ring.
  - cbn [foldM]. destruct (Hb w ltac:(left; reflexivity)) as (B1 & B2 & B3).
    unfold learn_row at 1. rewrite (proj2 (Nat.ltb_lt _ _) B1), (proj2 (Nat.ltb_lt _ _) B2), (proj2 (Nat.ltb_lt _ _) B3). cbn [andb].
    set (t1 := mkStats (inc3 _ _ _ _ _) _ _ _).
    assert (G : forall s a s', t_rs t1 s a = (t_rs t s a + if at_sa s a w then w_rew w else 0)%Qc
       /\ t_rq t1 s a = (t_rq t s a + if at_sa s a w then w_rew w * w_rew w else 0)%Qc
       /\ t_rc t1 s a = (t_rc t s a + if at_sa s a w then 1 else 0)%Qc
       /\ t_tc t1 s a s' = (t_tc t s a s' + if at_sa s a w && (w_next w =? s')%nat then 1 else 0)%Qc).
    { intros s a s'. unfold t1, inc2, inc3, at_sa. cbn [t_rs t_rq t_rc t_tc]. rewrite !(Nat.eqb_sym (w_obs w)), !(Nat.eqb_sym (w_act w)), (Nat.eqb_sym (w_next w)).
      destruct (s =? w_obs w), (a =? w_act w), (s' =? w_next w); cbn [andb]; repeat split; ring. }
    clearbody t1.
    destruct (loop && w_done w) eqn:E; cbn [bind].
    + set (t2 := mkStats _ _ _ _). destruct (IH ltac:(intros v Hv; apply Hb; right; exact Hv) t2) as (t' & Et & R1 & R2 & R3 & R4).
      exists t'. split; [exact Et|]. unfold t2 in R1, R2, R3, R4. cbn [t_rs t_rq t_rc t_tc] in R1, R2, R3, R4. clear t2 Et.
      split; [|split; [|split]].
      * intros s a. rewrite R1, rew_at_cons. destruct (G s a 0) as (-> & _). ring.
      * intros s a. rewrite R2, rew_at_cons. destruct (G s a 0) as (_ & -> & _). ring.
      * intros s a. rewrite R3, !cnt_cons. destruct (G s a 0) as (_ & _ & -> & _). unfold loops_at at 3. rewrite E. cbn [andb]. rewrite (Nat.eqb_sym (w_next w)).
        destruct (s =? w_next w); ring.
      * intros s a s'. rewrite R4, !cnt_cons. destruct (G s a s') as (_ & _ & _ & ->). unfold loops_at at 3. rewrite E. cbn [andb]. rewrite (Nat.eqb_sym (w_next w) s).
        destruct (Nat.eqb_spec s s') as [->|N]; [destruct (s' =? w_next w); cbn [andb]; ring|].
        destruct (Nat.eqb_spec s (w_next w)) as [->|]; [rewrite (proj2 (Nat.eqb_neq s' (w_next w))) by congruence|]; cbn [andb]; ring.
    + destruct (IH ltac:(intros v Hv; apply Hb; right; exact Hv) t1) as (t' & Et & R1 & R2 & R3 & R4).
      exists t'. split; [exact Et|]. clear Et.
      split; [|split; [|split]].
      * intros s a. rewrite R1, rew_at_cons. destruct (G s a 0) as (-> & _). ring.
      * intros s a. rewrite R2, rew_at_cons. destruct (G s a 0) as (_ & -> & _). ring.
      * intros s a. rewrite R3, !cnt_cons. destruct (G s a 0) as (_ & _ & -> & _). unfold loops_at at 3. rewrite E. cbn [andb]. ring.
      * intros s a s'. rewrite R4, !cnt_cons. destruct (G s a s') as (_ & _ & _ & ->). unfold loops_at at 3. rewrite E. cbn [andb]. destruct (s =? s'); ring.
Qed.

(** The number of rewards observed at a pair. *)
Definition n_obs (loop : bool) (s a : nat) (rows : list row) : Qc := (cnt (at_sa s a) rows + cnt (loops_at loop s) rows)%Qc.

Lemma learn_seq fe loop batches : forall h m prev,
  (forall b w, In b batches -> In w b -> in_bounds (ps_ns m) (ps_na m) w) ->
  (0 < ps_eps m)%Qc -> (forall s a, ps_count m s a = (ps_eps m + n_obs loop s a prev)%Qc) ->
  exists h' m', foldM (learn fe loop) batches (h, m) = Ok (h', m')
    /\ ps_trans m' = ps_trans m /\ ps_ns m' = ps_ns m /\ ps_na m' = ps_na m /\ ps_eps m' = ps_eps m /\ ps_var_prior m' = ps_var_prior m
    /\ (forall x s a s', h' x s a s' = if x =? ps_trans m
         then (h x s a s' + cnt (fun w => at_sa s a w && (w_next w =? s')%nat) (concat batches) + if s =? s' then cnt (loops_at loop s) (concat batches) else 0)%Qc
         else h x s a s')
    /\ (forall s a, ps_count m' s a = (ps_eps m + n_obs loop s a (prev ++ concat batches))%Qc)
    /\ (forall s a, (ps_mean m' s a * ps_count m' s a = ps_mean m s a * ps_count m s a + rew_at (fun r => r) s a (concat batches))%Qc)
    /\ (forall s a, ps_sq m' s a = (ps_sq m s a + rew_at (fun r => (r * r)%Qc) s a (concat batches))%Qc).
Proof.
  induction batches as [|b batches IH]; intros h m prev Hb He Hc.
  - exists h, m. cbn [foldM concat]. rewrite app_nil_r. unfold cnt, rew_at. cbn [filter length map qsum]. change (qn 0) with 0%Qc.
    do 6 (split; [reflexivity|]). split; [intros; destruct (x =? ps_trans m); [destruct (s =? s'); ring|reflexivity]|]. split; [exact Hc|]. split; intros; ring.
  - cbn [foldM]. unfold learn at 1. cbn [snd fst].
    destruct (rows_ok (ps_ns m) (ps_na m) loop b ltac:(intros w Hw; apply (Hb b); [left; reflexivity|exact Hw]) zero_stats) as (t & Et & R1 & R2 & R3 & R4).
    rewrite Et. cbn [bind]. unfold observe. set (h1 := fun x : nat => _). set (m1 := mkPs _ _ _ _ _ _ _ _ _ _).
    cbn [zero_stats t_rs t_rq t_rc t_tc] in R1, R2, R3, R4.
    destruct (IH h1 m1 (prev ++ b)) as (h' & m' & E & E1 & E2 & E3 & E4 & E5 & Ht & Hcn & Hm & Hq).
    { intros b' w Hb' Hw. apply (Hb b' w); [right; exact Hb'|exact Hw]. }
    { exact He. }
    { intros s a. cbn [m1 ps_count ps_eps]. rewrite Hc, R3. unfold n_obs. rewrite !cnt_app. ring. }
    exists h', m'. split; [exact E|]. cbn [m1 ps_trans ps_ns ps_na ps_eps ps_var_prior] in *. do 5 (split; [assumption|]).
    cbn [concat]. split; [|split; [|split]].
    + intros x s a s'. rewrite Ht. unfold h1. destruct (x =? ps_trans m); [|reflexivity]. rewrite R4, !cnt_app. destruct (s =? s'); ring.
    + intros s a. rewrite Hcn, app_assoc. reflexivity.
    + intros s a. rewrite Hm. cbn [m1 ps_mean ps_count]. rewrite R1, rew_at_app.
      assert (N : (ps_count m s a + t_rc t s a)%Qc <> 0%Qc).
      { intros F. rewrite Hc, R3 in F. unfold n_obs in F. pose proof (cnt_nonneg (at_sa s a) prev). pose proof (cnt_nonneg (loops_at loop s) prev).
        pose proof (cnt_nonneg (at_sa s a) b). pose proof (cnt_nonneg (loops_at loop s) b). qclra. }
      field. exact N.
    + intros s a. rewrite Hq. cbn [m1 ps_sq]. rewrite R2, rew_at_app. ring.
Qed.

Lemma Forall2_concat_perm {A} (l m : list (list A)) : Forall2 (@Permutation A) l m -> Permutation (concat l) (concat m).
Proof. intros H. induction H; [apply perm_nil|]. cbn. apply Permutation_app; assumption. Qed.

(** C50.  After any sequence of learn calls on batches with valid indices, each in any shuffled
    order: the transition counts are the prior plus the observed counts (plus the self-loops for
    finished steps), the reward count is epsilon plus the number of observations, and the reward
    mean is the epsilon-weighted average of the prior mean and all observed rewards (a self-loop
    counting as reward 0). *)
Lemma C50_posterior_lemma : forall fe loop h addr ns na mean0 var0 eps batches shuffled, (0 < eps)%Qc ->
  Forall2 (@Permutation row) batches shuffled -> (forall b w, In b batches -> In w b -> in_bounds ns na w) ->
  exists h' m, foldM (learn fe loop) shuffled (h, psrl_init addr ns na mean0 var0 eps) = Ok (h', m)
    /\ let all := concat batches in
    (forall s a s', h' (ps_trans m) s a s' = (h addr s a s' + qn (length (filter (fun w => at_sa s a w && (w_next w =? s')%nat) all))
        + if s =? s' then qn (length (filter (loops_at loop s) all)) else 0)%Qc)
    /\ (forall s a, ps_count m s a = (eps + (qn (length (filter (at_sa s a) all)) + qn (length (filter (loops_at loop s) all))))%Qc)
    /\ (forall s a, ps_mean m s a = ((eps * mean0 s a + qsum (map w_rew (filter (at_sa s a) all)))
        / (eps + (qn (length (filter (at_sa s a) all)) + qn (length (filter (loops_at loop s) all)))))%Qc).
Proof.
  intros fe loop h addr ns na mean0 var0 eps batches shuffled He HP Hb. pose proof (Forall2_concat_perm _ _ HP) as Hperm.
  destruct (learn_seq fe loop shuffled h (psrl_init addr ns na mean0 var0 eps) []) as (h' & m & E & E1 & _ & _ & _ & _ & Ht & Hc & Hm & _).
  - cbn [psrl_init ps_ns ps_na]. intros b w Hb' Hw.
    assert (Hw' : In w (concat shuffled)) by (apply in_concat; exists b; split; assumption).
    apply (Permutation_in _ (Permutation_sym Hperm)) in Hw'. apply in_concat in Hw' as (b0 & H1 & H2). exact (Hb b0 w H1 H2).
  - exact He.
  - intros s a. cbn. unfold n_obs, cnt. cbn. change (qn 0) with 0%Qc. ring.
  - exists h', m. split; [exact E|]. cbv zeta.
    assert (Hn : forall s a, ps_count m s a = (eps + (cnt (at_sa s a) (concat batches) + cnt (loops_at loop s) (concat batches)))%Qc).
    { intros s a. rewrite Hc. cbn [app psrl_init ps_eps]. unfold n_obs. rewrite <- !(cnt_perm _ _ _ Hperm). reflexivity. }
    split; [|split; [exact Hn|]].
    + intros s a s'. rewrite E1, Ht. cbn [psrl_init ps_trans]. rewrite Nat.eqb_refl. rewrite <- !(cnt_perm _ _ _ Hperm). reflexivity.
    + intros s a. fold (cnt (at_sa s a) (concat batches)) (cnt (loops_at loop s) (concat batches)).
      specialize (Hm s a). rewrite Hn in Hm. rewrite <- (rew_at_perm _ _ _ _ _ Hperm) in Hm. cbn [psrl_init ps_mean ps_count] in Hm. unfold rew_at in Hm.
      assert (N : (eps + (cnt (at_sa s a) (concat batches) + cnt (loops_at loop s) (concat batches)))%Qc <> 0%Qc).
      { intros F. pose proof (cnt_nonneg (at_sa s a) (concat batches)). pose proof (cnt_nonneg (loops_at loop s) (concat batches)). qclra. }
      set (k := (eps + (_ + _))%Qc) in *. transitivity (ps_mean m s a * k / k)%Qc; [field; exact N|]. rewrite Hm. change (map (fun w : row => w_rew w)) with (map w_rew). field. exact N.
Qed.

(** C75.  Learning changes the prior array passed to the constructor: a second model built from
    the same array starts from the first model's counts. *)
Lemma C75_prior_modified_refuted_lemma : exists (h h' : store) m, let prior := h 7 in
  learn 0 false (h, psrl_init 7 2 1 (fun _ _ => 0%Qc) (fun _ _ => 1%Qc) 1) [mkRow 0 0 1 1 false] = Ok (h', m)
  /\ let m2 := psrl_init 7 2 1 (fun _ _ => 0%Qc) (fun _ _ => 1%Qc) 1 in
     h' (ps_trans m2) 0 0 1 = (prior 0%nat 0%nat 1%nat + 1)%Qc /\ h' (ps_trans m2) 0 0 1 <> prior 0 0 1.
Proof.
  exists (fun _ _ _ _ => 1%Qc). do 2 eexists. cbn zeta. split; [reflexivity|]. split; [reflexivity|].
  intros E. apply (f_equal this) in E. vm_compute in E. discriminate E.
Qed.

(** C75 (restricted).  Only that array is changed, and only by counts that are added: models built
    from different arrays do not influence each other. *)
Lemma C75_other_arrays_partial_lemma : forall fe loop batches h m h' m' x, (0 < ps_eps m)%Qc ->
  (forall b w, In b batches -> In w b -> in_bounds (ps_ns m) (ps_na m) w) -> (forall s a, ps_count m s a = ps_eps m) ->
  foldM (learn fe loop) batches (h, m) = Ok (h', m') ->
  (x <> ps_trans m -> forall s a s', h' x s a s' = h x s a s') /\ (forall s a s', (h x s a s' <= h' x s a s')%Qc).
Proof.
  intros fe loop batches h m h' m' x He Hb Hc Hr.
  destruct (learn_seq fe loop batches h m [] Hb He) as (h2 & m2 & E & _ & _ & _ & _ & _ & Ht & _).
  - intros s a. rewrite Hc. unfold n_obs, cnt. cbn. change (qn 0) with 0%Qc. ring.
  - rewrite E in Hr. injection Hr as -> _. split.
    + intros N s a s'. rewrite Ht. destruct (Nat.eqb_spec x (ps_trans m)); [contradiction|reflexivity].
    + intros s a s'. rewrite Ht. destruct (x =? ps_trans m); [|apply Qcle_refl].
      pose proof (cnt_nonneg (fun w => at_sa s a w && (w_next w =? s')%nat) (concat batches)). pose proof (cnt_nonneg (loops_at loop s) (concat batches)).
      destruct (s =? s'); qclra.
Qed.

(** C76.  The reward deviation of a pair without observations does not stay at its prior: after
    learning about another pair, the square root is taken of a negative number here. *)
Lemma C76_unobserved_variance_refuted_lemma : exists h h' m fe mean0 eps,
  learn fe false (h, psrl_init 0 2 1 (fun _ _ => mean0) (fun _ _ => 1%Qc) eps) [mkRow 0 0 1 1 false] = Ok (h', m)
  /\ (0 < fe)%Qc /\ (fe < mean0)%Qc /\ (mean0 < 1)%Qc /\ (0 < eps)%Qc
  /\ ps_count m 1 0 = eps /\ (ps_var m 1%nat 0%nat < 0)%Qc.
Proof.
  exists (fun _ _ _ _ => 1%Qc). do 2 eexists. exists (Q2Qc (1 # 8388608)), (Q2Qc (1 # 20)), (Q2Qc (1 # 100)).
  split; [reflexivity|]. do 4 (split; [reflexivity|]). split; [apply Qc_is_canon; vm_compute; reflexivity|]. vm_compute. reflexivity.
Qed.

(** C76 (restricted to counts, mean and squares).  A pair without observations keeps them. *)
Lemma C76_unobserved_partial_lemma : forall fe loop batches h m s a, (0 < ps_eps m)%Qc ->
  (forall b w, In b batches -> In w b -> in_bounds (ps_ns m) (ps_na m) w) -> (forall s a, ps_count m s a = ps_eps m) ->
  (forall b w, In b batches -> In w b -> at_sa s a w = false /\ loops_at loop s w = false) ->
  exists h' m', foldM (learn fe loop) batches (h, m) = Ok (h', m')
    /\ ps_count m' s a = ps_count m s a /\ ps_mean m' s a = ps_mean m s a /\ ps_sq m' s a = ps_sq m s a
    /\ (forall s', h' (ps_trans m') s a s' = h (ps_trans m) s a s').
Proof.
  intros fe loop batches h m s a He Hb Hc Hno.
  destruct (learn_seq fe loop batches h m [] Hb He) as (h' & m' & E & E1 & _ & _ & _ & _ & Ht & Hcn & Hm & Hq).
  { intros s' a'. rewrite Hc. unfold n_obs, cnt. cbn. change (qn 0) with 0%Qc. ring. }
  exists h', m'. split; [exact E|].
  assert (F : forall f, (forall w, In w (concat batches) -> f w = false) -> filter f (concat batches) = []).
  { clear. intros f H. induction (concat batches) as [|w l IH]; [reflexivity|]. cbn. rewrite (H w) by (left; reflexivity). apply IH. intros v Hv. apply H. right. exact Hv. }
  assert (Hall : forall w, In w (concat batches) -> at_sa s a w = false /\ loops_at loop s w = false).
  { intros w Hw. apply in_concat in Hw as (b & H1 & H2). exact (Hno b w H1 H2). }
  pose proof (F (at_sa s a) (fun w Hw => proj1 (Hall w Hw))) as F1. pose proof (F (loops_at loop s) (fun w Hw => proj2 (Hall w Hw))) as F2.
  assert (C : ps_count m' s a = ps_count m s a).
  { rewrite Hcn, Hc. unfold n_obs, cnt. cbn [app]. rewrite F1, F2. cbn [length]. change (qn 0) with 0%Qc. ring. }
  split; [exact C|]. split; [|split].
  - specialize (Hm s a). unfold rew_at in Hm. rewrite F1, C in Hm. cbn [map qsum] in Hm. rewrite Hc in Hm.
    assert (N : ps_eps m <> 0%Qc) by (intros Z; rewrite Z in He; qclra).
    transitivity (ps_mean m' s a * ps_eps m / ps_eps m)%Qc; [field; exact N|]. rewrite Hm. field. exact N.
  - rewrite Hq. unfold rew_at. rewrite F1. cbn [map qsum]. ring.
  - intros s'. rewrite E1, Ht, Nat.eqb_refl. unfold cnt. rewrite F2, (F (fun w => at_sa s a w && (w_next w =? s'))).
    + cbn [length]. change (qn 0) with 0%Qc. destruct (s =? s'); ring.
    + intros w Hw. rewrite (proj1 (Hall w Hw)). reflexivity.
Qed.

(** ** Value iteration *)
Definition near (d : Qc) (u v : list Qc) : Prop := Forall2 (fun x y => (x - y <= d)%Qc /\ (y - x <= d)%Qc) u v.
(** A probability vector over [n] states. *)
Definition stoch (n : nat) (p : list Qc) : Prop := length p = n /\ (forall x, In x p -> (0 <= x)%Qc) /\ qsum p = 1%Qc.
Definition mdp (n : nat) (P : list (list (list Qc))) (rew : list (list Qc)) : Prop :=
  length P = n /\ Forall2 (fun ps rs => rs <> [] /\ length ps = length rs /\ forall p, In p ps -> stoch n p) P rew.
(** The optimality operator, and the Q values, of a value vector. *)
Definition bellman P rew g v : res (list Qc) := mapM row_max (q_table P rew g v).

Lemma near_length d u v : near d u v -> length u = length v.
Proof. intros H. induction H; cbn; congruence. Qed.
Lemma vdot_near p : (forall x, In x p -> (0 <= x)%Qc) -> forall d u v, length p = length u -> near d u v ->
  (vdot p u - vdot p v <= qsum p * d)%Qc /\ (vdot p v - vdot p u <= qsum p * d)%Qc.
Proof.
  intros Hp. induction p as [|a p IH]; intros d u v Hl H.
  - cbn [vdot qsum]. split; qclra.
  - destruct H as [|x y u v [H1 H2] H]; [discriminate|]. cbn [vdot qsum].
    destruct (IH ltac:(intros z Hz; apply Hp; right; exact Hz) d u v ltac:(injection Hl; auto) H) as [I1 I2].
    pose proof (Hp a ltac:(left; reflexivity)) as Ha.
    assert (M1 : (0 <= a * (d - (x - y)))%Qc) by (clear - Ha H1; qcnra).
    assert (M2 : (0 <= a * (d - (y - x)))%Qc) by (clear - Ha H2; qcnra).
    split; qclra.
Qed.
Lemma max_near d l m : near d l m -> forall x y, (x - y <= d)%Qc -> (y - x <= d)%Qc ->
  (fold_left Qcmaxb l x - fold_left Qcmaxb m y <= d)%Qc /\ (fold_left Qcmaxb m y - fold_left Qcmaxb l x <= d)%Qc.
Proof.
  intros H. induction H as [|a b l m [H1 H2] H IH]; intros x y Hx Hy; [split; assumption|]. cbn [fold_left].
  apply IH; unfold Qcmaxb; destruct (Qcleb_spec x a), (Qcleb_spec y b); qclra.
Qed.
Lemma bellman_near n P rew g d u v : mdp n P rew -> (0 <= g)%Qc -> length u = n -> near d u v ->
  exists u' v', bellman P rew g u = Ok u' /\ bellman P rew g v = Ok v' /\ near (g * d) u' v' /\ length u' = n.
Proof.
  intros [Hn HM] Hg Hu H. rewrite <- Hn. clear Hn. unfold bellman, q_table.
  assert (HM' : Forall2 (fun ps rs => rs <> [] /\ length ps = length rs /\ forall p, In p ps -> stoch n p) P rew) by exact HM. clear HM.
  induction HM' as [|ps rs P rew (Hr & Hl & Hp) HM IH]; [exists [], []; repeat split; constructor|].
  destruct IH as (u' & v' & E1 & E2 & E3 & E4). cbn [combine map mapM fst snd].
  assert (R : near (g * d) (map (fun ar => (snd ar + g * vdot (fst ar) u)%Qc) (combine ps rs)) (map (fun ar => (snd ar + g * vdot (fst ar) v)%Qc) (combine ps rs))).
  { clear - Hg Hu H Hl Hp. revert rs Hl. induction ps as [|p ps IH]; intros [|r rs] Hl; try discriminate; [constructor|]. cbn [combine map fst snd].
    constructor; [|apply IH; [intros q Hq; apply Hp; right; exact Hq|injection Hl; auto]].
    destruct (Hp p ltac:(left; reflexivity)) as (L & N & S). destruct (vdot_near p N d u v ltac:(congruence) H) as [I1 I2]. rewrite S in I1, I2.
    assert (0 <= g * (d - (vdot p u - vdot p v)))%Qc by (clear - Hg I1; qcnra). assert (0 <= g * (d - (vdot p v - vdot p u)))%Qc by (clear - Hg I2; qcnra).
    split; qclra. }
  assert (Hne : combine ps rs <> []) by (destruct ps, rs; try discriminate; contradiction).
  destruct (combine ps rs) as [|c cs]; [contradiction|]. cbn [map row_max] in *. cbn [bind]. rewrite E1, E2. cbn [bind].
  inversion R as [|? ? ? ? [R1 R2] R3]; subst. destruct (max_near _ _ _ R3 _ _ R1 R2) as [M1 M2].
  eexists _, _. split; [reflexivity|]. split; [reflexivity|]. split; [constructor; [split; assumption|exact E3]|cbn; congruence].
Qed.
Lemma near_refl d u : (0 <= d)%Qc -> near d u u.
Proof. intros H. induction u as [|x u IH]; constructor; [split; qclra|exact IH]. Qed.
Lemma qabs_le x d : (x <= d)%Qc -> (- x <= d)%Qc -> (qabs x <= d)%Qc.
Proof. intros H1 H2. unfold qabs. destruct (Qcleb_spec 0 x); assumption. Qed.
Lemma qabs_nonneg x : (0 <= qabs x)%Qc.
Proof. unfold qabs. destruct (Qcleb_spec 0 x); qclra. Qed.
Lemma qabs_ge x : (x <= qabs x)%Qc /\ (- x <= qabs x)%Qc.
Proof. unfold qabs. destruct (Qcleb_spec 0 x); split; qclra. Qed.
Lemma near_allclose atol rtol u v : (0 <= rtol)%Qc -> near atol u v -> allclose atol rtol u v = true.
Proof.
  intros Hr H. unfold allclose. induction H as [|x y u v [H1 H2] H IH]; [reflexivity|]. cbn [combine forallb fst snd]. rewrite IH, andb_true_r.
  destruct (Qcleb_spec (qabs (x - y)) (atol + rtol * qabs y)) as [_|C]; [reflexivity|].
  pose proof (qabs_le (x - y) atol ltac:(exact H1) ltac:(qclra)) as F. pose proof (qabs_nonneg y) as G.
  assert (0 <= rtol * qabs y)%Qc by (clear - Hr G; qcnra). qclra.
Qed.
Fixpoint gpow (g : Qc) (k : nat) : Qc := match k with O => 1%Qc | S k => (g * gpow g k)%Qc end.
Lemma gpow_bounds g k : (0 <= g)%Qc -> (g < 1)%Qc -> (0 <= gpow g k)%Qc /\ (gpow g k * (1 + qn k * (1 - g)) <= 1)%Qc.
Proof.
  intros H0 H1. induction k as [|k [IH1 IH2]]; [cbn [gpow]; change (qn 0) with 0%Qc; split; qclra|].
  cbn [gpow]. rewrite qn_S. set (x := gpow g k) in *. assert (Hk : (0 <= qn k)%Qc).
  { clear. induction k as [|k IH]; [apply Qcle_refl|]. rewrite qn_S. qclra. }
  set (q := qn k) in *. clearbody x q. split; [clear - H0 IH1; qcnra|].
  assert (F : (g * x * (1 + (q + 1) * (1 - g)) = x * (1 + q * (1 - g)) - x * ((q + 1) * ((1 - g) * (1 - g))))%Qc) by ring.
  rewrite F. assert (0 <= (1 - g) * (1 - g))%Qc by qcnra. assert (0 <= (q + 1) * ((1 - g) * (1 - g)))%Qc.
  { set (y := ((1 - g) * (1 - g))%Qc) in *. clearbody y. clear - H Hk. qcnra. }
  set (z := ((q + 1) * ((1 - g) * (1 - g)))%Qc) in *. clearbody z. assert (0 <= x * z)%Qc by (clear - IH1 H2; qcnra). qclra.
Qed.
Lemma qc_arch (x : Qc) : exists k, (x <= qn k)%Qc.
Proof.
  exists (Z.to_nat (Qceiling (this x))). unfold Qcle, qn. rewrite this_Q2Qc. apply Qle_trans with (inject_Z (Qceiling (this x))); [apply Qle_ceiling|].
  rewrite <- Zle_Qle. lia.
Qed.
Lemma gpow_small g d e : (0 <= g)%Qc -> (g < 1)%Qc -> (0 <= d)%Qc -> (0 < e)%Qc -> exists k, (gpow g k * d <= e)%Qc.
Proof.
  intros H0 H1 Hd He. assert (Hc : (0 < 1 - g)%Qc) by qclra. assert (Hn : ((1 - g) * e)%Qc <> 0%Qc).
  { intros E. destruct (Qcmult_integral _ _ E) as [F|F]; rewrite F in *; qclra. }
  destruct (qc_arch (d / ((1 - g) * e))%Qc) as [k Hk]. exists k. destruct (gpow_bounds g k H0 H1) as [B1 B2].
  assert (L : (d <= qn k * ((1 - g) * e))%Qc).
  { assert (P : (0 < (1 - g) * e)%Qc) by (clear - Hc He; qcnra). assert (Ed : (d / ((1 - g) * e) * ((1 - g) * e) = d)%Qc) by (revert Hn; generalize ((1 - g) * e)%Qc; clear; intros z Hz; field; exact Hz). rewrite <- Ed.
    set (y := (d / _)%Qc) in *. set (z := ((1 - g) * e)%Qc) in *. clearbody y z. assert (0 <= (qn k - y) * z)%Qc by (set (w := qn k) in *; clearbody w; clear - Hk P; qcnra). qclra. }
  set (x := gpow g k) in *. set (q := qn k) in *. clearbody x q. clear Hk.
  assert (M : (x * d <= x * (q * ((1 - g) * e)))%Qc). { set (y := (q * ((1 - g) * e))%Qc) in *. clearbody y. clear - L B1. qcnra. }
  assert (N : (x * (q * ((1 - g) * e)) = (x * (1 + q * (1 - g))) * e - x * e)%Qc) by ring.
  assert (O : (0 <= x * e)%Qc) by (clear - B1 He; qcnra). set (w := (x * (1 + q * (1 - g)))%Qc) in *. clearbody w.
  assert (Q : (w * e <= e)%Qc) by (clear - B2 He; qcnra). rewrite N in M. qclra.
Qed.
Fixpoint sup (u v : list Qc) : Qc := match u, v with a :: u, b :: v => Qcmaxb (qabs (a - b)) (sup u v) | _, _ => 0%Qc end.
Lemma near_mono d e u v : (d <= e)%Qc -> near d u v -> near e u v.
Proof. intros H N. induction N as [|x y u v [H1 H2] N IH]; constructor; [split; qclra|exact IH]. Qed.
Lemma sup_near u v : length u = length v -> near (sup u v) u v /\ (0 <= sup u v)%Qc.
Proof.
  revert v. induction u as [|a u IH]; intros [|b v] H; try discriminate; [split; [constructor|apply Qcle_refl]|].
  destruct (IH v ltac:(injection H; auto)) as [N P]. cbn [sup]. pose proof (qabs_ge (a - b)) as [G1 G2].
  assert (L : (qabs (a - b) <= Qcmaxb (qabs (a - b)) (sup u v))%Qc /\ (sup u v <= Qcmaxb (qabs (a - b)) (sup u v))%Qc).
  { unfold Qcmaxb. destruct (Qcleb_spec (qabs (a - b)) (sup u v)); split; qclra. }
  destruct L as [L1 L2]. split; [|qclra]. constructor; [split; qclra|]. exact (near_mono _ _ _ _ L2 N).
Qed.
Lemma sup_least d u v : (0 <= d)%Qc -> near d u v -> (sup u v <= d)%Qc.
Proof.
  intros Hd N. induction N as [|x y u v [H1 H2] N IH]; [exact Hd|]. cbn [sup]. unfold Qcmaxb.
  pose proof (qabs_le (x - y) d H1 ltac:(qclra)). destruct (Qcleb_spec (qabs (x - y)) (sup u v)); assumption.
Qed.

Lemma vi_term n P rew g atol eps : mdp n P rew -> (0 <= g)%Qc -> (0 < atol)%Qc -> (0 <= eps)%Qc ->
  forall k d v v', (gpow g k * d <= atol)%Qc -> length v = n -> bellman P rew g v = Ok v' -> near d v' v ->
  exists fuel prev res, vi_loop fuel P rew g atol eps v v' (q_table P rew g v) = Ok (q_table P rew g prev, res)
    /\ length prev = n /\ bellman P rew g prev = Ok res /\ allclose atol eps res prev = true.
Proof.
  intros HM Hg Ha He. induction k as [|k IH]; intros d v v' Hk Hv HB HN.
  - exists 0, v, v'. cbn [vi_loop]. rewrite (near_allclose atol eps v' v He).
    + repeat split; auto. 
    + apply (near_mono d); [cbn [gpow] in Hk; qclra|exact HN].
  - destruct (allclose atol eps v' v) eqn:E.
    + exists 0, v, v'. cbn [vi_loop]. rewrite E. auto.
    + assert (Hv' : length v' = n) by (rewrite (near_length _ _ _ HN); exact Hv).
      destruct (bellman_near n P rew g d v' v HM Hg Hv' HN) as (v2 & w & B2 & B1 & N2 & L2). rewrite HB in B1. injection B1 as <-.
      destruct (IH (g * d)%Qc v' v2) as (fuel & prev & r & F1 & F2); [cbn [gpow] in Hk; replace (gpow g k * (g * d))%Qc with (g * gpow g k * d)%Qc by ring; exact Hk|exact Hv'|exact B2|exact N2|].
      exists (S fuel), prev, r. cbn [vi_loop]. rewrite E. unfold bellman in B2. rewrite B2. cbn [bind]. split; [exact F1|exact F2].
Qed.

(** C77 (restricted to discount < 1).  On every finite MDP value iteration terminates; the
    returned value is one application of the optimality operator to a previous value that is
    close to it, hence within gamma / (1 - gamma) * delta of every fixed point (delta bounding
    the last change), and the policy maximises Q plus the tie-breaking noise. *)
Lemma C77_value_iteration_partial_lemma : forall n P rew g atol eps value noise, mdp n P rew -> (0 <= g)%Qc -> (g < 1)%Qc -> (0 < atol)%Qc -> (0 <= eps)%Qc ->
  length value = n -> Forall2 (fun rs ns => length rs = length ns) rew noise ->
  exists fuel prev policy v, value_iteration fuel P rew g atol eps value noise = Ok (policy, v)
    /\ length prev = n /\ bellman P rew g prev = Ok v /\ allclose atol eps v prev = true
    /\ (forall delta best, near delta v prev -> (0 <= delta)%Qc -> bellman P rew g best = Ok best -> length best = n ->
          Forall2 (fun x y => ((x - y) * (1 - g) <= g * delta)%Qc /\ ((y - x) * (1 - g) <= g * delta)%Qc) v best)
    /\ length policy = n
    /\ (forall s a qs ns, nth_error policy s = Some a -> nth_error (q_table P rew g prev) s = Some qs -> nth_error noise s = Some ns ->
          exists q y, nth_error qs a = Some q /\ nth_error ns a = Some y
            /\ forall a' q' y', nth_error qs a' = Some q' -> nth_error ns a' = Some y' -> (q' + eps * y' <= q + eps * y)%Qc).
Proof.
  intros n P rew g atol eps value noise HM Hg Hg1 Ha He Hv Hns.
  destruct (bellman_near n P rew g 0 value value HM Hg Hv (near_refl 0 value (Qcle_refl 0))) as (v1 & w & B & _ & _ & L1).
  destruct (sup_near v1 value ltac:(congruence)) as [N P0]. destruct (gpow_small g (sup v1 value) atol Hg Hg1 P0 Ha) as [k Hk].
  destruct (vi_term n P rew g atol eps HM Hg Ha He k _ value v1 Hk Hv B N) as (fuel & prev & v & E & Lp & Bp & C).
  exists fuel, prev. unfold value_iteration. unfold bellman in B. rewrite B. cbn [bind]. rewrite E. cbn [bind fst snd]. eexists _, v. split; [reflexivity|].
  split; [exact Lp|]. split; [exact Bp|]. split; [exact C|]. split; [|split].
  - intros delta best Hd Hd0 Hb Lb. pose proof (near_length _ _ _ Hd) as Lv. destruct (sup_near v best ltac:(congruence)) as [N2 P2].
    set (E0 := sup v best) in *.
    assert (N3 : near (delta + E0) prev best).
    { clear - Hd N2. revert N2. generalize E0. clear E0. intros e N2. revert e best N2. induction Hd as [|x y l m [H1 H2] H IH]; intros e best N2; inversion N2 as [|? z ? best' [Z1 Z2] N2']; subst; constructor.
      - split; qclra. - apply IH, N2'. }
    destruct (bellman_near n P rew g _ prev best HM Hg Lp N3) as (a & c & A1 & A2 & A3 & _). rewrite Bp in A1. injection A1 as <-. rewrite Hb in A2. injection A2 as <-.
    assert (Hnn : (0 <= g * (delta + E0))%Qc) by (clear - Hg Hd0 P2; qcnra).
    pose proof (sup_least _ _ _ Hnn A3) as S. fold E0 in S. clearbody E0.
    assert (Q : (E0 * (1 - g) <= g * delta)%Qc) by qclra.
    clear - N2 Q Hg1. induction N2 as [|x y l m [H1 H2] H IH]; constructor; [|exact IH].
    assert (0 <= (E0 - (x - y)) * (1 - g))%Qc by (clear - H1 Hg1; qcnra). assert (0 <= (E0 - (y - x)) * (1 - g))%Qc by (clear - H2 Hg1; qcnra). split; qclra.
  - rewrite !map_length, combine_length. unfold q_table. rewrite map_length, combine_length. destruct HM as [H1 H2].
    assert (F : forall A B (R : A -> B -> Prop) l m, Forall2 R l m -> length l = length m) by (clear; intros A B R l m H; induction H; cbn; congruence).
    pose proof (F _ _ _ _ _ H2). pose proof (F _ _ _ _ _ Hns). lia.
  - intros s a qs ns Hp Hq Hn. rewrite nth_error_map in Hp. rewrite nth_error_map in Hp. rewrite nth_error_combine, Hq, Hn in Hp. cbn [option_map fst snd] in Hp. injection Hp as <-.
    set (l := map _ (combine qs ns)).
    assert (Hlen : length qs = length ns /\ qs <> []).
    { unfold q_table in Hq. rewrite nth_error_map, nth_error_combine in Hq. destruct (nth_error P s) as [ps|] eqn:EP; [|discriminate]. destruct (nth_error rew s) as [rs|] eqn:ER; [|discriminate].
      cbn in Hq. injection Hq as <-. destruct HM as [_ HM].
      assert (F : forall A B (R : A -> B -> Prop) l m i x y, Forall2 R l m -> nth_error l i = Some x -> nth_error m i = Some y -> R x y).
      { clear. intros A B R l m i x y H. revert i. induction H; intros [|i] H1 H2; try discriminate; [injection H1 as ->; injection H2 as ->; assumption|]. exact (IHForall2 i H1 H2). }
      destruct (F _ _ _ _ _ _ _ _ HM EP ER) as (R1 & R2 & _). pose proof (F _ _ _ _ _ _ _ _ Hns ER Hn) as R3. cbn in R3. rewrite map_length, combine_length.
      split; [lia|]. destruct ps, rs; try discriminate; contradiction. }
    destruct Hlen as [Hlen Hne]. assert (Hl : l <> []) by (unfold l; destruct qs, ns; try discriminate; contradiction).
    destruct (argmax_spec l Hl) as (x & Hx & Hmax). unfold l in Hx at 1. rewrite nth_error_map, nth_error_combine in Hx.
    destruct (nth_error qs (argmax l)) as [q|] eqn:Eq; [|discriminate]. destruct (nth_error ns (argmax l)) as [y|] eqn:Ey; [|discriminate]. cbn in Hx. injection Hx as <-.
    exists q, y. split; [reflexivity|]. split; [reflexivity|]. intros a' q' y' Hq' Hy'. apply Hmax. unfold l.
    apply (in_map (fun xy : Qc * Qc => (fst xy + eps * snd xy)%Qc) (combine qs ns) (q', y')). apply (nth_error_In _ a'). rewrite nth_error_combine, Hq', Hy'. reflexivity.
Qed.

(** C77.  With discount 1 (accepted by PSRLPolicy) the loop need not terminate: two states that
    swap with rewards 1 and -1. *)
Lemma C77_discount_one_refuted_lemma : exists P rew noise, mdp 2 P rew
  /\ forall fuel, value_iteration fuel P rew 1 (Q2Qc (1 # 100000000)) (Q2Qc (1 # 100)) [0%Qc; 0%Qc] noise = Err OutOfFuel.
Proof.
  set (P := [[[0%Qc; 1%Qc]]; [[1%Qc; 0%Qc]]]). set (rew := [[1%Qc]; [(-(1))%Qc]]). exists P, rew, [[0%Qc]; [0%Qc]].
  split.
  - split; [reflexivity|]. repeat constructor; try discriminate; cbn in *; repeat match goal with H : _ \/ _ |- _ => destruct H as [<-|H] | H : False |- _ => destruct H end; try reflexivity; cbn in *;
      repeat match goal with H : _ \/ _ |- _ => destruct H as [<-|H] | H : False |- _ => destruct H end; try (apply Qc_is_canon; vm_compute; reflexivity); intros x [<-|[<-|[]]]; vm_compute; discriminate.
  - assert (T : forall a b, mapM row_max (q_table P rew 1 [a; b]) = Ok [(1 + b)%Qc; (a - 1)%Qc]).
    { intros a b. cbn. f_equal. f_equal; [ring|]. f_equal. ring. }
    set (atol := Q2Qc (1 # 100000000)). set (eps := Q2Qc (1 # 100)).
    assert (G : forall fuel Q, vi_loop fuel P rew 1 atol eps [0%Qc; 0%Qc] [1%Qc; (-(1))%Qc] Q = Err OutOfFuel
                        /\ vi_loop fuel P rew 1 atol eps [1%Qc; (-(1))%Qc] [0%Qc; 0%Qc] Q = Err OutOfFuel).
    { assert (C1 : allclose atol eps [1%Qc; (-(1))%Qc] [0%Qc; 0%Qc] = false) by (vm_compute; reflexivity).
      assert (C2 : allclose atol eps [0%Qc; 0%Qc] [1%Qc; (-(1))%Qc] = false) by (vm_compute; reflexivity).
      induction fuel as [|fuel IH]; intros Q; cbn [vi_loop]; rewrite C1, C2; [split; reflexivity|]. rewrite !T. cbn [bind].
      replace (1 + -(1))%Qc with 0%Qc by ring. replace (1 - 1)%Qc with 0%Qc by ring. replace (1 + 0)%Qc with 1%Qc by ring. replace (0 - 1)%Qc with (-(1))%Qc by ring.
      split; apply IH. }
    intros fuel. unfold value_iteration. rewrite T. cbn [bind]. replace (1 + 0)%Qc with 1%Qc by ring. replace (0 - 1)%Qc with (-(1))%Qc by ring.
    rewrite (proj1 (G fuel _)). reflexivity.
Qed.
