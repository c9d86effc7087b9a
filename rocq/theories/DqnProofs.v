(** * Proofs about masked DQN actions, target networks and the C51 projection *)
From Verif Require Import Py PyLemmas Num BufferModel BufferSpec BufferProofs BufferWalkProofs BufferMainProofs ReturnsModel ReturnsSpec ReturnsProofs ReturnsMainProofs ManagerWalkProofs DqnModel.
Open Scope nat_scope.

(** ** argmax *)
Lemma argmax_from_spec l : forall best bi i, bi < i ->
  let r := argmax_from best bi i l in
  (r = bi /\ (forall x, In x l -> (x <= best)%Qc)
   \/ exists v, i <= r /\ nth_error l (r - i) = Some v /\ (best <= v)%Qc /\ forall x, In x l -> (x <= v)%Qc).
Proof.
  induction l as [|x l IH]; intros best bi i Hlt; cbn [argmax_from].
  - left. split; [reflexivity|]. intros y [].
  - destruct (Qcltb_spec best x) as [H|H].
    + destruct (IH x i (S i) ltac:(lia)) as [[E Hx]|(v & Hge & En & Hb & Hx)]; cbv zeta in *.
      * right. exists x. rewrite E, Nat.sub_diag. split; [lia|]. split; [reflexivity|]. split; [qclra|].
        intros y [<-|Hy]; [qclra|apply Hx, Hy].
      * right. exists v. split; [lia|]. split.
        { replace (_ - i) with (S (argmax_from x i (S i) l - S i)) by lia. exact En. }
        split; [qclra|]. intros y [<-|Hy]; [exact Hb|apply Hx, Hy].
    + destruct (IH best bi (S i) ltac:(lia)) as [[E Hx]|(v & Hge & En & Hb & Hx)]; cbv zeta in *.
      * left. split; [exact E|]. intros y [<-|Hy]; [exact H|apply Hx, Hy].
      * right. exists v. split; [lia|]. split.
        { replace (_ - i) with (S (argmax_from best bi (S i) l - S i)) by lia. exact En. }
        split; [exact Hb|]. intros y [<-|Hy]; [qclra|apply Hx, Hy].
Qed.

Lemma argmax_spec l : l <> [] -> exists v, nth_error l (argmax l) = Some v /\ forall x, In x l -> (x <= v)%Qc.
Proof.
  destruct l as [|x l]; [contradiction|]. intros _. cbn [argmax].
  destruct (argmax_from_spec l x 0 1 ltac:(lia)) as [[E Hx]|(v & Hge & En & Hb & Hx)]; cbv zeta in *.
  - exists x. rewrite E. split; [reflexivity|]. intros y [<-|Hy]; [qclra|apply Hx, Hy].
  - exists v. destruct (argmax_from x 0 1 l) as [|k]; [lia|]. cbn [nth_error]. rewrite Nat.sub_succ, Nat.sub_0_r in En.
    split; [exact En|]. intros y [<-|Hy]; [exact Hb|apply Hx, Hy].
Qed.

Lemma fold_min_le l : forall m, (fold_left Qcminb l m <= m)%Qc /\ forall x, In x l -> (fold_left Qcminb l m <= x)%Qc.
Proof.
  induction l as [|x l IH]; intros m; cbn [fold_left]; [split; [qclra|intros x []]|].
  destruct (IH (Qcminb m x)) as [H1 H2].
  assert ((Qcminb m x <= m)%Qc /\ (Qcminb m x <= x)%Qc) as [H3 H4].
  { unfold Qcminb. destruct (Qcleb_spec m x); split; qclra. }
  split; [qclra|]. intros y [<-|Hy]; [qclra|apply H2, Hy].
Qed.
Lemma fold_max_ge l : forall m, (m <= fold_left Qcmaxb l m)%Qc /\ forall x, In x l -> (x <= fold_left Qcmaxb l m)%Qc.
Proof.
  induction l as [|x l IH]; intros m; cbn [fold_left]; [split; [qclra|intros x []]|].
  destruct (IH (Qcmaxb m x)) as [H1 H2].
  assert ((m <= Qcmaxb m x)%Qc /\ (x <= Qcmaxb m x)%Qc) as [H3 H4].
  { unfold Qcmaxb. destruct (Qcleb_spec m x); split; qclra. }
  split; [qclra|]. intros y [<-|Hy]; [qclra|apply H2, Hy].
Qed.
Lemma tmin_ok l : l <> [] -> exists m, tmin l = Ok m /\ forall x, In x l -> (m <= x)%Qc.
Proof.
  destruct l as [|x l]; [contradiction|]. intros _. exists (fold_left Qcminb l x). split; [reflexivity|].
  destruct (fold_min_le l x) as [H1 H2]. intros y [<-|Hy]; auto.
Qed.
Lemma tmax_ok l : l <> [] -> exists m, tmax l = Ok m /\ forall x, In x l -> (x <= m)%Qc.
Proof.
  destruct l as [|x l]; [contradiction|]. intros _. exists (fold_left Qcmaxb l x). split; [reflexivity|].
  destruct (fold_max_ge l x) as [H1 H2]. intros y [<-|Hy]; auto.
Qed.

Lemma nth_error_combine {A B} (l : list A) : forall (m : list B) i,
  nth_error (combine l m) i = match nth_error l i, nth_error m i with Some a, Some b => Some (a, b) | _, _ => None end.
Proof.
  induction l as [|a l IH]; intros [|b m] [|i]; try reflexivity; cbn [combine nth_error].
  - destruct (nth_error l i); reflexivity.
  - apply IH.
Qed.

(** Masked rows: adding a large enough penalty to the unavailable entries. *)
Lemma masked_argmax (row : list Qc) (mrow : list bool) (f : Qc -> bool -> Qc) j :
  length row = length mrow -> nth_error mrow j = Some true ->
  (forall x y, In x row -> In y row -> (f x false < f y true)%Qc) ->
  (forall x y, (f x true <= f y true)%Qc -> (x <= y)%Qc) ->
  let k := argmax (map (fun xm => f (fst xm) (snd xm)) (combine row mrow)) in
  nth_error mrow k = Some true
  /\ exists v, nth_error row k = Some v /\ forall i x, nth_error row i = Some x -> nth_error mrow i = Some true -> (x <= v)%Qc.
Proof.
  intros Hl Hj Hf Hmono. set (q := map _ _).
  destruct (argmax_spec q) as (v & Hv & Hmax).
  { intros E. assert (H : length q = 0) by (rewrite E; reflexivity). unfold q in H. rewrite map_length, combine_length in H.
    assert (j < length mrow) by (apply nth_error_Some; congruence). lia. }
  cbv zeta. set (k := argmax q) in *. unfold q in Hv. rewrite nth_error_map, nth_error_combine in Hv.
  destruct (nth_error row k) as [x|] eqn:Ex; [|discriminate]. destruct (nth_error mrow k) as [m|] eqn:Em; [|discriminate].
  cbn in Hv. injection Hv as <-.
  assert (Hin : forall i y b, nth_error row i = Some y -> nth_error mrow i = Some b -> (f y b <= f x m)%Qc).
  { intros i y b E1 E2. apply Hmax. unfold q. apply (in_map (fun xm => f (fst xm) (snd xm)) _ (y, b)).
    apply nth_error_In with i. rewrite nth_error_combine, E1, E2. reflexivity. }
  assert (m = true) as ->.
  { destruct m; [reflexivity|]. exfalso.
    destruct (nth_error row j) as [y|] eqn:Ey.
    - pose proof (Hin j y true Ey Hj). assert (f x false < f y true)%Qc by (apply Hf; eapply nth_error_In; eassumption). qclra.
    - apply nth_error_None in Ey. assert (j < length mrow) by (apply nth_error_Some; congruence). lia. }
  split; [reflexivity|]. exists x. split; [reflexivity|]. intros i y E1 E2. apply Hmono, (Hin i y true E1 E2).
Qed.

(** C38.  Greedy actions: with a mask of the logits' shape, in every row with an available
    action the chosen action is available and its value is maximal among the available ones;
    the values of available actions are not changed. *)
Lemma C38_greedy_lemma : forall logits mask, length logits = length mask ->
  (forall i row mrow, nth_error logits i = Some row -> nth_error mask i = Some mrow -> length row = length mrow) ->
  concat logits <> [] ->
  exists q act, compute_q_value logits (Some mask) = Ok q /\ greedy logits (Some mask) = Ok act
    /\ length act = length logits
    /\ forall i row mrow j, nth_error logits i = Some row -> nth_error mask i = Some mrow -> nth_error mrow j = Some true ->
         (exists qrow, nth_error q i = Some qrow /\ length qrow = length row /\ nth_error qrow j = nth_error row j)
         /\ exists k v, nth_error act i = Some k /\ nth_error mrow k = Some true /\ nth_error row k = Some v
              /\ forall j' x, nth_error row j' = Some x -> nth_error mrow j' = Some true -> (x <= v)%Qc.
Proof.
  intros logits mask Hl Hs Hne. unfold greedy, compute_q_value.
  destruct (tmin_ok _ Hne) as (mn & Emn & Hmn). destruct (tmax_ok _ Hne) as (mx & Emx & Hmx).
  rewrite Emn, Emx. cbn [bind]. eexists _, _. split; [reflexivity|]. split; [reflexivity|].
  split; [rewrite !map_length, combine_length; lia|].
  intros i row mrow j Er Em Ej. set (f := fun (x : Qc) (b : bool) => (x + (1 - b2q b) * (mn - mx - 1))%Qc).
  pose proof (Hs i row mrow Er Em) as Hlen.
  assert (Eq : nth_error (map (fun rm => map (fun xm => (fst xm + (1 - b2q (snd xm)) * (mn - mx - 1))%Qc) (combine (fst rm) (snd rm))) (combine logits mask)) i
               = Some (map (fun xm => f (fst xm) (snd xm)) (combine row mrow))).
  { rewrite nth_error_map, nth_error_combine, Er, Em. reflexivity. }
  split.
  - eexists. split; [exact Eq|]. split; [rewrite map_length, combine_length; lia|].
    rewrite nth_error_map, nth_error_combine, Ej. destruct (nth_error row j); [|reflexivity]. cbn. f_equal. unfold f, b2q. ring.
  - destruct (masked_argmax row mrow f j Hlen Ej) as (Hav & v & Ev & Hmax).
    + intros x y Hx Hy. assert (Hrow : In row logits) by (eapply nth_error_In; eassumption).
      assert (mn <= y)%Qc by (apply Hmn, in_concat; eauto). assert (x <= mx)%Qc by (apply Hmx, in_concat; eauto).
      unfold f, b2q. qclra.
    + intros x y H. unfold f, b2q in H. qclra.
    + eexists. exists v. split; [rewrite nth_error_map, Eq; reflexivity|]. auto.
Qed.

(** C38.  Random actions: draws in [0, 1) plus the mask.  Every action is either the given one
    or, in rows with an available action, an available one. *)
Lemma C38_exploration_lemma : forall eps n u q mask act, length u = length act -> length q = length act -> length mask = length act ->
  (forall i row mrow, nth_error q i = Some row -> nth_error mask i = Some mrow -> length row = length mrow) ->
  (forall row x, In row q -> In x row -> (0 <= x)%Qc /\ (x < 1)%Qc) ->
  exists act', exploration_noise false eps (Some n) u q (Some mask) act = Ok act' /\ length act' = length act
    /\ forall i a ui mrow j, nth_error act i = Some a -> nth_error u i = Some ui -> nth_error mask i = Some mrow ->
         nth_error mrow j = Some true ->
         exists a', nth_error act' i = Some a' /\ ((eps <= ui)%Qc -> a' = a) /\ ((ui < eps)%Qc -> nth_error mrow a' = Some true).
Proof.
  intros eps n u q mask act Hu Hq Hm Hs Hr. eexists. split; [reflexivity|].
  split; [rewrite map_length, !combine_length, map_length, combine_length; lia|].
  intros i a ui mrow j Ea Eu Em Ej.
  destruct (nth_error q i) as [row|] eqn:Eq.
  2:{ apply nth_error_None in Eq. assert (i < length act) by (apply nth_error_Some; congruence). lia. }
  eexists. split.
  { rewrite nth_error_map, nth_error_combine, Ea, nth_error_combine, Eu, nth_error_map, nth_error_combine, Eq, Em. reflexivity. }
  cbn [option_map fst snd]. destruct (Qcltb_spec ui eps) as [H|H]; split; intros H'; try reflexivity; try qclra.
  destruct (masked_argmax row mrow (fun x b => (x + b2q b)%Qc) j (Hs i row mrow Eq Em) Ej) as (Hav & _).
  - intros x y Hx Hy. assert (Hrow : In row q) by (eapply nth_error_In; eassumption).
    pose proof (Hr row x Hrow Hx). pose proof (Hr row y Hrow Hy). unfold b2q. qclra.
  - intros x y H1. unfold b2q in H1. qclra.
  - exact Hav.
Qed.

Lemma neg_inf_lt_trans x y z : neg_inf_lt x y = false -> neg_inf_lt y z = false -> neg_inf_lt x z = false.
Proof.
  destruct x as [x|], y as [y|], z as [z|]; cbn; try congruence.
  destruct (Qcltb_spec x y), (Qcltb_spec y z), (Qcltb_spec x z); try congruence. intros _ _. exfalso. qclra.
Qed.
Lemma neg_inf_lt_asym x y : neg_inf_lt x y = true -> neg_inf_lt y x = false.
Proof.
  destruct x as [x|], y as [y|]; cbn; try congruence. destruct (Qcltb_spec x y), (Qcltb_spec y x); try congruence. intros _. exfalso. qclra.
Qed.
Lemma argmaxo_from_spec l : forall best bi i, bi < i ->
  let r := argmaxo_from best bi i l in
  (r = bi /\ (forall x, In x l -> neg_inf_lt best x = false)
   \/ exists v, i <= r /\ nth_error l (r - i) = Some v /\ neg_inf_lt v best = false /\ forall x, In x l -> neg_inf_lt v x = false).
Proof.
  induction l as [|x l IH]; intros best bi i Hlt; cbn [argmaxo_from].
  - left. split; [reflexivity|]. intros y [].
  - destruct (neg_inf_lt best x) eqn:H.
    + destruct (IH x i (S i) ltac:(lia)) as [[E Hx]|(v & Hge & En & Hb & Hx)]; cbv zeta in *.
      * right. exists x. rewrite E, Nat.sub_diag. split; [lia|]. split; [reflexivity|]. split; [apply neg_inf_lt_asym, H|].
        intros y [<-|Hy]; [destruct x as [x|]; [|reflexivity]; cbn; destruct (Qcltb_spec x x); [qclra|reflexivity]|apply Hx, Hy].
      * right. exists v. split; [lia|]. split.
        { replace (_ - i) with (S (argmaxo_from x i (S i) l - S i)) by lia. exact En. }
        split; [eapply neg_inf_lt_trans; [exact Hb|apply neg_inf_lt_asym, H]|]. intros y [<-|Hy]; [exact Hb|apply Hx, Hy].
    + destruct (IH best bi (S i) ltac:(lia)) as [[E Hx]|(v & Hge & En & Hb & Hx)]; cbv zeta in *.
      * left. split; [exact E|]. intros y [<-|Hy]; [exact H|apply Hx, Hy].
      * right. exists v. split; [lia|]. split.
        { replace (_ - i) with (S (argmaxo_from best bi (S i) l - S i)) by lia. exact En. }
        split; [exact Hb|]. intros y [<-|Hy]; [eapply neg_inf_lt_trans; [exact Hb|exact H]|apply Hx, Hy].
Qed.

(** C38.  The random multi-agent policy chooses an available action in every row that has one,
    whatever the draws. *)
Lemma C38_random_policy_lemma : forall draws mask i row mrow j,
  length draws = length mask -> nth_error draws i = Some row -> nth_error mask i = Some mrow -> length row = length mrow ->
  nth_error mrow j = Some true ->
  length (random_forward draws mask) = length mask
  /\ exists a, nth_error (random_forward draws mask) i = Some a /\ nth_error mrow a = Some true.
Proof.
  intros draws mask i row mrow j Hl Er Em Hlen Ej. unfold random_forward. split; [rewrite map_length, combine_length; lia|].
  rewrite nth_error_map, nth_error_combine, Er, Em. eexists. split; [reflexivity|]. cbn [fst snd].
  set (q := map _ _).
  assert (Hq : forall k, nth_error q k = match nth_error row k, nth_error mrow k with
                 | Some x, Some b => Some (if b : bool then Some x else None) | _, _ => None end).
  { intros k. unfold q. rewrite nth_error_map, nth_error_combine. destruct (nth_error row k), (nth_error mrow k); reflexivity. }
  assert (Hj : exists x, nth_error q j = Some (Some x)).
  { rewrite Hq, Ej. assert (j < length mrow) by (apply nth_error_Some; congruence).
    destruct (nth_error row j) eqn:F; [eauto|apply nth_error_None in F; lia]. }
  destruct Hj as (xj & Hj). apply nth_error_In in Hj.
  assert (Hk : exists v, nth_error q (argmaxo q) = Some (Some v)).
  { destruct q as [|x q']; [destruct Hj|]. cbn [argmaxo].
    destruct (argmaxo_from_spec q' x 0 1 ltac:(lia)) as [[E Hx]|(v & Hge & En & Hb & Hx)]; cbv zeta in *.
    - rewrite E. cbn [nth_error]. destruct x as [x|]; [eauto|]. destruct Hj as [Hj|Hj]; [discriminate|].
      apply Hx in Hj. discriminate.
    - destruct (argmaxo_from x 0 1 q') as [|k]; [lia|]. cbn [nth_error]. rewrite Nat.sub_succ, Nat.sub_0_r in En. rewrite En.
      destruct v as [v|]; [eauto|]. destruct Hj as [Hj|Hj]; [subst x; discriminate|apply Hx in Hj; discriminate]. }
  destruct Hk as (v & Hk). rewrite Hq in Hk.
  destruct (nth_error row (argmaxo q)); [|discriminate]. destruct (nth_error mrow (argmaxo q)) as [[]|]; try discriminate. reflexivity.
Qed.

(** C69.  Bootstrapped values: with double DQN every target value is the target network's value
    of an available action (rows with one). *)
Lemma C69_double_partial_lemma : forall ut q_new q_old mask vals i row mrow j,
  length q_new = length mask -> length q_old = length mask ->
  (forall i row mrow, nth_error q_new i = Some row -> nth_error mask i = Some mrow -> length row = length mrow) ->
  target_q ut true q_new q_old (Some mask) = Ok vals ->
  nth_error (if ut then q_old else q_new) i = Some row -> nth_error mask i = Some mrow -> nth_error mrow j = Some true ->
  exists a v, nth_error mrow a = Some true /\ nth_error row a = Some v /\ nth_error vals i = Some v.
Proof.
  intros ut q_new q_old mask vals i row mrow j Hl Hl2 Hs H Er Em Ej. unfold target_q in H.
  assert (Hlt : i < length mask) by (apply nth_error_Some; congruence).
  destruct (nth_error q_new i) as [rn|] eqn:En; [|apply nth_error_None in En; lia].
  assert (Hne : concat q_new <> []).
  { intros E. assert (Hj : j < length rn).
    { rewrite (Hs i rn mrow En Em). apply nth_error_Some. congruence. }
    destruct rn as [|x rn]; [cbn in Hj; lia|]. apply nth_error_In in En.
    assert (In x (concat q_new)) by (apply in_concat; exists (x :: rn); split; [exact En|left; reflexivity]). rewrite E in H0. exact H0. }
  destruct (C38_greedy_lemma q_new mask Hl Hs Hne) as (q & act & _ & Eg & Hal & Hact). rewrite Eg in H. cbn [bind] in H.
  destruct (Hact i rn mrow j En Em Ej) as (_ & k & v & Ek & Hav & _ & _).
  set (tq := if ut then q_old else q_new) in *.
  assert (Htq : nth_error (combine tq act) i = Some (row, k)) by (rewrite nth_error_combine, Er, Ek; reflexivity).
  destruct (mapM_nth _ _ _ _ _ H Htq) as (y & Hy & Ey). cbn [fst snd] in Ey.
  destruct (nth_error row k) as [w|] eqn:Ew; [|discriminate]. injection Ey as <-.
  exists k, w. auto.
Qed.

(** C69.  Without double DQN the maximum runs over unavailable actions too. *)
Lemma C69_nature_refuted_lemma : exists q_new q_old mask v,
  target_q true false [q_new] [q_old] (Some [mask]) = Ok [v]
  /\ (exists j, nth_error mask j = Some true)
  /\ forall a, nth_error mask a = Some true -> nth_error q_old a <> Some v.
Proof.
  exists [Q2Qc 1; Q2Qc 2], [Q2Qc 1; Q2Qc 9], [true; false]. eexists. split; [reflexivity|].
  split; [exists 0; reflexivity|]. intros [|[|[|a]]] E; try discriminate E. cbn [nth_error]. intros F. apply (f_equal (fun o => match o with Some x => Qceqb x (Q2Qc 1) | None => false end)) in F. vm_compute in F. discriminate F.
Qed.

(** ** Target network *)
Lemma div_pred n f q r : n = f * q + r -> r < f -> r <> 0 -> q = (n - 1) / f.
Proof. intros Hn Hr H0. apply (Nat.div_unique _ _ _ (r - 1)); lia. Qed.

Section TargetProofs.
Context {W Ba : Type}.
Variable opt : W -> option W -> Ba -> W.

Lemma run_snoc (d : dqn W) (l : list Ba) b : dqn_run opt d (l ++ [b]) = dqn_learn opt (dqn_run opt d l) b.
Proof. unfold dqn_run. apply fold_left_app. Qed.
Lemma run_fields (d : dqn W) (l : list Ba) : d_freq (dqn_run opt d l) = d_freq d /\ d_iter (dqn_run opt d l) = d_iter d + length l.
Proof.
  induction l as [|b l IH] using rev_ind; [cbn; auto|]. rewrite run_snoc, app_length. cbn. destruct IH as [-> ->]. split; lia.
Qed.

End TargetProofs.

(** C39.  After [k] learn calls, the target weights are the online weights as they were before
    learn call [f * floor((k-1)/f)] (counting from 0), i.e. during call [k] those before call
    [f * floor(k/f)]; with [f = 0] there are none. *)
Lemma C39_target_lemma : forall (W Ba : Type) (opt : W -> option W -> Ba -> W) (w : W) (f : nat) (l : list Ba),
  let d := dqn_run opt (dqn_init w f) in
  (f = 0 -> d_old (d l) = None)
  /\ (0 < f -> d_old (d l) = Some (d_model (d (firstn (f * ((length l - 1) / f)) l)))
      /\ forall b, d_model (d (l ++ [b])) = opt (d_model (d l)) (Some (d_model (d (firstn (f * (length l / f)) l)))) b).
Proof.
  intros W Ba opt w f l. cbv zeta.
  assert (H0 : f = 0 -> d_old (dqn_run opt (dqn_init w f) l) = None).
  { intros ->. induction l as [|b l IH] using rev_ind; [reflexivity|]. rewrite run_snoc. unfold dqn_learn.
    destruct (run_fields opt (dqn_init w 0) l) as [-> _]. cbn. exact IH. }
  split; [exact H0|]. intros Hf. clear H0.
  assert (Hold : forall l, d_old (dqn_run opt (dqn_init w f) l) = Some (d_model (dqn_run opt (dqn_init w f) (firstn (f * ((length l - 1) / f)) l)))).
  { clear l. intros l. induction l as [|b l IH] using rev_ind.
    - cbn [length]. rewrite firstn_nil. unfold dqn_run, dqn_init. cbn. destruct f; [lia|reflexivity].
    - rewrite run_snoc, app_length. cbn [length]. replace (length l + 1 - 1) with (length l) by lia.
      unfold dqn_learn. destruct (run_fields opt (dqn_init w f) l) as [-> ->]. cbn [dqn_init d_freq d_iter d_old].
      replace (0 + length l) with (length l) by lia.
      pose proof (Nat.div_mod (length l) f ltac:(lia)) as Hdm. pose proof (Nat.mod_upper_bound (length l) f ltac:(lia)) as Hub.
      destruct (Nat.ltb_spec 0 f); [|lia]. cbn [andb].
      assert (Hle : f * (length l / f) <= length l) by lia.
      rewrite firstn_app. replace (f * (length l / f) - length l) with 0 by lia. cbn [firstn]. rewrite app_nil_r.
      destruct (Nat.eqb_spec (length l mod f) 0) as [E|E].
      + replace (f * (length l / f)) with (length l) by lia. rewrite firstn_all. reflexivity.
      + rewrite IH. replace ((length l - 1) / f) with (length l / f); [reflexivity|].
        symmetry. clear - Hf Hdm Hub E. symmetry. apply (div_pred _ f _ _ Hdm Hub E). }
  split; [apply Hold|]. intros b. rewrite run_snoc. cbn [dqn_learn d_model].
  pose proof (Hold (l ++ [b])) as H. rewrite run_snoc, app_length in H. cbn [length] in H. replace (length l + 1 - 1) with (length l) in H by lia.
  rewrite firstn_app in H. pose proof (Nat.div_mod (length l) f ltac:(lia)) as Hdm. replace (f * (length l / f) - length l) with 0 in H by lia.
  cbn [firstn] in H. rewrite app_nil_r in H. cbn [dqn_learn d_old] in H. rewrite <- H. reflexivity.
Qed.

(** ** The C51 projection *)
Lemma qn_S n : (qn (S n) = qn n + 1)%Qc.
Proof. unfold qn. apply Qc_is_canon. rewrite this_plus, !this_Q2Qc. rewrite Nat2Z.inj_succ. unfold Z.succ. rewrite inject_Z_plus. reflexivity. Qed.
Lemma qn_0 : qn 0 = 0%Qc.
Proof. reflexivity. Qed.
Lemma qn_nonneg n : (0 <= qn n)%Qc.
Proof. induction n as [|n IH]; [rewrite qn_0; qclra|]. rewrite qn_S. qclra. Qed.

(** The hat function. *)
Definition hat (t : Qc) : Qc := clampq 0 1 (1 - qabs t).
Lemma clampq_cases lo hi x : (lo <= hi)%Qc ->
  (x <= lo)%Qc /\ clampq lo hi x = lo \/ (lo <= x)%Qc /\ (x <= hi)%Qc /\ clampq lo hi x = x \/ (hi <= x)%Qc /\ clampq lo hi x = hi.
Proof.
  intros H. unfold clampq, Qcminb, Qcmaxb. destruct (Qcleb_spec lo x).
  - destruct (Qcleb_spec hi x); [right; right; auto|right; left; split; [assumption|split; [qclra|reflexivity]]].
  - left. split; [qclra|]. destruct (Qcleb_spec hi lo); [apply Qcle_antisym; qclra|reflexivity].
Qed.
Lemma clamp01 x : (x <= 0)%Qc /\ clampq 0 1 x = 0%Qc \/ (0 <= x)%Qc /\ (x <= 1)%Qc /\ clampq 0 1 x = x \/ (1 <= x)%Qc /\ clampq 0 1 x = 1%Qc.
Proof. apply clampq_cases. discriminate. Qed.
Lemma hat_nonneg t : (0 <= hat t)%Qc.
Proof. unfold hat. destruct (clamp01 (1 - qabs t)) as [[H E]|[(H & H' & E)|[H E]]]; rewrite E; qclra. Qed.
Lemma hat_far t : (1 <= qabs t)%Qc -> hat t = 0%Qc.
Proof. intros F. unfold hat. destruct (clamp01 (1 - qabs t)) as [[H E]|[(H & H' & E)|[H E]]]; rewrite E; qclra. Qed.
Lemma hat_near t : (qabs t <= 1)%Qc -> hat t = (1 - qabs t)%Qc.
Proof.
  intros F. assert (0 <= qabs t)%Qc by (unfold qabs; destruct (Qcleb_spec 0 t); qclra).
  unfold hat. destruct (clamp01 (1 - qabs t)) as [[H1 E]|[(H1 & H' & E)|[H1 E]]]; rewrite E; qclra.
Qed.
Lemma qabs_pos t : (0 <= t)%Qc -> qabs t = t.
Proof. intros H. unfold qabs. destruct (Qcleb_spec 0 t); [reflexivity|qclra]. Qed.
Lemma qabs_neg t : (t <= 0)%Qc -> qabs t = (- t)%Qc.
Proof. intros H. unfold qabs. destruct (Qcleb_spec 0 t); [qclra|reflexivity]. Qed.

(** Sums of hats at [a, a+1, .., a+n]. *)
Lemma hats_zero (g : nat -> Qc) t n : forall a, (t <= qn a - 1)%Qc -> qsum (map (fun j => g j * hat (t - qn j))%Qc (seq a n)) = 0%Qc.
Proof.
  induction n as [|n IH]; intros a H; [reflexivity|]. cbn [seq map qsum]. rewrite IH by (rewrite qn_S; qclra).
  rewrite hat_far; [ring|]. rewrite qabs_neg by qclra. qclra.
Qed.
Lemma hats_sum t n : forall a, (qn a <= t)%Qc -> (t <= qn (a + n))%Qc ->
  qsum (map (fun j => hat (t - qn j))%Qc (seq a (S n))) = 1%Qc
  /\ qsum (map (fun j => qn j * hat (t - qn j))%Qc (seq a (S n))) = t.
Proof.
  induction n as [|n IH]; intros a H1 H2.
  - replace (a + 0) with a in H2 by lia. assert (t = qn a) as -> by (apply Qcle_antisym; assumption).
    cbn [seq map qsum]. rewrite hat_near; rewrite qabs_pos; try qclra. split; ring_simplify; ring.
  - change (seq a (S (S n))) with (a :: seq (S a) (S n)). cbn [map qsum].
    destruct (Qcleb_spec (qn (S a)) t) as [H|H].
    + destruct (IH (S a) H) as [S1 S2]; [replace (S a + n) with (a + S n) by lia; exact H2|]. rewrite S1, S2.
      rewrite qn_S in H. rewrite hat_far; [split; ring|]. rewrite qabs_pos by qclra. qclra.
    + change (seq (S a) (S n)) with (S a :: seq (S (S a)) n). cbn [map qsum].
      rewrite (hats_zero (fun j => qn j)) by (rewrite !qn_S in *; qclra).
      assert (Hz : qsum (map (fun j => hat (t - qn j)) (seq (S (S a)) n)) = 0%Qc).
      { transitivity (qsum (map (fun j => 1 * hat (t - qn j))%Qc (seq (S (S a)) n))).
        - f_equal. apply map_ext. intros j. ring.
        - apply (hats_zero (fun _ => 1%Qc)). rewrite !qn_S in *. qclra. }
      rewrite Hz, !qn_S in *.
      rewrite !hat_near; [rewrite qabs_pos, qabs_neg by qclra; split; ring| |]; [rewrite qabs_neg by qclra|rewrite qabs_pos by qclra]; qclra.
Qed.

Lemma qsum_map_plus {A} (f g : A -> Qc) l : qsum (map (fun x => f x + g x)%Qc l) = (qsum (map f l) + qsum (map g l))%Qc.
Proof. induction l as [|x l IH]; cbn [map qsum]; [ring|]. rewrite IH. ring. Qed.
Lemma qsum_map_scale {A} (c : Qc) (f : A -> Qc) l : qsum (map (fun x => f x * c)%Qc l) = (qsum (map f l) * c)%Qc.
Proof. induction l as [|x l IH]; cbn [map qsum]; [ring|]. rewrite IH. ring. Qed.
Lemma qsum_map_zero {A} (l : list A) : qsum (map (fun _ => 0%Qc) l) = 0%Qc.
Proof. induction l as [|x l IH]; cbn [map qsum]; [ring|]. rewrite IH. ring. Qed.
Lemma qsum_swap {A B} (f : A -> B -> Qc) l m :
  qsum (map (fun a => qsum (map (f a) m)) l) = qsum (map (fun b => qsum (map (fun a => f a b) l)) m).
Proof.
  induction l as [|a l IH]; cbn [map qsum]; [symmetry; apply qsum_map_zero|]. rewrite IH, <- qsum_map_plus. reflexivity.
Qed.
Lemma qsum_nonneg l : (forall x, In x l -> (0 <= x)%Qc) -> (0 <= qsum l)%Qc.
Proof.
  induction l as [|x l IH]; intros H; cbn [qsum]; [qclra|]. pose proof (H x (or_introl eq_refl)).
  specialize (IH (fun y Hy => H y (or_intror Hy))). qclra.
Qed.

(** C40.  The projection keeps non-negativity, total mass and mean (of the clamped atoms); its
    support has [num_atoms] points from v_min to v_max. *)
Lemma C40_projection_lemma : forall v_min v_max n returns p, (v_min < v_max)%Qc -> 1 < n -> length returns = length p ->
  let clamped := map (fun r => if Qcleb r v_min then v_min else if Qcleb v_max r then v_max else r) returns in
  let m := target_dist v_min v_max n returns p in
  length m = n
  /\ ((forall x, In x p -> (0 <= x)%Qc) -> forall x, In x m -> (0 <= x)%Qc)
  /\ qsum m = qsum p
  /\ qsum (map (fun zx => fst zx * snd zx)%Qc (combine (support v_min v_max n) m))
     = qsum (map (fun tp => fst tp * snd tp)%Qc (combine clamped p)).
Proof.
  intros v_min v_max n returns p Hv Hn Hl. cbv zeta. unfold target_dist.
  set (dz := delta_z v_min v_max n).
  assert (Hqn : (0 < qn (n - 1))%Qc) by (destruct n as [|[|n]]; try lia; replace (S (S n) - 1) with (S n) by lia; rewrite qn_S; pose proof (qn_nonneg n); qclra).
  assert (Hdz : (dz * qn (n - 1) = v_max - v_min)%Qc).
  { unfold dz, delta_z. field. intros E. rewrite E in Hqn. qclra. }
  assert (Hdz0 : (0 < dz)%Qc).
  { destruct (Qclt_le_dec 0 dz) as [F|F]; [exact F|]. exfalso. assert (dz * qn (n - 1) <= 0)%Qc by qcnra. qclra. }
  assert (Hdzn : dz <> 0%Qc) by (intros E; rewrite E in Hdz0; qclra).
  assert (Hc : map (clampq v_min v_max) returns = map (fun r => if Qcleb r v_min then v_min else if Qcleb v_max r then v_max else r) returns).
  { apply map_ext. intros r.
    destruct (clampq_cases v_min v_max r ltac:(qclra)) as [[H E]|[(H & H' & E)|[H E]]]; rewrite E;
      destruct (Qcleb_spec r v_min), (Qcleb_spec v_max r); try reflexivity; try (exfalso; qclra); apply Qcle_antisym; qclra. }
  rewrite Hc. set (cl := map _ returns).
  assert (Hcl : forall c, In c cl -> (v_min <= c)%Qc /\ (c <= v_max)%Qc).
  { intros c Hin. apply in_map_iff in Hin as (r & <- & _). destruct (Qcleb_spec r v_min); [split; qclra|]. destruct (Qcleb_spec v_max r); split; qclra. }
  assert (Hlc : length cl = length p) by (unfold cl; rewrite map_length; exact Hl).
  (* in units of dz *)
  assert (Hhat : forall c j, clampq 0 1 (1 - qabs (c - (v_min + qn j * dz)) / dz) = hat ((c - v_min) / dz - qn j)).
  { intros c j. unfold hat. f_equal. f_equal. f_equal.
    set (y := ((c - v_min) / dz - qn j)%Qc). assert (Ey : (c - (v_min + qn j * dz) = y * dz)%Qc) by (unfold y; field; exact Hdzn).
    rewrite Ey. unfold qabs. destruct (Qcleb_spec 0 (y * dz)) as [F|F], (Qcleb_spec 0 y) as [G|G]; try (exfalso; qcnra); field; exact Hdzn. }
  assert (Hsup : forall c, (v_min <= c)%Qc -> (c <= v_max)%Qc ->
     qsum (map (fun j => hat ((c - v_min) / dz - qn j)) (seq 0 n)) = 1%Qc
     /\ qsum (map (fun j => (v_min + qn j * dz) * hat ((c - v_min) / dz - qn j))%Qc (seq 0 n)) = c).
  { intros c C1 C2. set (t := ((c - v_min) / dz)%Qc). assert (Et : (t * dz = c - v_min)%Qc) by (unfold t; field; exact Hdzn).
    destruct (hats_sum t (n - 1) 0) as [S1 S2].
    - rewrite qn_0. destruct (Qclt_le_dec t 0) as [F|F]; [exfalso; qcnra|exact F].
    - cbn [Nat.add]. destruct (Qclt_le_dec (qn (n - 1)) t) as [F|F]; [exfalso; qcnra|exact F].
    - replace (S (n - 1)) with n in * by lia. split; [exact S1|].
      transitivity (qsum (map (fun j => hat (t - qn j) * v_min + (qn j * hat (t - qn j)) * dz)%Qc (seq 0 n))).
      + f_equal. apply map_ext. intros j. ring.
      + rewrite qsum_map_plus, !qsum_map_scale, S1, S2, Et. ring. }
  set (m := map _ (support v_min v_max n)).
  assert (Em : m = map (fun j => qsum (map (fun tp => (hat ((fst tp - v_min) / dz - qn j) * snd tp)%Qc) (combine cl p))) (seq 0 n)).
  { unfold m, support. rewrite map_map. apply map_ext. intros j. f_equal. apply map_ext. intros [c x]. cbn [fst snd]. rewrite <- Hhat. reflexivity. }
  split; [unfold m, support; rewrite !map_length; apply seq_length|]. split.
  { intros Hp x Hx. rewrite Em in Hx. apply in_map_iff in Hx as (j & <- & _). apply qsum_nonneg. intros y Hy.
    apply in_map_iff in Hy as ([c q] & <- & Hin). apply in_combine_r in Hin. cbn [fst snd].
    pose proof (hat_nonneg ((c - v_min) / dz - qn j)). specialize (Hp q Hin). qcnra. }
  split.
  - rewrite Em, qsum_swap. transitivity (qsum (map snd (combine cl p))).
    + f_equal. apply map_ext_in. intros [c q] Hin. cbn [fst snd]. rewrite qsum_map_scale.
      apply in_combine_l in Hin. destruct (Hcl c Hin) as [C1 C2]. destruct (Hsup c C1 C2) as [-> _]. ring.
    + f_equal. clear - Hlc. revert p Hlc. induction cl as [|c cl IH]; intros [|q p] H; try discriminate; [reflexivity|].
      cbn [combine map snd]. f_equal. apply IH. cbn in H. lia.
  - rewrite Em. transitivity (qsum (map (fun j => qsum (map (fun tp => ((v_min + qn j * dz) * hat ((fst tp - v_min) / dz - qn j) * snd tp)%Qc) (combine cl p))) (seq 0 n))).
    + f_equal. unfold support. rewrite <- (map_id (seq 0 n)) at 2. clear. induction (seq 0 n) as [|j l IH]; [reflexivity|].
      cbn [map combine fst snd]. f_equal; [|exact IH]. clear IH. rewrite Qcmult_comm, <- qsum_map_scale. f_equal. apply map_ext.
      intros tp. unfold dz. ring.
    + rewrite qsum_swap. f_equal. apply map_ext_in. intros [c q] Hin. cbn [fst snd]. rewrite qsum_map_scale.
      apply in_combine_l in Hin. destruct (Hcl c Hin) as [C1 C2]. destruct (Hsup c C1 C2) as [_ ->]. reflexivity.
Qed.

(** ** C51 with n-step returns *)

(** C70 (restricted to positions whose n-step return reaches the position itself: n = 1, or the
    last stored step of an episode).  The target of position [p] is the projection of the
    discounted atoms of its n-step return, weighted by the network's distribution at the
    observation from which that return bootstraps. *)
Lemma C70_own_step_partial_lemma : forall (Ob A Inf : Type) (r0 : Qc) radd (last_frame : Ob -> Ob) o n
    (b : buf Ob A Inf Qc) q rnd idx ps (dist : Ob -> list Qc) (on : nat -> Ob) v_min v_max atoms gamma N,
  0 < n -> reach r0 radd last_frame o n b q -> q <> [] ->
  sample_indices plain b rnd (Some 0%Z) = Ok idx ->
  (forall p, In p ps -> p < length q /\ nstep_reached q N p = p) -> ps <> [] -> 0 < N ->
  (forall p s, nth_error q p = Some s -> s_obs_next s = Some (on p)) ->
  c51_target dist (buf_view b) (map (fun p => Z.of_nat (nth p idx 0)) ps) v_min v_max atoms gamma N
  = Ok (map (fun p => target_dist v_min v_max atoms (nstep_target q gamma N p (support v_min v_max atoms))
                                  (dist (on (nstep_reached q N p)))) ps).
Proof.
  intros Ob A Inf r0 radd lf o n b q rnd idx ps dist on v_min v_max atoms gamma N Hn Hr Hne Hidx Hps Hpne HN Hon.
  unfold c51_target. rewrite map_length.
  rewrite (C23_nstep_buffer_lemma Ob A Inf r0 radd lf o n b q rnd idx ps _ gamma N Hn Hr Hne Hidx)
    by first [exact Hpne|exact HN|intros l; apply map_length|intros p Hp; apply (Hps p Hp)].
  cbn [bind].
  pose proof (reach_inv r0 radd lf o n b q Hr Hn) as Hi.
  destruct (inv_meta n b q Hi Hne) as [l El].
  pose proof (buf_iview n b q Hi Hne (reach_done _ _ _ _ _ _ _ Hr)) as V.
  assert (Eat : forall p, p < length q -> nth p idx 0 = pos (b_st b) p).
  { intros p Hp.
    destruct (sample_zero_ok n b q plain rnd Hi (Nat.lt_0_1)) as [E _]; [congruence|]. rewrite E in Hidx. injection Hidx as <-.
    unfold avail_positions. cbn [plain stack_num Nat.eqb orb]. rewrite filter_true by reflexivity.
    erewrite nth_error_nth; [reflexivity|]. rewrite nth_error_map_seq. destruct (Nat.ltb_spec p (length q)); [reflexivity|lia]. }
  destruct (column_at _ _ _ V s_obs_next None (fun x => Some (on (snd x)))) as (c & Ec & Hc).
  { intros [k p] s Es. cbn [fst snd] in *. destruct k as [|[|k]]; cbn [qat nth] in Es; [apply (Hon p s Es)|destruct p; discriminate Es|destruct p; discriminate Es]. }
  rewrite Ec. cbn [bind].
  assert (Em : mapM (zget c) (map (fun p => Z.of_nat (nth p idx 0)) ps) = Ok (map (fun p => Some (on p)) ps)).
  { clear - Hc Hps Eat. induction ps as [|p ps IH]; [reflexivity|]. cbn [map mapM].
    destruct (Hps p (or_introl eq_refl)) as [Hp _]. rewrite (Eat p Hp).
    rewrite (zget_nth_error c _ (Some (on p))).
    - cbn [bind]. rewrite IH by (intros p' Hp'; apply Hps; right; exact Hp'). reflexivity.
    - apply (Hc (0, p)). apply stored_iff. exact Hp. }
  rewrite Em. cbn [bind].
  assert (Ed : mapM (fun x : option Ob => match x with Some x => Ok (dist x) | None => Err AttributeError end) (map (fun p => Some (on p)) ps) = Ok (map (fun p => dist (on p)) ps)).
  { clear. induction ps as [|p ps IH]; [reflexivity|]. cbn [map mapM bind]. rewrite IH. reflexivity. }
  rewrite Ed. cbn [bind]. f_equal. clear - Hps.
  induction ps as [|p ps IH]; [reflexivity|]. cbn [map combine fst snd].
  destruct (Hps p (or_introl eq_refl)) as [_ Ep]. rewrite Ep. f_equal. apply IH. intros p' Hp'. apply Hps. right. exact Hp'.
Qed.

Definition c51_dist (ob : nat) : list Qc := if ob =? 3 then [0%Qc; 1%Qc] else [1%Qc; 0%Qc].

(** C70.  With two-step returns the atoms are discounted to the state two steps ahead but
    weighted by the distribution one step ahead. *)
Lemma C70_two_step_refuted_lemma : exists (b : buf nat nat unit Qc) q idx t,
  reach 0%Qc Qcplus (fun x => x) plain 4 b q /\ sample_indices plain b (fun _ => 0) (Some 0%Z) = Ok idx
  /\ nstep_reached q 2 0 = 1 /\ option_map s_obs_next (nth_error q 1) = Some (Some 3)
  /\ c51_target c51_dist (buf_view b) [Z.of_nat (nth 0 idx 0)] 0%Qc (qn 10) 2 1%Qc 2 = Ok [t]
  /\ t <> target_dist 0%Qc (qn 10) 2 (nstep_target q 1%Qc 2 0 (support 0%Qc (qn 10) 2)) (c51_dist 3).
Proof.
  exists (qbuf 4 [qt 1 false false; qt 2 false false; qt 3 false false]), (qqueue 4 [qt 1 false false; qt 2 false false; qt 3 false false]), [0; 1; 2].
  eexists. split; [apply qbuf_reach; lia|]. split; [vm_compute; reflexivity|]. split; [vm_compute; reflexivity|]. split; [vm_compute; reflexivity|].
  split; [vm_compute; reflexivity|]. intros E. apply (f_equal (map this)) in E. vm_compute in E. discriminate E.
Qed.
