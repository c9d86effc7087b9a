(** * Proofs about the trainers *)
From Verif Require Export TrainModel TrainSpec PyLemmas.
From Coq Require Import Qround.
From Coq Require Import Lqa Permutation.
From Verif Require Import SplitModel SplitProofs.
Open Scope Z_scope.

(** ** Rounding *)
Lemma Qfloor_spec q : (inject_Z (Qfloor q) <= q)%Q /\ (q < inject_Z (Qfloor q) + 1)%Q.
Proof.
  split; [apply Qfloor_le|]. pose proof (Qlt_floor q) as H. rewrite inject_Z_plus in H. exact H.
Qed.
Lemma pyround_spec q : let n := pyround q in
  (- (1 # 2) <= q - inject_Z n <= 1 # 2)%Q /\
  ((q - inject_Z n == 1 # 2)%Q \/ (q - inject_Z n == - (1 # 2))%Q -> Z.even n = true).
Proof.
  cbv zeta. unfold pyround. destruct (Qfloor_spec q) as [H1 H2].
  set (f := Qfloor q) in *. clearbody f.
  destruct (Qcompare_spec (q - inject_Z f) (1 # 2)) as [E|E|E].
  - destruct (Z.even f) eqn:Ev.
    + split; [|tauto]. rewrite E. split; lra.
    + rewrite inject_Z_plus. split; [change (inject_Z 1) with 1%Q; split; lra|].
      intros _. rewrite Z.even_add, Ev. reflexivity.
  - split; [split; lra|]. intros [H|H]; lra.
  - rewrite inject_Z_plus. change (inject_Z 1) with 1%Q. split; [split; lra|]. intros [H|H]; lra.
Qed.
(** The two conditions determine the integer. *)
Lemma round_unique q n m :
  (- (1 # 2) <= q - inject_Z n <= 1 # 2)%Q -> ((q - inject_Z n == 1 # 2)%Q \/ (q - inject_Z n == - (1 # 2))%Q -> Z.even n = true) ->
  (- (1 # 2) <= q - inject_Z m <= 1 # 2)%Q -> ((q - inject_Z m == 1 # 2)%Q \/ (q - inject_Z m == - (1 # 2))%Q -> Z.even m = true) ->
  n = m.
Proof.
  intros A1 A2 B1 B2.
  assert (D : (inject_Z n - inject_Z m <= inject_Z 1)%Q /\ (inject_Z m - inject_Z n <= inject_Z 1)%Q)
    by (change (inject_Z 1) with 1%Q; split; lra).
  unfold Qminus in D. rewrite <- !inject_Z_opp, <- !inject_Z_plus, <- !Zle_Qle in D.
  assert (n = m \/ n = m + 1 \/ m = n + 1) as [E|[E|E]] by lia; [exact E| |]; exfalso; subst.
  - rewrite inject_Z_plus in A1, A2. change (inject_Z 1) with 1%Q in *.
    assert (Z.even (m + 1) = true) by (apply A2; right; lra).
    assert (Z.even m = true) by (apply B2; left; lra).
    rewrite Z.even_add, H0 in H. discriminate H.
  - rewrite inject_Z_plus in B1, B2. change (inject_Z 1) with 1%Q in *.
    assert (Z.even (n + 1) = true) by (apply B2; right; lra).
    assert (Z.even n = true) by (apply A2; left; lra).
    rewrite Z.even_add, H0 in H. discriminate H.
Qed.
(** floor((len - 0.1) / b) = (len - 1) / b for integers. *)
Lemma floor_tenth len b : 0 < b -> Qfloor ((inject_Z len - (1 # 10)) / inject_Z b) = (len - 1) / b.
Proof.
  intros Hb. destruct (Qfloor_spec ((inject_Z len - (1 # 10)) / inject_Z b)) as [H1 H2].
  set (f := Qfloor _) in *. clearbody f.
  assert (Pb : (0 < inject_Z b)%Q) by (change 0%Q with (inject_Z 0); rewrite <- Zlt_Qlt; exact Hb).
  assert (Nb : ~ (inject_Z b == 0)%Q) by lra.
  assert (E : ((inject_Z len - (1 # 10)) / inject_Z b * inject_Z b == inject_Z len - (1 # 10))%Q) by (field; exact Nb).
  assert (L1 : (inject_Z f * inject_Z b <= inject_Z len - (1 # 10))%Q).
  { rewrite <- E. apply Qmult_le_compat_r; [exact H1|lra]. }
  assert (L2 : (inject_Z len - (1 # 10) < (inject_Z f + 1) * inject_Z b)%Q).
  { rewrite <- E. apply Qmult_lt_compat_r; [exact Pb|exact H2]. }
  assert (M1 : (inject_Z (f * b) < inject_Z len)%Q) by (rewrite inject_Z_mult; lra).
  assert (M2 : (inject_Z len < inject_Z ((f + 1) * b + 1))%Q).
  { rewrite inject_Z_plus, inject_Z_mult, inject_Z_plus. change (inject_Z 1) with 1%Q. lra. }
  rewrite <- Zlt_Qlt in M1, M2. clear - Hb M1 M2.
  apply (Z.div_unique_pos _ _ _ (len - 1 - b * f)); [|ring].
  assert (len < (f + 1) * b + 1) by exact M2. lia.
Qed.

(** ** Effects of the building blocks *)
Definition quiet (e : event) : bool :=
  match e with
  | EResetCollectors | ESaveBest | ESaveData _ _ _ | ETest TInit _ _ | ETest TStep _ _ => false
  | _ => true
  end.
Lemma upds_app a b : upds (a ++ b) = upds a + upds b.
Proof. unfold upds. rewrite filter_app, app_length. lia. Qed.

Lemma updates_eq n s :
  updates n s = mkS (s_start s) (s_epoch s) (s_iter s) (s_env s) (s_ep s) (s_grad s + Z.of_nat n) (s_best_epoch s) (s_best_score s)
    (s_best_reward s) (s_stop s) (s_test_in_train s) (s_nc s) (s_nt s) (s_ev s ++ repeat EUpdate n).
Proof.
  revert s; induction n as [|n IH]; intros s.
  - cbn [updates repeat]. rewrite app_nil_r, Z.add_0_r. destruct s; reflexivity.
  - cbn [updates]. rewrite IH. cbn. rewrite <- app_assoc. cbn [app].
    replace (s_grad s + 1 + Z.of_nat n) with (s_grad s + Z.of_nat (S n)) by lia. reflexivity.
Qed.
Lemma upds_repeat n : upds (repeat EUpdate n) = Z.of_nat n.
Proof. unfold upds. induction n as [|n IH]; cbn [repeat filter]; [reflexivity|]. cbn [length]. lia. Qed.
Lemma quiet_repeat n : forallb quiet (repeat EUpdate n) = true.
Proof. induction n; cbn; auto. Qed.

Section Proofs.
Variable c : config.
Variable collect : nat -> cstat.
Variable test : nat -> tstat.
Variable buflen : nat -> Z.

(** What one training step that does not raise does. *)
Record eff (s s' : st) (n : Z) (stop : bool) (l : list event) : Prop := mkEff {
  e_start : s_start s' = s_start s; e_epoch : s_epoch s' = s_epoch s; e_iter : s_iter s' = s_iter s;
  e_be : s_best_epoch s' = s_best_epoch s; e_stop : s_stop s' = s_stop s; e_tit : s_test_in_train s' = s_test_in_train s;
  e_ev : s_ev s' = s_ev s ++ l; e_quiet : forallb quiet l = true;
  e_nostop : stop = false -> s_best_score s' = s_best_score s /\ s_best_reward s' = s_best_reward s;
  e_stopped : stop = true -> upds l = 0 /\ exists f k, c_stop c = Some f /\ s_test_in_train s = true /\ In (ETest TTrain (s_epoch s) k) l /\ f (ts_raw_mean (test k)) = true
     /\ f (cs_mean (collect (s_nc s))) = true;
  e_train : c_train c = true ->
    s_nc s' = S (s_nc s) /\ n = cs_steps (collect (s_nc s)) /\ s_env s' = s_env s + n /\ s_ep s' = s_ep s + cs_eps (collect (s_nc s));
  e_notrain : c_train c = false -> n = 1 /\ s_nc s' = s_nc s /\ s_env s' = s_env s /\ s_ep s' = s_ep s /\ stop = false;
  e_grad : c_kind c <> Onpolicy -> s_grad s' = s_grad s + upds l;
  e_off : c_kind c = Offpolicy -> stop = false -> upds l = pyround (c_update_per_step c * inject_Z n) \/ upds l = 0 /\ pyround (c_update_per_step c * inject_Z n) < 0 }.

Lemma policy_update_ok s steps s' :
  policy_update c buflen s steps = (s', Ok tt) ->
  exists n g, s' = mkS (s_start s) (s_epoch s) (s_iter s) (s_env s) (s_ep s) g (s_best_epoch s) (s_best_score s)
    (s_best_reward s) (s_stop s) (s_test_in_train s) (s_nc s) (s_nt s) (s_ev s ++ repeat EUpdate n) /\
  (c_kind c <> Onpolicy -> g = s_grad s + Z.of_nat n) /\
  (c_kind c = Offpolicy -> n = Z.to_nat (pyround (c_update_per_step c * inject_Z steps))).
Proof.
  unfold policy_update. destruct (c_kind c) eqn:K.
  - destruct (c_buffer c) as [b|]; [|discriminate]. destruct (b <=? 0); [discriminate|].
    intros [= <-]. exists 1%nat, (s_grad s + 1). split; [reflexivity|]. split; [reflexivity|discriminate].
  - destruct (negb (c_train c)); [discriminate|].
    set (n := pyround _). destruct (n =? 0); [discriminate|].
    intros [= <-]. exists (Z.to_nat n), (s_grad s + Z.of_nat (Z.to_nat n)).
    rewrite updates_eq. auto.
  - destruct (negb (c_train c)); [discriminate|]. intros [= <-].
    destruct (c_batch c) as [b|]; [destruct (0 <? b)|]; cbn.
    all: eexists 1%nat, _; split; [reflexivity|split; [congruence|discriminate]].
Qed.

Lemma train_stop_ok s r s' b :
  train_stop c test s r = (s', Ok b) ->
  (b = false /\ s' = s) \/
  (exists f, c_stop c = Some f /\ s_test_in_train s = true /\ f (cs_mean r) = true /\
    let s1 := fst (test_episode test s TTrain (s_epoch s)) in let t := test (s_nt s) in
    (b = false /\ s' = s1 /\ f (ts_raw_mean t) = false \/
     b = true /\ s' = set_best s1 (s_best_epoch s) (ts_raw_score t) (ts_raw_mean t) /\ f (ts_raw_mean t) = true)).
Proof.
  unfold train_stop. destruct (c_stop c) as [f|] eqn:Hf; [|intros [= <- <-]; auto].
  destruct ((0 <? cs_eps r) && s_test_in_train s && f (cs_mean r)) eqn:C; [|intros [= <- <-]; auto].
  apply andb_true_iff in C. destruct C as [C C3]. apply andb_true_iff in C. destruct C as [_ C2].
  destruct (negb (c_test c)); [discriminate|].
  destruct (c_episode_per_test c) as [k|]; [|discriminate].
  destruct (negb (0 <? k)); [discriminate|].
  unfold test_episode. intros H. right. exists f. split; [reflexivity|]. split; [exact C2|]. split; [exact C3|].
  cbv zeta. cbn [fst]. destruct (f (ts_raw_mean (test (s_nt s)))) eqn:F; inversion H; subst; auto.
Qed.

Lemma training_step_eff s s' n stop :
  training_step c collect test buflen s = (s', Ok (n, stop)) -> exists l, eff s s' n stop l.
Proof.
  unfold training_step. destruct (c_train c) eqn:Tr.
  - unfold collect_training_data. destruct (c_episode_per_test c) as [ep|]; [|discriminate].
    cbn -[train_stop policy_update]. set (r := collect (s_nc s)).
    match goal with |- context [train_stop c test ?x r] => set (s1 := x) end.
    destruct (train_stop c test s1 r) as [s2 [b|]] eqn:TS; [|discriminate].
    assert (E1 : s_ev s1 = s_ev s ++ [ETrainFn (s_epoch s) (s_env s); ECollect (s_nc s)]) by (cbn; rewrite <- app_assoc; reflexivity).
    apply train_stop_ok in TS.
    destruct TS as [(-> & ->)|(f & Hf & Ht & Hm & TS)].
    + destruct (policy_update c buflen s1 (cs_steps r)) as [s3 [[]|]] eqn:PU; [|discriminate].
      intros [= <- <- <-]. apply policy_update_ok in PU. destruct PU as (k & g & -> & G1 & G2).
      exists ([ETrainFn (s_epoch s) (s_env s); ECollect (s_nc s)] ++ repeat EUpdate k).
      constructor; try reflexivity; cbn [s_ev s_nc s_env s_ep s_grad s_best_score s_best_reward].
      * rewrite E1, <- app_assoc. reflexivity.
      * rewrite forallb_app, quiet_repeat. reflexivity.
      * split; reflexivity.
      * discriminate.
      * intros _. repeat split.
      * congruence.
      * intros K. rewrite G1 by exact K. rewrite upds_app, upds_repeat. reflexivity.
      * intros K _. rewrite upds_app, upds_repeat, G2 by exact K. fold r. cbn [upds filter length].
        change (upds _) with 0. destruct (Z_lt_le_dec (pyround (c_update_per_step c * inject_Z (cs_steps r))) 0); [right|left]; lia.
    + cbv zeta in TS. destruct TS as [(-> & -> & F)|(-> & -> & F)].
      * destruct (policy_update c buflen _ (cs_steps r)) as [s3 [[]|]] eqn:PU; [|discriminate].
        intros [= <- <- <-]. apply policy_update_ok in PU. destruct PU as (k & g & -> & G1 & G2).
        exists ([ETrainFn (s_epoch s) (s_env s); ECollect (s_nc s); ETest TTrain (s_epoch s) (s_nt s)] ++ repeat EUpdate k).
        constructor; try reflexivity; cbn [s_ev s_nc s_env s_ep s_grad s_best_score s_best_reward].
        -- cbn. rewrite <- !app_assoc. reflexivity.
        -- rewrite forallb_app, quiet_repeat. reflexivity.
        -- split; reflexivity.
        -- discriminate.
        -- intros _. repeat split.
        -- congruence.
        -- intros K. rewrite G1 by exact K. rewrite upds_app, upds_repeat. reflexivity.
        -- intros K _. rewrite upds_app, upds_repeat, G2 by exact K. fold r.
           change (upds _) with 0. destruct (Z_lt_le_dec (pyround (c_update_per_step c * inject_Z (cs_steps r))) 0); [right|left]; lia.
      * intros [= <- <- <-].
        exists [ETrainFn (s_epoch s) (s_env s); ECollect (s_nc s); ETest TTrain (s_epoch s) (s_nt s)].
        constructor; try reflexivity; try discriminate; cbn.
        -- rewrite <- !app_assoc. reflexivity.
        -- split; [reflexivity|]. exists f, (s_nt s). cbn in Ht, F, Hm. fold r. auto 10.
        -- auto.
        -- congruence.
        -- intros _. change (upds _) with 0. lia.
  - destruct (c_buffer c); [|discriminate].
    destruct (policy_update c buflen s 0) as [s3 [[]|]] eqn:PU; [|discriminate].
    intros [= <- <- <-].
    assert (K' : c_kind c <> Offpolicy).
    { intros K. unfold policy_update in PU. rewrite K, Tr in PU. discriminate PU. }
    apply policy_update_ok in PU. destruct PU as (k & g & -> & G1 & G2).
    exists (repeat EUpdate k).
    constructor; try reflexivity; cbn [s_ev s_nc s_env s_ep s_grad s_best_score s_best_reward].
    + apply quiet_repeat.
    + split; reflexivity.
    + discriminate.
    + congruence.
    + auto.
    + intros K. rewrite G1 by exact K. rewrite upds_repeat. reflexivity.
    + intros K. contradiction.
Qed.

(** ** The loop of an epoch *)
Lemma sumz_S f a n : sumz f a (S n) = f a + sumz f (S a) n.
Proof. reflexivity. Qed.
Definition steps (k : nat) : Z := cs_steps (collect k).
Definition ups (k : nat) : Z := Z.max 0 (pyround (c_update_per_step c * inject_Z (cs_steps (collect k)))).
Definition stop_ok (s : st) : Prop := exists f, c_stop c = Some f /\ f (s_best_reward s) = true.
Notation train_stopped := (train_stopped c test).

Record leff (dn : Z) (s s' : st) (m : nat) (l : list event) : Prop := mkLeff {
  l_start : s_start s' = s_start s; l_epoch : s_epoch s' = s_epoch s; l_iter : s_iter s' = s_iter s;
  l_be : s_best_epoch s' = s_best_epoch s; l_tit : s_test_in_train s' = s_test_in_train s;
  l_ev : s_ev s' = s_ev s ++ l; l_quiet : forallb quiet l = true;
  l_best : s_stop s' = false -> s_best_score s' = s_best_score s /\ s_best_reward s' = s_best_reward s;
  l_stop : s_stop s' = true -> (0 < m)%nat /\ train_stopped l /\ s_test_in_train s = true /\ stop_ok s';
  l_train : c_train c = true ->
    s_nc s' = (s_nc s + m)%nat /\ s_env s' = s_env s + sumz steps (s_nc s) m /\
    s_ep s' = s_ep s + sumz (fun k => cs_eps (collect k)) (s_nc s) m /\
    (forall j, (j < m)%nat -> dn + sumz steps (s_nc s) j < c_step_per_epoch c) /\
    (s_stop s' = false -> c_step_per_epoch c <= dn + sumz steps (s_nc s) m);
  l_notrain : c_train c = false -> s_nc s' = s_nc s /\ s_env s' = s_env s /\ s_ep s' = s_ep s /\ s_stop s' = false /\
    (c_kind c = Offline -> upds l = Z.max 0 (c_step_per_epoch c - dn));
  l_grad : c_kind c <> Onpolicy -> s_grad s' = s_grad s + upds l;
  l_off : c_kind c = Offpolicy -> upds l = sumz ups (s_nc s) (if s_stop s' then pred m else m) }.

Lemma training_step_best s s' n :
  training_step c collect test buflen s = (s', Ok (n, true)) -> stop_ok s'.
Proof.
  unfold training_step. destruct (c_train c) eqn:Tr.
  - unfold collect_training_data. destruct (c_episode_per_test c) as [ep|]; [|discriminate].
    cbn -[train_stop policy_update].
    match goal with |- context [train_stop c test ?x ?r] => set (s1 := x); destruct (train_stop c test s1 r) as [s2 [[]|]] eqn:TS end; [| |discriminate].
    + intros [= <- <-]. apply train_stop_ok in TS. destruct TS as [(TS & _)|(f & Hf & Ht & Hm & TS)]; [discriminate TS|].
      cbv zeta in TS. destruct TS as [(TS & _)|(_ & -> & F)]; [discriminate TS|].
      exists f. split; [exact Hf|exact F].
    + destruct (policy_update c buflen s2 _) as [s3 [[]|]]; discriminate.
  - destruct (c_buffer c); [|discriminate].
    destruct (policy_update c buflen s 0) as [s3 [[]|]]; discriminate.
Qed.

Lemma training_step_offline s s' n stop :
  c_train c = false -> c_kind c = Offline ->
  training_step c collect test buflen s = (s', Ok (n, stop)) -> s_ev s' = s_ev s ++ [EUpdate].
Proof.
  intros Tr K. unfold training_step, policy_update. rewrite Tr, K.
  destruct (c_buffer c) as [b|]; [|discriminate]. destruct (b <=? 0); [discriminate|].
  intros [= <- <- <-]. reflexivity.
Qed.

Lemma epoch_loop_eff fuel dn s s' :
  s_stop s = false ->
  epoch_loop c collect test buflen fuel dn s = (s', Ok tt) -> exists m l, leff dn s s' m l.
Proof.
  revert dn s; induction fuel as [|fuel IH]; intros dn s St.
  - cbn [epoch_loop]. rewrite St. cbn [negb]. rewrite andb_true_r.
    destruct (dn <? c_step_per_epoch c) eqn:L; [discriminate|]. intros [= <-].
    exists 0%nat, []. constructor; try reflexivity; try congruence; try (intros; rewrite St; reflexivity).
    + rewrite app_nil_r; reflexivity.
    + auto.
    + intros _. unfold sumz; cbn. repeat split; lia.
    + intros _. repeat split; try exact St. intros _. unfold upds; cbn. lia.
    + intros _. unfold upds; cbn. lia.
  - cbn [epoch_loop]. rewrite St. cbn [negb]. rewrite andb_true_r.
    destruct (dn <? c_step_per_epoch c) eqn:L.
    + destruct (training_step c collect test buflen s) as [s1 [[n stop]|]] eqn:TS; [|discriminate].
      pose proof (training_step_eff _ _ _ _ TS) as (l & Ef).
      destruct stop.
      * intros H. exists 1%nat, l.
        assert (S' : s' = set_stop s1 true).
        { destruct fuel; cbn [epoch_loop s_stop set_stop negb] in H; rewrite andb_false_r in H; inversion H; reflexivity. }
        clear H IH. subst s'. pose proof (training_step_best _ _ _ TS) as SB.
        destruct Ef as [E1 E2 E3 E4 E5 E6 E7 E8 E9 E10 E11 E12 E13 E14].
        destruct (E10 eq_refl) as (U0 & f & k & Hf & Ht & Hin & Fk & _).
        constructor; cbn [set_stop s_start s_epoch s_iter s_best_epoch s_test_in_train s_ev s_stop s_best_score s_best_reward s_nc s_env s_ep s_grad]; auto.
        -- intros _. split; [lia|]. split; [exists f, (s_epoch s), k; auto|]. split; [exact Ht|exact SB].
        -- intros Tr. destruct (E11 Tr) as (A1 & A2 & A3 & A4). rewrite A1, A3, A4, A2. unfold sumz, steps; cbn.
           repeat split; try lia. intros j Hj. assert (j = 0%nat) by lia. subst j. cbn. lia.
        -- intros Tr. destruct (E12 Tr) as (_ & _ & _ & _ & X). discriminate X.
      * intros H. apply IH in H; [|reflexivity]. destruct H as (m & l2 & Lf).
        exists (S m), (l ++ l2).
        destruct Ef as [E1 E2 E3 E4 E5 E6 E7 E8 E9 E10 E11 E12 E13 E14].
        destruct Lf as [L1 L2 L3 L4 L5 L6 L7 L8 L9 L10 L11 L12 L13].
        cbn [set_stop s_start s_epoch s_iter s_best_epoch s_test_in_train s_ev s_stop s_best_score s_best_reward s_nc s_env s_ep s_grad] in *.
        destruct (E9 eq_refl) as (B1 & B2).
        constructor; try congruence.
        -- rewrite L6, E7, app_assoc. reflexivity.
        -- rewrite forallb_app, E8, L7. reflexivity.
        -- intros H. destruct (L8 H). split; congruence.
        -- intros H. destruct (L9 H) as (_ & (f & e & k & Q1 & Q2 & Q3) & T & K). split; [lia|]. split; [|split; [congruence|exact K]].
           exists f, e, k. split; [exact Q1|]. split; [apply in_or_app; auto|exact Q3].
        -- intros Tr. destruct (E11 Tr) as (A1 & A2 & A3 & A4). destruct (L10 Tr) as (C1 & C2 & C3 & C4 & C5).
           rewrite A1 in *. rewrite !sumz_S. fold (steps (s_nc s)) in A2.
           split; [lia|]. split; [lia|]. split; [lia|]. split.
           ++ intros [|j] Hj; [unfold sumz; cbn; lia|]. rewrite sumz_S. specialize (C4 j). lia.
           ++ intros H. specialize (C5 H). lia.
        -- intros Tr. destruct (E12 Tr) as (A1 & A2 & A3 & A4 & _). destruct (L11 Tr) as (C1 & C2 & C3 & C4 & C5).
           split; [congruence|]. split; [congruence|]. split; [congruence|]. split; [exact C4|].
           intros K. specialize (C5 K). rewrite upds_app.
           assert (l = [EUpdate]) as ->.
           { pose proof (training_step_offline _ _ _ _ Tr K TS) as X. rewrite E7 in X. apply app_inv_head in X. exact X. }
           change (upds [EUpdate]) with 1. lia.
        -- intros K. rewrite upds_app. specialize (E13 K). specialize (L12 K). lia.
        -- intros K. rewrite upds_app, (L13 K).
           assert (Tr : c_train c = true).
           { destruct (c_train c) eqn:Tr; [reflexivity|]. exfalso. unfold training_step, policy_update in TS.
             rewrite Tr, K in TS. destruct (c_buffer c); discriminate TS. }
           destruct (E11 Tr) as (A1 & A2 & A3 & A4). rewrite A1.
           assert (U : upds l = ups (s_nc s)).
           { unfold ups. destruct (E14 K eq_refl) as [U|[U1 U2]].
             - rewrite A2 in U. assert (0 <= upds l) by (unfold upds; lia). lia.
             - rewrite A2 in U2. lia. }
           rewrite U. destruct (s_stop s') eqn:S'.
           ++ destruct (L9 eq_refl) as (M & _).
              destruct m as [|m]; [lia|]. cbn [pred]. rewrite sumz_S. reflexivity.
           ++ rewrite sumz_S. reflexivity.
    + intros [= <-].
      exists 0%nat, []. constructor; try reflexivity; try congruence; try (intros; rewrite St; reflexivity).
      * rewrite app_nil_r; reflexivity.
      * auto.
      * intros _. unfold sumz; cbn. repeat split; lia.
      * intros _. repeat split; try exact St. intros _. unfold upds; cbn. lia.
      * intros _. unfold upds; cbn. lia.
Qed.

(** ** One epoch *)
Notation next := (next c collect test buflen).
Notation run_loop := (run_loop c collect test buflen).
Definition offline_env (s1 : st) : st :=
  if c_train c then s1
  else match c_buffer c with
       | None => s1
       | Some n => set_env s1 (s_grad s1 * match c_batch c with Some b => if b =? 0 then n else b | None => n end)
       end.
Lemma training_step_not_stopiter s s' : training_step c collect test buflen s <> (s', Err StopIteration).
Proof.
  unfold training_step, policy_update. destruct (c_train c) eqn:Tr.
  - unfold collect_training_data. destruct (c_episode_per_test c) as [ep|] eqn:EP; [|discriminate].
    cbn -[train_stop updates].
    match goal with |- context [train_stop c test ?x ?r] => set (s1 := x); set (r1 := r) end.
    assert (N : forall x, train_stop c test s1 r1 <> (x, Err StopIteration)).
    { intros x. unfold train_stop. rewrite EP. destruct (c_stop c) as [f|]; [|discriminate].
      destruct (_ && _); [|discriminate]. destruct (negb (c_test c)); [discriminate|].
      destruct (negb (0 <? ep)); [discriminate|]. unfold test_episode. destruct (f _); discriminate. }
    destruct (train_stop c test s1 r1) as [s2 [[]|e]].
    + discriminate.
    + destruct (c_kind c).
      * destruct (c_buffer c) as [b|]; [destruct (b <=? 0)|]; discriminate.
      * destruct (_ =? 0); discriminate.
      * discriminate.
    + intros [= -> ->]. eapply N; reflexivity.
  - destruct (c_buffer c) as [b|]; [|discriminate]. destruct (c_kind c).
    + destruct (b <=? 0); discriminate.
    + cbn. discriminate.
    + cbn. discriminate.
Qed.
Lemma epoch_loop_not_stopiter fuel dn s s' : epoch_loop c collect test buflen fuel dn s <> (s', Err StopIteration).
Proof.
  revert dn s; induction fuel as [|fuel IH]; intros dn s; cbn [epoch_loop].
  - destruct (_ && _); discriminate.
  - destruct (_ && _); [|discriminate].
    pose proof (training_step_not_stopiter s) as N.
    destruct (training_step c collect test buflen s) as [s1 [[n stop]|e]]; [apply IH|].
    intros [= -> ->]. eapply N; reflexivity.
Qed.

Lemma next_ok fuel s s' e :
  (s_iter s <= 0 -> s_stop s = false) ->
  next fuel s = (s', Ok e) ->
  e = s_epoch s + 1 /\ (0 < s_iter s -> s_epoch s + 1 <= c_max_epoch c /\ s_stop s = false) /\ 0 < c_step_per_epoch c /\
  exists s1 m l, leff 0 (set_epoch s (s_epoch s + 1) (s_iter s + 1)) s1 m l /\
    (let s2 := offline_env s1 in
     if s_stop s1 then s' = s2
     else let s3 := emit s2 (ESaveData e (s_env s2) (s_grad s2)) in
          if c_test c then exists b s4, test_step c test s3 = (s4, Ok b) /\ s' = set_stop s4 b
          else s' = s3).
Proof.
  intros Hst. unfold TrainModel.next.
  set (s0 := set_epoch s (s_epoch s + 1) (s_iter s + 1)).
  destruct ((1 <? s_iter s0) && (c_max_epoch c <? s_epoch s0)) eqn:C1; [discriminate|].
  destruct ((1 <? s_iter s0) && s_stop s0) eqn:C2; [discriminate|].
  cbn [s0 set_epoch s_iter s_epoch s_stop] in C1, C2.
  assert (St : s_stop s = false) by (destruct (s_stop s) eqn:S; [|reflexivity]; rewrite andb_true_r in C2; apply Hst; lia).
  assert (CC : 0 < s_iter s -> s_epoch s + 1 <= c_max_epoch c /\ s_stop s = false) by (intros; split; [lia|exact St]).
  destruct (epoch_loop c collect test buflen fuel 0 s0) as [s1 [[]|]] eqn:EL; [|discriminate].
  apply epoch_loop_eff in EL; [|exact St]. destruct EL as (m & l & Lf).
  set (env' := if c_train c then Ok s1 else _).
  assert (Hv : env' = Err AssertionError \/ env' = Ok (offline_env s1)).
  { unfold env', offline_env. destruct (c_train c); [auto|]. destruct (c_buffer c); auto. }
  clearbody env'. destruct Hv as [->| ->]; [discriminate|].
  assert (Ep : s_epoch (offline_env s1) = s_epoch s + 1).
  { unfold offline_env. destruct (c_train c); [apply (l_epoch _ _ _ _ _ Lf)|]. destruct (c_buffer c); apply (l_epoch _ _ _ _ _ Lf). }
  assert (Sp : s_stop (offline_env s1) = s_stop s1) by (unfold offline_env; destruct (c_train c); [|destruct (c_buffer c)]; reflexivity).
  rewrite Sp, Ep. clear Sp.
  intros H.
  assert (X : forall a b, (if c_step_per_epoch c <=? 0 then (a, Err RuntimeError) else (a, Ok b)) = (s', Ok e) -> 0 < c_step_per_epoch c /\ a = s' /\ b = e).
  { intros a b. destruct (Z.leb_spec (c_step_per_epoch c) 0); [discriminate|]. intros [= -> ->]. auto. }
  destruct (s_stop s1) eqn:S1.
  - apply X in H. destruct H as (P & E1 & E2).
    split; [congruence|]. split; [exact CC|]. split; [exact P|]. exists s1, m, l. split; [exact Lf|]. cbv zeta. rewrite S1. congruence.
  - cbv zeta in H. destruct (c_test c) eqn:CT.
    + destruct (test_step c test _) as [s4 [b|]] eqn:TS; [|discriminate].
      apply X in H. destruct H as (P & E1 & E2).
      assert (s_epoch s4 = s_epoch s + 1).
      { revert TS. unfold test_step. destruct (c_episode_per_test c); [|discriminate].
        unfold test_episode. cbn -[Qcltb]. destruct (_ || _); [destruct (c_save_best c)|]; intros [= <- <-]; exact Ep. }
      assert (Ee : e = s_epoch s + 1) by (rewrite <- E2; exact H). rewrite Ee.
      split; [reflexivity|]. split; [exact CC|]. split; [exact P|]. exists s1, m, l. split; [exact Lf|]. cbv zeta. rewrite S1.
      exists b, s4. split; [exact TS|congruence].
    + apply X in H. destruct H as (P & E1 & E2).
      assert (Ee : e = s_epoch s + 1) by (rewrite <- E2; exact Ep). rewrite Ee.
      split; [reflexivity|]. split; [exact CC|]. split; [exact P|]. exists s1, m, l. split; [exact Lf|]. cbv zeta. rewrite S1. congruence.
Qed.
Lemma next_stop fuel s s' :
  next fuel s = (s', Err StopIteration) ->
  0 < s_iter s /\ s' = set_epoch s (s_epoch s + 1) (s_iter s + 1) /\ (c_max_epoch c < s_epoch s + 1 \/ s_stop s = true).
Proof.
  unfold TrainModel.next. set (s0 := set_epoch s (s_epoch s + 1) (s_iter s + 1)).
  destruct ((1 <? s_iter s0) && (c_max_epoch c <? s_epoch s0)) eqn:C1.
  { intros [= <-]. cbn in C1. split; [lia|]. split; [reflexivity|]. left; lia. }
  destruct ((1 <? s_iter s0) && s_stop s0) eqn:C2.
  { intros [= <-]. cbn in C2. split; [lia|]. split; [reflexivity|]. right. destruct (s_stop s); [reflexivity|lia]. }
  pose proof (epoch_loop_not_stopiter fuel 0 s0) as N.
  destruct (epoch_loop c collect test buflen fuel 0 s0) as [s1 [[]|e]]; [|intros [= -> ->]; exfalso; eapply N; reflexivity].
  set (env' := if c_train c then Ok s1 else _).
  assert (Hv : env' = Err AssertionError \/ exists y, env' = Ok y).
  { unfold env'. destruct (c_train c); [eauto|]. destruct (c_buffer c); eauto. }
  clearbody env'. destruct Hv as [->|[y ->]]; [discriminate|].
  destruct (s_stop y).
  - destruct (c_step_per_epoch c <=? 0); discriminate.
  - cbv zeta. destruct (c_test c).
    + assert (TN : forall z w, test_step c test z <> (w, Err StopIteration)).
      { intros z w. unfold test_step. destruct (c_episode_per_test c); [|discriminate]. unfold test_episode. discriminate. }
      destruct (test_step c test _) as [s4 [b|e]] eqn:TS.
      * destruct (c_step_per_epoch c <=? 0); discriminate.
      * intros [= -> ->]. exfalso. eapply TN; exact TS.
    + destruct (c_step_per_epoch c <=? 0); discriminate.
Qed.

(** What an epoch does to the bookkeeping. *)
Lemma test_step_eff s s' b :
  test_step c test s = (s', Ok b) ->
  s_start s' = s_start s /\ s_epoch s' = s_epoch s /\ s_iter s' = s_iter s /\ s_env s' = s_env s /\ s_ep s' = s_ep s /\ s_grad s' = s_grad s /\
  s_nc s' = s_nc s /\ s_test_in_train s' = s_test_in_train s /\ (b = true -> stop_ok s') /\
  (let t := test (s_nt s) in
   if (s_best_epoch s <? 0) || Qcltb (s_best_score s) (ts_score t) then
     s_best_epoch s' = s_epoch s /\ s_best_score s' = ts_score t /\ s_best_reward s' = ts_mean t /\
     s_ev s' = s_ev s ++ ETest TStep (s_epoch s) (s_nt s) :: (if c_save_best c then [ESaveBest] else [])
   else
     s_best_epoch s' = s_best_epoch s /\ s_best_score s' = s_best_score s /\ s_best_reward s' = s_best_reward s /\
     s_ev s' = s_ev s ++ [ETest TStep (s_epoch s) (s_nt s)]).
Proof.
  unfold test_step. destruct (c_episode_per_test c); [|discriminate]. unfold test_episode. cbn -[Qcltb].
  destruct ((s_best_epoch s <? 0) || Qcltb (s_best_score s) (ts_score (test (s_nt s)))) eqn:C.
  - destruct (c_save_best c); intros [= <- <-]; cbn -[Qcltb].
    all: repeat (split; [first [reflexivity | (destruct (c_stop c) as [f|] eqn:F; [intros Hf; exists f; auto|discriminate])]|]).
    all: rewrite <- ?app_assoc; reflexivity.
  - intros [= <- <-]; cbn -[Qcltb].
    repeat (split; [first [reflexivity | (destruct (c_stop c) as [f|] eqn:F; [intros Hf; exists f; auto|discriminate])]|]).
    reflexivity.
Qed.
Lemma offline_env_eq s : let s' := offline_env s in
  s_start s' = s_start s /\ s_epoch s' = s_epoch s /\ s_iter s' = s_iter s /\ s_ep s' = s_ep s /\ s_grad s' = s_grad s /\
  s_best_epoch s' = s_best_epoch s /\ s_best_score s' = s_best_score s /\ s_best_reward s' = s_best_reward s /\ s_stop s' = s_stop s /\
  s_nc s' = s_nc s /\ s_nt s' = s_nt s /\ s_test_in_train s' = s_test_in_train s /\ s_ev s' = s_ev s /\ (c_train c = true -> s' = s).
Proof. cbv zeta. unfold offline_env. destruct (c_train c); [|destruct (c_buffer c)]; repeat split; congruence. Qed.
Lemma next_book fuel s s' e :
  (s_iter s <= 0 -> s_stop s = false) ->
  next fuel s = (s', Ok e) ->
  s_start s' = s_start s /\ s_epoch s' = s_epoch s + 1 /\ s_iter s' = s_iter s + 1 /\ s_test_in_train s' = s_test_in_train s /\
  (s_stop s' = true -> stop_ok s') /\
  exists m l, s_ev s' = s_ev s ++ l /\ ~ In EResetCollectors l /\
    (c_train c = true -> s_nc s' = (s_nc s + m)%nat /\ s_env s' = s_env s + sumz steps (s_nc s) m /\
       s_ep s' = s_ep s + sumz (fun k => cs_eps (collect k)) (s_nc s) m) /\
    (c_kind c <> Onpolicy -> s_grad s' = s_grad s + upds l).
Proof.
  intros Hst H. destruct (next_ok _ _ _ _ Hst H) as (He & _ & _ & s1 & m & l & Lf & T). clear H.
  destruct (offline_env_eq s1) as (O1 & O2 & O3 & O4 & O5 & O6 & O7 & O8 & O9 & O10 & O11 & O12 & O13 & O14).
  assert (QR : ~ In EResetCollectors l).
  { intros Hin. pose proof (l_quiet _ _ _ _ _ Lf) as Q. rewrite forallb_forall in Q. specialize (Q _ Hin). discriminate Q. }
  destruct Lf as [L1 L2 L3 L4 L5 L6 L7 L8 L9 L10 L11 L12 L13].
  cbn [set_epoch s_start s_epoch s_iter s_best_epoch s_test_in_train s_ev s_stop s_best_score s_best_reward s_nc s_env s_ep s_grad] in *.
  cbv zeta in T. destruct (s_stop s1) eqn:S1.
  - subst s'. repeat (split; [congruence|]).
    split; [intros _; destruct (L9 eq_refl) as (_ & _ & _ & f & F1 & F2); exists f; split; [exact F1|congruence]|].
    exists m, l. split; [congruence|]. split; [exact QR|]. split.
    + intros Tr. rewrite (O14 Tr). destruct (L10 Tr) as (A1 & A2 & A3 & _). auto.
    + intros K. rewrite O5. auto.
  - destruct (c_test c).
    + destruct T as (b & s4 & TS & ->). apply test_step_eff in TS.
      cbn [emit s_start s_epoch s_iter s_best_epoch s_test_in_train s_ev s_stop s_best_score s_best_reward s_nc s_nt s_env s_ep s_grad] in TS.
      destruct TS as (T1 & T2 & T3 & T4 & T5 & T6 & T7 & T8 & T9 & T10).
      cbn [set_stop s_start s_epoch s_iter s_best_epoch s_test_in_train s_ev s_stop s_best_score s_best_reward s_nc s_env s_ep s_grad].
      repeat (split; [congruence|]). split; [exact T9|].
      assert (Ev : exists l2, s_ev s4 = s_ev s ++ l ++ l2 /\ ~ In EResetCollectors l2 /\ upds l2 = 0).
      { rewrite O13, L6 in T10. cbv zeta in T10. destruct (_ || _); destruct T10 as (_ & _ & _ & T10); rewrite T10, <- !app_assoc; eexists; (split; [reflexivity|]).
        - destruct (c_save_best c); (split; [cbn; intuition discriminate|reflexivity]).
        - split; [cbn; intuition discriminate|reflexivity]. }
      destruct Ev as (l2 & Ev & QR2 & U2). exists m, (l ++ l2).
      split; [exact Ev|]. split; [rewrite in_app_iff; tauto|]. split.
      * intros Tr. destruct (L10 Tr) as (A1 & A2 & A3 & _). rewrite T4, T5, T7, (O14 Tr). auto.
      * intros K. rewrite upds_app, U2, T6, O5, (L12 K). lia.
    + subst s'. cbn [emit s_start s_epoch s_iter s_best_epoch s_test_in_train s_ev s_stop s_best_score s_best_reward s_nc s_env s_ep s_grad].
      repeat (split; [congruence|]).
      exists m, (l ++ [ESaveData e (s_env (offline_env s1)) (s_grad (offline_env s1))]).
      split; [rewrite O13, L6, app_assoc; reflexivity|].
      split; [rewrite in_app_iff; cbn; intuition discriminate|]. split.
      * intros Tr. destruct (L10 Tr) as (A1 & A2 & A3 & _). rewrite (O14 Tr). auto.
      * intros K. rewrite upds_app. replace (upds [ESaveData e (s_env (offline_env s1)) (s_grad (offline_env s1))]) with 0 by reflexivity. rewrite O5, (L12 K). lia.
Qed.

(** ** The whole run *)
Lemma sumz_add f a n m : sumz f a (n + m) = sumz f a n + sumz f (a + n) m.
Proof.
  revert a; induction n as [|n IH]; intros a; cbn [Nat.add].
  - rewrite Nat.add_0_r. reflexivity.
  - rewrite !sumz_S, IH. replace (S a + n)%nat with (a + S n)%nat by lia. lia.
Qed.
Lemma run_loop_book fuel n s s' l :
  0 <= s_iter s -> (s_iter s <= 0 -> s_stop s = false) -> (s_stop s = true -> stop_ok s) ->
  run_loop fuel n s = (s', Ok l) ->
  s_start s' = s_start s /\
  l = map (fun i => s_epoch s + 1 + Z.of_nat i) (seq 0 (length l)) /\
  (s_iter s = 0 -> (1 <= length l)%nat) /\
  Z.of_nat (length l) <= Z.max (if s_iter s =? 0 then 1 else 0) (c_max_epoch c - s_epoch s) /\
  (Z.of_nat (length l) < c_max_epoch c - s_epoch s -> s_stop s' = true) /\
  (s_stop s' = true -> stop_ok s') /\
  exists m ev, s_ev s' = s_ev s ++ ev /\ ~ In EResetCollectors ev /\
    (c_train c = true -> s_nc s' = (s_nc s + m)%nat /\ s_env s' = s_env s + sumz steps (s_nc s) m /\
       s_ep s' = s_ep s + sumz (fun k => cs_eps (collect k)) (s_nc s) m) /\
    (c_kind c <> Onpolicy -> s_grad s' = s_grad s + upds ev).
Proof.
  revert s l; induction n as [|n IH]; intros s l Hi Hst Hok; cbn [TrainModel.run_loop]; [discriminate|].
  destruct (next fuel s) as [s1 [e|e]] eqn:N.
  - destruct (run_loop fuel n s1) as [s2 [l2|]] eqn:R; [|discriminate].
    intros [= <- <-].
    pose proof (next_ok _ _ _ _ Hst N) as (He & Hc & _).
    destruct (next_book _ _ _ _ Hst N) as (N1 & N2 & N3 & N4 & N5 & m & ev & N6 & N7 & N8 & N9).
    apply IH in R; [|lia|intros; lia|exact N5].
    destruct R as (R1 & R2 & R3 & R4 & R5 & R6 & m2 & ev2 & R7 & R8 & R9 & R10).
    assert (E1 : (s_iter s1 =? 0) = false) by lia. rewrite E1 in R4.
    split; [congruence|]. split.
    { cbn [length seq map]. f_equal; [lia|]. rewrite R2 at 1. rewrite <- seq_shift, map_map. apply map_ext. intros i. lia. }
    cbn [length]. split; [lia|]. split.
    { destruct (Z.eqb_spec (s_iter s) 0); [lia|]. destruct Hc as [Hc _]; lia. }
    split; [intros H; apply R5; lia|]. split; [exact R6|].
    exists (m + m2)%nat, (ev ++ ev2). split; [rewrite R7, N6, app_assoc; reflexivity|].
    split; [rewrite in_app_iff; tauto|]. split.
    + intros Tr. destruct (N8 Tr) as (A1 & A2 & A3). destruct (R9 Tr) as (B1 & B2 & B3). rewrite A1 in *. rewrite !sumz_add. lia.
    + intros K. rewrite upds_app. specialize (N9 K). specialize (R10 K). lia.
  - assert (e = StopIteration -> (s', Ok l) = (s1, @Ok (list Z) []) -> s_start s' = s_start s /\ l = map (fun i => s_epoch s + 1 + Z.of_nat i) (seq 0 (length l)) /\
  (s_iter s = 0 -> (1 <= length l)%nat) /\
  Z.of_nat (length l) <= Z.max (if s_iter s =? 0 then 1 else 0) (c_max_epoch c - s_epoch s) /\
  (Z.of_nat (length l) < c_max_epoch c - s_epoch s -> s_stop s' = true) /\
  (s_stop s' = true -> stop_ok s') /\
  exists m ev, s_ev s' = s_ev s ++ ev /\ ~ In EResetCollectors ev /\
    (c_train c = true -> s_nc s' = (s_nc s + m)%nat /\ s_env s' = s_env s + sumz steps (s_nc s) m /\
       s_ep s' = s_ep s + sumz (fun k => cs_eps (collect k)) (s_nc s) m) /\
    (c_kind c <> Onpolicy -> s_grad s' = s_grad s + upds ev)) as G.
    { intros -> [= -> ->]. apply next_stop in N. destruct N as (P & -> & Q).
      cbn [set_epoch s_start s_epoch s_iter s_best_epoch s_test_in_train s_ev s_stop s_best_score s_best_reward s_nc s_env s_ep s_grad length seq map].
      split; [reflexivity|]. split; [reflexivity|]. split; [lia|]. split; [destruct (s_iter s =? 0); lia|]. split; [intros; destruct Q; [lia|assumption]|].
      split; [exact Hok|]. exists 0%nat, []. rewrite app_nil_r. split; [reflexivity|]. split; [cbn; tauto|].
      split; intros _; unfold sumz, upds; cbn [map seq fold_right filter length]; [repeat split; lia|lia]. }
    destruct e; try discriminate. intros H. apply G; [reflexivity|congruence].
Qed.

(** ** reset and run *)
Notation start0 s := (match c_resume c with Some (e, _, _) => e | None => s_start s end).
Lemma reset_ok s s' :
  reset c test s = (s', Ok tt) ->
  s_start s' = start0 s /\ s_epoch s' = start0 s /\ s_iter s' = 0 /\ s_stop s' = false /\
  s_env s' = match c_resume c with Some (_, n, _) => n | None => 0 end /\
  s_grad s' = match c_resume c with Some (_, _, g) => g | None => s_grad s end /\
  s_ep s' = s_ep s /\ s_nc s' = s_nc s /\
  (s_test_in_train s' = true -> s_test_in_train s = true) /\
  s_ev s' = s_ev s ++ EResetCollectors :: (if c_test c then [ETest TInit (start0 s) (s_nt s)] else []) ++ (if c_save_best c then [ESaveBest] else []) /\
  (c_test c = true -> s_best_epoch s' = start0 s /\ s_best_score s' = ts_score (test (s_nt s)) /\ s_best_reward s' = ts_mean (test (s_nt s))).
Proof.
  unfold reset.
  assert (G : forall s1, s_start s1 = start0 s -> s_env s1 = match c_resume c with Some (_, n, _) => n | None => 0 end ->
    s_grad s1 = match c_resume c with Some (_, _, g) => g | None => s_grad s end -> s_ep s1 = s_ep s -> s_nc s1 = s_nc s -> s_nt s1 = s_nt s ->
    s_ev s1 = s_ev s ++ [EResetCollectors] ->
    (s_test_in_train s1 = true -> s_test_in_train s = true) ->
    match (if c_test c then
           match c_episode_per_test c with
           | None => (s1, Err AssertionError)
           | Some _ => let '(s, r) := test_episode test s1 TInit (s_start s1) in
                       (set_best s (s_start s) (ts_score r) (ts_mean r), Ok tt)
           end
         else (s1, Ok tt)) with
  | (s, Err e) => (s, Err e)
  | (s, Ok _) =>
      let s := if c_save_best c then emit s ESaveBest else s in
      (set_stop (set_epoch s (s_start s) 0) false, Ok tt)
  end = (s', Ok tt) ->
  s_start s' = start0 s /\ s_epoch s' = start0 s /\ s_iter s' = 0 /\ s_stop s' = false /\
  s_env s' = match c_resume c with Some (_, n, _) => n | None => 0 end /\
  s_grad s' = match c_resume c with Some (_, _, g) => g | None => s_grad s end /\
  s_ep s' = s_ep s /\ s_nc s' = s_nc s /\
  (s_test_in_train s' = true -> s_test_in_train s = true) /\
  s_ev s' = s_ev s ++ EResetCollectors :: (if c_test c then [ETest TInit (start0 s) (s_nt s)] else []) ++ (if c_save_best c then [ESaveBest] else []) /\
  (c_test c = true -> s_best_epoch s' = start0 s /\ s_best_score s' = ts_score (test (s_nt s)) /\ s_best_reward s' = ts_mean (test (s_nt s)))).
  { intros s1 G1 G2 G3 G4 G5 G6 G7 G8. destruct (c_test c).
    - destruct (c_episode_per_test c); [|discriminate]. unfold test_episode. cbv zeta. rewrite <- G1.
      destruct (c_save_best c); intros [= <-]; cbn; rewrite G6, G7, <- ?app_assoc; auto 20.
    - cbv zeta. destruct (c_save_best c); intros [= <-]; cbn; rewrite G7, <- ?app_assoc;
        (repeat (split; [first [assumption|reflexivity]|]); discriminate). }
  destruct (c_train c && (negb (c_same_policy c) || negb (c_test c))).
  - intros H. refine (G _ _ _ _ _ _ _ _ _ H); destruct (c_resume c) as [[[e n] g]|]; try reflexivity; discriminate.
  - intros H. refine (G _ _ _ _ _ _ _ _ _ H); destruct (c_resume c) as [[[e n] g]|]; try reflexivity; auto.
Qed.
Lemma run_ok fuel n rp s s' l :
  run c collect test buflen fuel n rp s = (s', Ok l) ->
  exists sa sb, (sa = s /\ rp = false \/ reset c test s = (sa, Ok tt) /\ rp = true) /\ reset c test sa = (sb, Ok tt) /\ run_loop fuel n sb = (s', Ok l).
Proof.
  unfold run. destruct rp.
  - destruct (reset c test s) as [sa [[]|]] eqn:R; [|discriminate].
    destruct (reset c test sa) as [sb [[]|]] eqn:R2; [|discriminate].
    intros H. exists sa, sb. auto.
  - destruct (reset c test s) as [sb [[]|]] eqn:R2; [|discriminate].
    intros H. exists s, sb. auto.
Qed.
Lemma start0_idem s sa : s_start sa = start0 s -> start0 sa = start0 s.
Proof. destruct (c_resume c) as [[[? ?] ?]|]; auto. Qed.

(** ** Best test *)
Notation score k := (ts_score (test k)).
Lemma is_best_app rest l e k :
  is_best (fun k => score k) (c_save_best c) rest e k ->
  (forall w' e' k', In (ETest w' e' k') l -> w' <> TTrain -> (score k' <= score k)%Qc) -> ~ In ESaveBest l ->
  is_best (fun k => score k) (c_save_best c) (rest ++ l) e k.
Proof.
  intros (a & w & b & -> & Hw & Ha & Hb & Hs) Hl Hn.
  exists a, w, (b ++ l). rewrite <- app_assoc. split; [reflexivity|]. split; [exact Hw|]. split; [exact Ha|]. split.
  - intros w' e' k' Hin Hw'. apply in_app_iff in Hin. destruct Hin; eauto.
  - intros S. destruct (Hs S) as (b' & -> & N). exists (b' ++ l). split; [reflexivity|]. rewrite in_app_iff. tauto.
Qed.
Lemma quiet_tests l : forallb quiet l = true ->
  (forall w e k, In (ETest w e k) l -> w = TTrain) /\ ~ In ESaveBest l.
Proof.
  intros Q. rewrite forallb_forall in Q. split.
  - intros w e k H. specialize (Q _ H). destruct w; cbn in Q; congruence.
  - intros H. specialize (Q _ H). discriminate Q.
Qed.
Definition good (pre : list event) (s : st) : Prop :=
  exists rest k, s_ev s = pre ++ rest /\ is_best (fun k => score k) (c_save_best c) rest (s_best_epoch s) k /\
    s_best_score s = score k /\ s_best_reward s = ts_mean (test k).
Lemma next_good fuel pre s s' e :
  c_test c = true -> (s_iter s <= 0 -> s_stop s = false) -> 0 <= s_best_epoch s ->  0 <= s_epoch s ->
  next fuel s = (s', Ok e) -> ~ train_stopped (s_ev s') ->
  good pre s -> good pre s' /\ 0 <= s_best_epoch s'.
Proof.
  intros CT Hst Hbe Hep H NT (rest & k & G1 & G2 & G3 & G4).
  pose proof (next_book _ _ _ _ Hst H) as (_ & Hep' & _).
  destruct (next_ok _ _ _ _ Hst H) as (He & _ & _ & s1 & m & l & Lf & T). clear H.
  destruct (offline_env_eq s1) as (O1 & O2 & O3 & O4 & O5 & O6 & O7 & O8 & O9 & O10 & O11 & O12 & O13 & O14).
  destruct Lf as [L1 L2 L3 L4 L5 L6 L7 L8 L9 L10 L11 L12 L13].
  cbn [set_epoch s_start s_epoch s_iter s_best_epoch s_test_in_train s_ev s_stop s_best_score s_best_reward s_nc s_env s_ep s_grad] in *.
  destruct (quiet_tests l L7) as (Q1 & Q2).
  cbv zeta in T. destruct (s_stop s1) eqn:S1.
  - exfalso. apply NT. destruct (L9 eq_refl) as (_ & (f & e' & k' & F1 & F2 & F3) & _).
    exists f, e', k'. split; [exact F1|]. split; [|exact F3]. rewrite T, O13, L6. apply in_or_app. right; exact F2.
  - rewrite CT in T. destruct T as (b & s4 & TS & ->). apply test_step_eff in TS.
    cbn [emit s_start s_epoch s_iter s_best_epoch s_test_in_train s_ev s_stop s_best_score s_best_reward s_nc s_nt s_env s_ep s_grad] in TS.
    destruct TS as (_ & _ & _ & _ & _ & _ & _ & _ & _ & TS).
    destruct (L8 eq_refl) as (B1 & B2).
    cbv zeta in TS. rewrite O6, O7, O11, O13, L4, L6, B1, G1 in TS.
    unfold good. cbn [set_stop s_start s_epoch s_iter s_best_epoch s_test_in_train s_ev s_stop s_best_score s_best_reward s_nc s_env s_ep s_grad].
    replace (s_best_epoch s <? 0) with false in TS by lia. cbn [orb] in TS.
    set (sd := ESaveData e _ _) in TS. set (nt := s_nt s1) in TS.
    destruct (Qcltb_spec (s_best_score s) (score nt)) as [C|C].
    + destruct TS as (T1 & T2 & T3 & T4). rewrite T1, O2, L2. split; [|lia].
      exists (rest ++ l ++ [sd] ++ ETest TStep (s_epoch s + 1) nt :: (if c_save_best c then [ESaveBest] else [])), nt.
      split.
      { rewrite T4, O2, L2. rewrite <- !app_assoc. reflexivity. }
      split; [|auto].
      exists (rest ++ l ++ [sd]), TStep, (if c_save_best c then [ESaveBest] else []).
      split; [rewrite <- !app_assoc; reflexivity|]. split; [discriminate|].
      split.
      { intros w' e' k' Hin Hw. apply in_app_iff in Hin. destruct Hin as [Hin|Hin].
        - apply Qcle_lt_trans with (score k); [|rewrite <- G3; exact C].
          destruct G2 as (a & w & b' & -> & _ & Ga & Gb & _). apply in_app_iff in Hin. destruct Hin as [Hin|[Hin|Hin]].
          + apply Qclt_le_weak. eapply Ga; eauto.
          + injection Hin as <- <- <-. apply Qcle_refl.
          + eapply Gb; eauto.
        - apply in_app_iff in Hin. destruct Hin as [Hin|[Hin|[]]]; [|discriminate Hin]. exfalso. apply Hw. eapply Q1; eauto. }
      split.
      { intros w' e' k' Hin Hw. destruct (c_save_best c); cbn in Hin; intuition discriminate. }
      intros Sv. rewrite Sv. exists []. split; [reflexivity|auto].
    + destruct TS as (T1 & T2 & T3 & T4). rewrite T1. split; [|exact Hbe].
      exists (rest ++ l ++ [sd] ++ [ETest TStep (s_epoch s + 1) nt]), k.
      split.
      { rewrite T4, O2, L2. rewrite <- !app_assoc. reflexivity. }
      split; [|split; congruence].
      apply is_best_app; [exact G2| |].
      * intros w' e' k' Hin Hw. apply in_app_iff in Hin. destruct Hin as [Hin|[Hin|[Hin|[]]]].
        -- exfalso. apply Hw. eapply Q1; eauto.
        -- discriminate Hin.
        -- injection Hin as <- <- <-. rewrite <- G3. exact C.
      * rewrite in_app_iff. cbn. intuition discriminate.
Qed.
Lemma run_loop_good fuel n pre s s' l :
  c_test c = true -> 0 <= s_iter s -> (s_iter s <= 0 -> s_stop s = false) -> 0 <= s_best_epoch s -> 0 <= s_epoch s ->
  run_loop fuel n s = (s', Ok l) -> ~ train_stopped (s_ev s') ->
  good pre s -> good pre s'.
Proof.
  intros CT. revert s l; induction n as [|n IH]; intros s l Hi Hst Hbe Hep; cbn [TrainModel.run_loop]; [discriminate|].
  destruct (next fuel s) as [s1 [e|e]] eqn:N.
  - destruct (run_loop fuel n s1) as [s2 [l2|]] eqn:R; [|discriminate].
    intros [= <- <-] NT G.
    destruct (next_book _ _ _ _ Hst N) as (N1 & N2 & N3 & N4 & N5 & m & ev & N6 & N7 & N8 & N9).
    assert (NT1 : ~ train_stopped (s_ev s1)).
    { intros (f & e' & k & F1 & F2 & F3). apply NT. exists f, e', k. split; [exact F1|]. split; [|exact F3].
      apply run_loop_book in R; [|lia|lia|exact N5]. destruct R as (_ & _ & _ & _ & _ & _ & m2 & ev2 & R7 & _).
      rewrite R7. apply in_or_app; auto. }
    destruct (next_good _ pre _ _ _ CT Hst Hbe Hep N NT1 G) as (G1 & Hbe1).
    eapply (IH s1 l2); try eassumption; lia.
  - intros H NT G. assert (e = StopIteration /\ s' = s1) as [-> ->] by (destruct e; try discriminate; inversion H; auto).
    apply next_stop in N. destruct N as (_ & -> & _). exact G.
Qed.
End Proofs.

(** ** Statements *)

(** A run performs the epochs start+1, start+2, ... in order: at least one, at most max_epoch -
    start (or one), and fewer only if stop_fn accepts the best reward.  The collected steps and
    episodes are exactly counted. *)
Lemma C35_epochs_lemma : forall c collect test buflen fuel n rp s s' l,
  run c collect test buflen fuel n rp s = (s', Ok l) ->
  let start := match c_resume c with Some (e, _, _) => e | None => s_start s end in
  l = map (fun i => start + 1 + Z.of_nat i) (seq 0 (length l)) /\
  (1 <= length l)%nat /\ Z.of_nat (length l) <= Z.max 1 (c_max_epoch c - start) /\
  (Z.of_nat (length l) < c_max_epoch c - start -> exists f, c_stop c = Some f /\ f (s_best_reward s') = true).
Proof.
  intros c collect test buflen fuel n rp s s' l H. cbv zeta.
  apply run_ok in H. destruct H as (sa & sb & Ha & Hb & H).
  assert (Es : match c_resume c with Some (e, _, _) => e | None => s_start sa end = match c_resume c with Some (e, _, _) => e | None => s_start s end).
  { destruct Ha as [(-> & _)|(Ha & _)]; [reflexivity|]. apply reset_ok in Ha. destruct Ha as (Ha & _).
    destruct (c_resume c) as [[[? ?] ?]|]; auto. }
  apply reset_ok in Hb. destruct Hb as (B1 & B2 & B3 & B4 & B5 & B6 & B7 & B8 & _).
  apply run_loop_book in H; [|lia|auto|congruence].
  destruct H as (R1 & R2 & R3 & R4 & R5 & R6 & _). rewrite B2, Es in *. rewrite B3 in R4. cbn in R4.
  split; [exact R2|]. split; [auto|]. split; [exact R4|]. intros L. apply R6, R5, L.
Qed.

(** The env step counter of a run with a training collector, starting from the restored value. *)
Lemma C35_env_step_lemma : forall c collect test buflen fuel n rp s s' l,
  run c collect test buflen fuel n rp s = (s', Ok l) -> c_train c = true ->
  let n0 := match c_resume c with Some (_, n, _) => n | None => 0 end in
  exists m, s_nc s' = (s_nc s + m)%nat /\
    s_env s' = n0 + sumz (fun k => cs_steps (collect k)) (s_nc s) m /\
    s_ep s' = s_ep s + sumz (fun k => cs_eps (collect k)) (s_nc s) m.
Proof.
  intros c collect test buflen fuel n rp s s' l H Tr. cbv zeta.
  apply run_ok in H. destruct H as (sa & sb & Ha & Hb & H).
  assert (E : s_nc sa = s_nc s /\ s_ep sa = s_ep s).
  { destruct Ha as [(-> & _)|(Ha & _)]; [auto|]. apply reset_ok in Ha. intuition. }
  apply reset_ok in Hb. destruct Hb as (B1 & B2 & B3 & B4 & B5 & B6 & B7 & B8 & _).
  apply run_loop_book in H; [|lia|auto|congruence].
  destruct H as (_ & _ & _ & _ & _ & _ & m & ev & _ & _ & R & _). destruct (R Tr) as (R1 & R2 & R3).
  destruct E as (E1 & E2). rewrite B8, E1 in *. rewrite B5 in R2. rewrite B7, E2 in R3.
  exists m. auto.
Qed.

(** One epoch collects until step_per_epoch steps are done and no further, unless stop_fn ends it. *)
Lemma C35_steps_lemma : forall c collect test buflen fuel s s' e,
  (s_iter s <= 0 -> s_stop s = false) -> c_train c = true ->
  next c collect test buflen fuel s = (s', Ok e) ->
  let sum := sumz (fun k => cs_steps (collect k)) (s_nc s) in
  e = s_epoch s + 1 /\
  exists m l, (1 <= m)%nat /\ s_nc s' = (s_nc s + m)%nat /\ s_env s' = s_env s + sum m /\ s_ev s' = s_ev s ++ l /\
    (forall j, (j < m)%nat -> sum j < c_step_per_epoch c) /\
    (c_step_per_epoch c <= sum m \/ train_stopped c test l).
Proof.
  intros c collect test buflen fuel s s' e Hst Tr H. cbv zeta.
  destruct (next_ok _ _ _ _ _ _ _ _ Hst H) as (He & _ & Hs & s1 & m & l & Lf & T).
  destruct (next_book _ _ _ _ _ _ _ _ Hst H) as (_ & _ & _ & _ & _ & m' & l' & N6 & _ & N8 & _).
  split; [exact He|].
  destruct (l_train _ _ _ _ _ _ _ _ Lf Tr) as (A1 & A2 & A3 & A4 & A5).
  pose proof (l_stop _ _ _ _ _ _ _ _ Lf) as A6. pose proof (l_ev _ _ _ _ _ _ _ _ Lf) as A7.
  cbn [set_epoch s_nc s_env s_ev] in *.
  destruct (N8 Tr) as (C1 & C2 & _).
  assert (Oe : offline_env c s1 = s1) by (unfold offline_env; rewrite Tr; reflexivity). rewrite Oe in T.
  assert (Q : s_nc s' = s_nc s1 /\ exists l2, s_ev s' = s_ev s1 ++ l2).
  { cbv zeta in T. destruct (s_stop s1).
    - subst s'. split; [reflexivity|]. exists []. rewrite app_nil_r. reflexivity.
    - destruct (c_test c).
      + destruct T as (b & s4 & TS & ->). apply test_step_eff in TS. destruct TS as (_ & _ & _ & _ & _ & _ & T7 & _ & _ & TS).
        split; [exact T7|]. cbv zeta in TS. cbn [set_stop s_ev]. destruct (_ || _); destruct TS as (_ & _ & _ & ->); cbn [emit s_ev]; rewrite <- app_assoc; eauto.
      + subst s'. split; [reflexivity|]. cbn [emit s_ev]. eauto. }
  destruct Q as (Q1 & l2 & Q2).
  assert (m' = m) by lia. subst m'.
  exists m, (l ++ l2). split.
  { destruct m; [|lia]. destruct (s_stop s1) eqn:S1; [destruct (A6 eq_refl); lia|]. specialize (A5 eq_refl). unfold sumz in A5; cbn in A5. lia. }
  split; [exact C1|]. split; [exact C2|]. split; [rewrite Q2, A7, app_assoc; reflexivity|].
  split; [intros j Hj; specialize (A4 j Hj); unfold steps in A4; lia|].
  destruct (s_stop s1) eqn:S1.
  - right. destruct (A6 eq_refl) as (_ & (f & x & k & F1 & F2 & F3) & _). exists f, x, k. split; [exact F1|]. split; [|exact F3].
    apply in_or_app; auto.
  - left. specialize (A5 eq_refl). unfold steps in A5. lia.
Qed.

(** The best score, reward and epoch of a run with a test collector that was not stopped by a test
    during training: those of the first test with the highest score, and what save_best_fn saved
    last is the policy of that test. *)
Lemma C36_best_partial_lemma : forall c collect test buflen fuel n rp s s' l,
  run c collect test buflen fuel n rp s = (s', Ok l) ->
  c_test c = true -> ~ train_stopped c test (s_ev s') ->
  0 <= match c_resume c with Some (e, _, _) => e | None => s_start s end ->
  exists pre rest k, s_ev s' = pre ++ EResetCollectors :: rest /\ ~ In EResetCollectors rest /\
    is_best (fun k => ts_score (test k)) (c_save_best c) rest (s_best_epoch s') k /\
    s_best_score s' = ts_score (test k) /\ s_best_reward s' = ts_mean (test k).
Proof.
  intros c collect test buflen fuel n rp s s' l H CT NT H0.
  apply run_ok in H. destruct H as (sa & sb & Ha & Hb & H).
  assert (Es : match c_resume c with Some (e, _, _) => e | None => s_start sa end = match c_resume c with Some (e, _, _) => e | None => s_start s end).
  { destruct Ha as [(-> & _)|(Ha & _)]; [reflexivity|]. apply reset_ok in Ha. destruct Ha as (Ha & _).
    destruct (c_resume c) as [[[? ?] ?]|]; auto. }
  apply reset_ok in Hb. destruct Hb as (B1 & B2 & B3 & B4 & B5 & B6 & B7 & B8 & B9 & B10 & B11).
  destruct (B11 CT) as (D1 & D2 & D3). rewrite Es in *. rewrite CT in B10.
  set (st0 := match c_resume c with Some (e, _, _) => e | None => s_start s end) in *.
  assert (R := H). apply run_loop_book in R; [|lia|auto|congruence]. destruct R as (_ & _ & _ & _ & _ & _ & m & ev & R7 & R8 & _).
  assert (G : good c test (s_ev sa ++ [EResetCollectors]) sb).
  { exists ([ETest TInit st0 (s_nt sa)] ++ (if c_save_best c then [ESaveBest] else [])), (s_nt sa).
    split; [rewrite B10, <- !app_assoc; reflexivity|]. split; [|auto].
    exists [], TInit, (if c_save_best c then [ESaveBest] else []). rewrite D1.
    split; [reflexivity|]. split; [discriminate|]. split; [intros ? ? ? []|]. split.
    - intros w' e' k' Hin. destruct (c_save_best c); cbn in Hin; intuition discriminate.
    - intros ->. exists []. auto. }
  apply (run_loop_good c collect test buflen fuel n (s_ev sa ++ [EResetCollectors]) sb s' l) in H; try assumption; try lia; try (intros; congruence).
  destruct H as (rest & k & G1 & G2 & G3 & G4).
  exists (s_ev sa), rest, k. rewrite <- app_assoc in G1. split; [exact G1|]. split; [|auto].
  rewrite R7, B10 in G1. rewrite <- app_assoc in G1. apply app_inv_head in G1. cbn [app] in G1. injection G1 as G1. rewrite <- G1.
  rewrite <- ?app_assoc. intros [X|X]; [discriminate X|]. apply in_app_iff in X. destruct X as [X|X]; [|tauto].
  destruct (c_save_best c); cbn in X; intuition discriminate.
Qed.

(** Off-policy: the number of updates after a collection is update_per_step times the collected
    steps, rounded to the nearest integer (ties to even); zero is an error. *)
Lemma C37_offpolicy_lemma : forall c buflen s n, c_kind c = Offpolicy -> c_train c = true ->
  exists r, rounds_to (c_update_per_step c * inject_Z n) r /\
    (forall r', rounds_to (c_update_per_step c * inject_Z n) r' -> r' = r) /\
    if r =? 0 then policy_update c buflen s n = (s, Err ValueError)
    else exists s', policy_update c buflen s n = (s', Ok tt) /\ s_ev s' = s_ev s ++ repeat EUpdate (Z.to_nat r) /\
           s_grad s' = s_grad s + Z.max 0 r /\ s_env s' = s_env s /\ s_ep s' = s_ep s.
Proof.
  intros c buflen s n K Tr. exists (pyround (c_update_per_step c * inject_Z n)).
  pose proof (pyround_spec (c_update_per_step c * inject_Z n)) as R. cbv zeta in R.
  split; [exact R|]. split.
  - intros r' [R1 R2]. destruct R as [R3 R4]. exact (round_unique _ _ _ R1 R2 R3 R4).
  - unfold policy_update. rewrite K, Tr. cbn [negb].
    destruct (pyround _ =? 0); [reflexivity|]. eexists. split; [reflexivity|]. rewrite updates_eq. cbn [s_ev s_grad s_env s_ep].
    split; [reflexivity|]. split; [lia|]. split; reflexivity.
Qed.

(** On-policy with a positive batch size: one update call; gradient_step grows by the number of
    batches of size at most b that cover the buffer. *)
Lemma C37_onpolicy_lemma : forall c buflen s n b, c_kind c = Onpolicy -> c_train c = true -> c_batch c = Some b -> 0 < b ->
  exists s' q, policy_update c buflen s n = (s', Ok tt) /\ s_ev s' = s_ev s ++ [EUpdate] /\ s_grad s' = s_grad s + q /\
    b * (q - 1) < buflen (s_nc s) <= b * q.
Proof.
  intros c buflen s n b K Tr B Hb. unfold policy_update. rewrite K, Tr, B. cbn [negb].
  destruct (Z.ltb_spec 0 b); [|lia]. eexists _, (1 + (buflen (s_nc s) - 1) / b). split; [reflexivity|].
  cbn [set_grad emit s_grad s_ev s_nc]. rewrite floor_tenth by exact Hb. split; [reflexivity|]. split; [ring|].
  pose proof (Z.div_mod (buflen (s_nc s) - 1) b ltac:(lia)) as D.
  pose proof (Z.mod_pos_bound (buflen (s_nc s) - 1) b Hb) as M. revert D M.
  generalize ((buflen (s_nc s) - 1) / b) ((buflen (s_nc s) - 1) mod b). intros q r D M. nia.
Qed.

(** Off-policy and offline: over a run, gradient_step grows by exactly the number of updates. *)
Lemma C37_counter_lemma : forall c collect test buflen fuel n rp s s' l,
  run c collect test buflen fuel n rp s = (s', Ok l) -> c_kind c <> Onpolicy ->
  let g0 := match c_resume c with Some (_, _, g) => g | None => s_grad s end in
  exists ev, s_ev s' = s_ev s ++ ev /\ s_grad s' = g0 + upds ev.
Proof.
  intros c collect test buflen fuel n rp s s' l H K. cbv zeta.
  apply run_ok in H. destruct H as (sa & sb & Ha & Hb & H).
  assert (U : forall b1 b2 (x : Z) k, upds (EResetCollectors :: (if b1 : bool then [ETest TInit x k] else []) ++ (if b2 : bool then [ESaveBest] else [])) = 0)
    by (intros [] [] x k; reflexivity).
  assert (E : match c_resume c with Some (_, _, g) => g | None => s_grad sa end = match c_resume c with Some (_, _, g) => g | None => s_grad s end
    /\ exists ev, s_ev sa = s_ev s ++ ev /\ upds ev = 0).
  { destruct Ha as [(-> & _)|(Ha & _)].
    - split; [reflexivity|]. exists []. rewrite app_nil_r. auto.
    - apply reset_ok in Ha. destruct Ha as (_ & _ & _ & _ & _ & A6 & _ & _ & _ & A10 & _).
      split; [destruct (c_resume c) as [[[? ?] ?]|]; auto|]. eexists. split; [exact A10|apply U]. }
  destruct E as (E1 & ev1 & E2 & E3).
  apply reset_ok in Hb. destruct Hb as (B1 & B2 & B3 & B4 & B5 & B6 & B7 & B8 & B9 & B10 & _).
  apply run_loop_book in H; [|lia|auto|congruence].
  destruct H as (_ & _ & _ & _ & _ & _ & m & ev & R7 & _ & _ & R).
  rewrite R7, B10, E2. rewrite <- !app_assoc. eexists. split; [reflexivity|].
  rewrite (R K), B6, E1, !upds_app, E3. rewrite U. lia.
Qed.

(** A collection after which the training is stopped is not followed by updates. *)
Lemma C37_stop_lemma : forall c collect test buflen s s' n,
  training_step c collect test buflen s = (s', Ok (n, true)) ->
  exists l, s_ev s' = s_ev s ++ l /\ upds l = 0 /\ (c_kind c <> Onpolicy -> s_grad s' = s_grad s).
Proof.
  intros c collect test buflen s s' n H. apply training_step_eff in H. destruct H as (l & Ef).
  exists l. split; [apply (e_ev _ _ _ _ _ _ _ _ Ef)|]. destruct (e_stopped _ _ _ _ _ _ _ _ Ef eq_refl) as (U & _).
  split; [exact U|]. intros K. rewrite (e_grad _ _ _ _ _ _ _ _ Ef K). lia.
Qed.

(** Offline, no collector: an epoch makes step_per_epoch updates and env_step is the number of
    samples used so far. *)
Lemma C37_offline_lemma : forall c collect test buflen fuel s s' e b,
  (s_iter s <= 0 -> s_stop s = false) -> c_train c = false -> c_kind c = Offline -> c_buffer c = Some b ->
  next c collect test buflen fuel s = (s', Ok e) ->
  exists l, s_ev s' = s_ev s ++ l /\ upds l = c_step_per_epoch c /\ s_grad s' = s_grad s + c_step_per_epoch c /\
    s_env s' = s_grad s' * match c_batch c with None => b | Some k => if k =? 0 then b else k end.
Proof.
  intros c collect test buflen fuel s s' e b Hst Tr K B H.
  destruct (next_ok _ _ _ _ _ _ _ _ Hst H) as (He & _ & Hs & s1 & m & l & Lf & T).
  destruct (l_notrain _ _ _ _ _ _ _ _ Lf Tr) as (_ & _ & _ & S1 & U). specialize (U K).
  pose proof (l_grad _ _ _ _ _ _ _ _ Lf ltac:(congruence)) as G. pose proof (l_ev _ _ _ _ _ _ _ _ Lf) as V.
  cbn [set_epoch s_grad s_ev] in G, V.
  assert (U' : upds l = c_step_per_epoch c) by lia. clear U.
  cbv zeta in T. rewrite S1 in T.
  set (env := s_grad s1 * match c_batch c with None => b | Some k => if k =? 0 then b else k end).
  assert (O : offline_env c s1 = set_env s1 env) by (unfold offline_env; rewrite Tr, B; reflexivity).
  rewrite O in T. cbn [set_env s_env s_grad] in T.
  destruct (c_test c).
  - destruct T as (b' & s4 & TS & ->). apply test_step_eff in TS.
    destruct TS as (_ & _ & _ & T4 & _ & T6 & _ & _ & _ & TS). cbn [emit set_env s_env s_grad s_ev] in T4, T6, TS.
    cbn [set_stop s_env s_grad s_ev]. rewrite T4, T6. cbv zeta in TS. rewrite V in TS.
    assert (exists l2, s_ev s4 = (s_ev s ++ l) ++ l2 /\ upds l2 = 0) as (l2 & E2 & U2).
    { destruct (_ || _); destruct TS as (_ & _ & _ & ->); rewrite <- app_assoc; eexists; (split; [reflexivity|]).
      - destruct (c_save_best c); reflexivity.
      - reflexivity. }
    exists (l ++ l2). rewrite E2, <- app_assoc, upds_app. split; [reflexivity|]. split; [lia|]. split; [lia|]. reflexivity.
  - subst s'. cbn [emit set_env s_env s_grad s_ev]. rewrite V, <- app_assoc. eexists. split; [reflexivity|].
    rewrite upds_app. split; [rewrite U'; change (upds [_]) with 0; cbn; lia|]. split; [lia|reflexivity].
Qed.

(** ** Findings *)
Definition cfg0 (k : kind) (start : option (Z * Z * Z)) : config :=
  mkCfg k 3 10 (Some 4) 1 true true true (Some 1) None true None start.
Definition ones (k : nat) : cstat := mkC 5 1 0.
Definition tests0 (k : nat) : tstat := mkT 0 0 0 0.

(** Resuming from a log whose last epoch is max_epoch (the run was complete) performs one more
    epoch. *)
Lemma C35_resume_refuted_lemma : exists c collect test buflen s' e,
  c_resume c = Some (c_max_epoch c, 30, 30) /\
  run c collect test buflen 10 10 true (new_trainer true) = (s', Ok [e]) /\ c_max_epoch c < e.
Proof.
  exists (cfg0 Offpolicy (Some (3, 30, 30))), ones, tests0, (fun _ => 10). eexists. exists 4.
  split; [reflexivity|]. split; [vm_compute; reflexivity|]. reflexivity.
Qed.

(** A test during training that satisfies stop_fn overwrites best_score with a lower score; the
    best epoch stays and nothing is saved. *)
Definition qz (z : Z) : Qc := Q2Qc (inject_Z z).
Definition cfg_stop : config := mkCfg Offpolicy 3 10 (Some 4) 1 true true true (Some 1) (Some (fun r => Qcleb (qz 12) r)) true None None.
Definition tests_stop (k : nat) : tstat :=
  match k with
  | 0%nat | 1%nat => mkT (qz 1) (qz 1) (qz 1) (qz 1)
  | 2%nat => mkT (qz 10) (qz 9) (qz 10) (qz 9)
  | _ => mkT (qz 12) (qz 7) (qz 12) (qz 7)
  end.
Definition collect_stop (k : nat) : cstat := mkC 5 1 (if (k <? 3)%nat then 0%Qc else qz 20).
Lemma C36_train_stop_refuted_lemma : exists c collect test buflen s' l,
  run c collect test buflen 10 10 true (new_trainer true) = (s', Ok l) /\
  In (ETest TStep 1 2) (s_ev s') /\ (s_best_score s' < ts_score (test 2%nat))%Qc /\ s_best_epoch s' = 1 /\
  s_best_score s' = ts_raw_score (test 3%nat) /\ In (ETest TTrain 2 3) (s_ev s').
Proof.
  exists cfg_stop, collect_stop, tests_stop, (fun _ => 10). eexists _, [1; 2].
  split; [vm_compute; reflexivity|].
  split; [vm_compute; tauto|]. split; [reflexivity|]. split; [reflexivity|]. split; [vm_compute; reflexivity|vm_compute; tauto].
Qed.

(** On-policy: gradient_step grows by 3 where the policy makes 2 mini-batch updates (10 samples,
    batch size 4: the last batch is merged), and by 2 for the single update with batch_size None. *)
Lemma C86_minibatches_refuted_lemma :
  (exists c buflen s s' cs, c_kind c = Onpolicy /\ c_batch c = Some 4 /\ buflen (s_nc s) = 10 /\ policy_update c buflen s 10 = (s', Ok tt) /\
     split 10 4 None true = Ok cs /\ s_grad s' - s_grad s = 3 /\ length cs = 2%nat) /\
  (exists c buflen s s' cs, c_kind c = Onpolicy /\ c_batch c = None /\ buflen (s_nc s) = 10 /\ policy_update c buflen s 10 = (s', Ok tt) /\
     split 10 (-1) None true = Ok cs /\ s_grad s' - s_grad s = 2 /\ length cs = 1%nat).
Proof.
  split.
  - exists (cfg0 Onpolicy None), (fun _ => 10), (new_trainer true). eexists _, _.
    split; [reflexivity|]. split; [reflexivity|]. split; [reflexivity|]. split; [vm_compute; reflexivity|]. split; [vm_compute; reflexivity|].
    split; reflexivity.
  - exists (mkCfg Onpolicy 3 10 None 1 true true true (Some 1) None true None None), (fun _ => 10), (new_trainer true). eexists _, _.
    split; [reflexivity|]. split; [reflexivity|]. split; [reflexivity|]. split; [vm_compute; reflexivity|]. split; [vm_compute; reflexivity|].
    split; reflexivity.
Qed.
(** When the batch size divides the buffer length and the data is passed once, they agree. *)
Lemma C86_divides_partial_lemma : forall c buflen s n (k b : nat) shuffle,
  c_kind c = Onpolicy -> c_train c = true -> c_batch c = Some (Z.of_nat b) -> (0 < b)%nat -> (0 < k)%nat ->
  buflen (s_nc s) = Z.of_nat (k * b) -> (forall perm, shuffle = Some perm -> Permutation perm (seq 0 (k * b))) ->
  exists s' cs, policy_update c buflen s n = (s', Ok tt) /\ split (k * b) (Z.of_nat b) shuffle true = Ok cs /\
    s_grad s' = s_grad s + Z.of_nat (length cs).
Proof.
  intros c buflen s n k b shuffle K Tr B Hb Hk L P.
  destruct (C37_onpolicy_lemma c buflen s n (Z.of_nat b) K Tr B ltac:(lia)) as (s' & q & H1 & _ & H3 & H4).
  destruct (C18_split_lemma (k * b) b shuffle true ltac:(lia) P) as (cs & C1 & C2 & _ & _ & C5).
  exists s', cs. split; [exact H1|]. split; [exact C1|].
  assert (Lc : length (concat cs) = (k * b)%nat) by (rewrite (Permutation_length C2), seq_length; reflexivity).
  destruct (C5 ltac:(nia)) as (ini & c0 & -> & F & _ & G & _). specialize (G eq_refl ltac:(nia)).
  rewrite concat_app, app_length in Lc. cbn [concat] in Lc. rewrite app_nil_r in Lc.
  assert (Li : length (concat ini) = (length ini * b)%nat).
  { clear - F. induction F as [|x l E F IH]; [reflexivity|]. cbn [concat length]. rewrite app_length, IH, E. lia. }
  rewrite app_length. cbn [length]. rewrite H3. rewrite L in H4. rewrite Li in Lc. clear - Lc G H4 Hb Hk.
  assert (k = length ini + 1)%nat by nia. nia.
Qed.

(** run(reset_prior_to_run=False) resets the collectors and tests the policy all the same; with
    the default it does so twice. *)
Lemma C87_no_reset_refuted_lemma : exists c collect test buflen s s1 s2 l l2,
  run c collect test buflen 10 10 false s = (s1, Ok l) /\ resets (s_ev s) = 0%nat /\ resets (s_ev s1) = 1%nat /\ In (ETest TInit 0 0) (s_ev s1) /\
  run c collect test buflen 10 10 true s = (s2, Ok l2) /\ resets (s_ev s2) = 2%nat /\ In (ETest TInit 0 1) (s_ev s2).
Proof.
  exists (cfg0 Offpolicy None), ones, tests0, (fun _ => 10), (new_trainer true). eexists _, _, _, _.
  split; [vm_compute; reflexivity|]. split; [reflexivity|]. split; [reflexivity|]. split; [vm_compute; tauto|].
  split; [vm_compute; reflexivity|]. split; [reflexivity|vm_compute; tauto].
Qed.
Lemma C87_resets_partial_lemma : forall c collect test buflen fuel n (rp : bool) s s' l,
  run c collect test buflen fuel n rp s = (s', Ok l) ->
  resets (s_ev s') = (resets (s_ev s) + if rp then 2 else 1)%nat.
Proof.
  intros c collect test buflen fuel n rp s s' l H.
  apply run_ok in H. destruct H as (sa & sb & Ha & Hb & H).
  assert (A : forall x y, resets (x ++ y) = (resets x + resets y)%nat) by (intros; unfold resets; rewrite filter_app, app_length; reflexivity).
  assert (R1 : forall x y, reset c test x = (y, Ok tt) -> resets (s_ev y) = S (resets (s_ev x))).
  { intros x y R. apply reset_ok in R. destruct R as (_ & _ & _ & _ & _ & _ & _ & _ & _ & -> & _). rewrite A.
    change (resets (EResetCollectors :: ?z)) with (S (resets z)). destruct (c_test c), (c_save_best c); cbn; lia. }
  pose proof (R1 _ _ Hb) as E. apply reset_ok in Hb. destruct Hb as (_ & _ & B3 & B4 & _).
  apply run_loop_book in H; [|lia|auto|congruence]. destruct H as (_ & _ & _ & _ & _ & _ & m & ev & R7 & R8 & _).
  assert (Z0 : resets ev = 0%nat).
  { unfold resets. replace (filter _ ev) with (@nil event); [reflexivity|]. symmetry. clear - R8. induction ev as [|e ev IH]; [reflexivity|].
    cbn in R8 |- *. destruct e; try (apply IH; tauto). tauto. }
  rewrite R7, A, Z0, E. destruct Ha as [(-> & ->)|(Ha & ->)]; [lia|]. rewrite (R1 _ _ Ha). lia.
Qed.

(** reset() leaves gradient_step and env_episode as they were, so a second run of the same trainer
    starts from the first one's counts (env_step starts from 0). *)
Lemma C88_counters_refuted_lemma : exists c test s s',
  c_resume c = None /\ reset c test s = (s', Ok tt) /\ s_grad s <> 0 /\ s_ep s <> 0 /\ s_env s <> 0 /\
  s_grad s' = s_grad s /\ s_ep s' = s_ep s /\ s_env s' = 0.
Proof.
  exists (cfg0 Offpolicy None), tests0, (fst (run (cfg0 Offpolicy None) ones tests0 (fun _ => 10) 10 10 true (new_trainer true))). eexists.
  split; [reflexivity|]. split; [vm_compute; reflexivity|]. vm_compute. repeat split; discriminate.
Qed.
Lemma C88_env_step_partial_lemma : forall c test s s', reset c test s = (s', Ok tt) ->
  (c_resume c = None -> s_env s' = 0 /\ s_epoch s' = s_start s) /\
  (forall e n g, c_resume c = Some (e, n, g) -> s_epoch s' = e /\ s_env s' = n /\ s_grad s' = g).
Proof.
  intros c test s s' H. apply reset_ok in H. destruct H as (_ & H2 & _ & _ & H5 & H6 & _). split.
  - intros R. rewrite R in *. auto.
  - intros e n g R. rewrite R in *. auto.
Qed.

(** Training without a test collector raises unless episode_per_test is given. *)
Lemma C89_episode_per_test_refuted_lemma : exists c collect test buflen s',
  c_test c = false /\ c_train c = true /\ run c collect test buflen 10 10 true (new_trainer true) = (s', Err AssertionError).
Proof.
  exists (mkCfg Offpolicy 3 10 (Some 4) 1 true false true None None true None None), ones, tests0, (fun _ => 10). eexists.
  split; [reflexivity|]. split; [reflexivity|]. vm_compute. reflexivity.
Qed.
Lemma C89_given_partial_lemma : forall c collect test buflen s k, c_episode_per_test c = Some k -> c_test c = false ->
  c_kind c = Onpolicy -> c_train c = true -> c_stop c = None ->
  exists s' n, training_step c collect test buflen s = (s', Ok (n, false)).
Proof.
  intros c collect test buflen s k E T K Tr St. unfold training_step, collect_training_data, train_stop, policy_update.
  rewrite Tr, E, St, K. cbn [negb]. eauto.
Qed.

(** The test during training is evaluated without reward_metric: a run stops although the metric
    of the test returns does not satisfy stop_fn, and reports the other number as best reward. *)
Lemma C90_metric_refuted_lemma : exists c f collect test buflen s' l k,
  c_stop c = Some f /\ run c collect test buflen 10 10 true (new_trainer true) = (s', Ok l) /\ (length l < 3)%nat /\ c_max_epoch c = 3 /\
  (forall i, f (ts_mean (test i)) = false) /\ In (ETest TTrain 1 k) (s_ev s') /\ s_best_reward s' = ts_raw_mean (test k).
Proof.
  exists cfg_stop, (fun r => Qcleb (qz 12) r), (fun _ => mkC 5 1 (qz 20)), (fun _ => mkT (qz 6) (qz 6) (qz 12) (qz 12)), (fun _ => 10).
  eexists _, _, 2%nat. split; [reflexivity|]. split; [vm_compute; reflexivity|]. split; [vm_compute; lia|]. split; [reflexivity|].
  split; [intros _; vm_compute; reflexivity|]. split; [vm_compute; tauto|vm_compute; reflexivity].
Qed.
Lemma C90_no_metric_partial_lemma : forall c test s r s',
  (forall k, ts_raw_mean (test k) = ts_mean (test k) /\ ts_raw_score (test k) = ts_score (test k)) ->
  train_stop c test s r = (s', Ok true) ->
  exists f, c_stop c = Some f /\ f (ts_mean (test (s_nt s))) = true /\
    s_best_reward s' = ts_mean (test (s_nt s)) /\ s_best_score s' = ts_score (test (s_nt s)).
Proof.
  intros c test s r s' Hm H. apply train_stop_ok in H. destruct H as [(H & _)|(f & Hf & Ht & Hs & H)]; [discriminate H|].
  cbv zeta in H. destruct H as [(H & _)|(_ & -> & F)]; [discriminate H|].
  exists f. cbn. destruct (Hm (s_nt s)) as (M1 & M2). rewrite <- M1, <- M2. auto.
Qed.
