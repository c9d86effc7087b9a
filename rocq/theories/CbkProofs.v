(** * Proofs about callbacks *)
From Verif Require Import Py PyLemmas Num TrainModel TrainSpec TrainProofs ExperModel ExperProofs CbkModel CbkSpec.
Import List ListNotations.
Open Scope Z_scope.
Open Scope list_scope.

Section Walk.
Variable c : config.
Variable collect : nat -> cstat.
Variable test : nat -> tstat.
Variable buflen : nat -> Z.
Hypothesis Tr : c_train c = true.
Notation stp k := (cs_steps (collect k)).

(** What the events say about collections, tests and steps. *)
Definition plain_ev (e : event) : bool := match e with ESaveBest | ESaveData _ _ _ | EUpdate => true | _ => false end.
Inductive walk (P : Z -> Prop) : nat -> nat -> Z -> list event -> nat -> nat -> Z -> Prop :=
| W_nil nc nt env : walk P nc nt env [] nc nt env
| W_plain nc nt env e l nc' nt' env' : plain_ev e = true -> walk P nc nt env l nc' nt' env' -> walk P nc nt env (e :: l) nc' nt' env'
| W_reset nc nt env l nc' nt' env' : nc = O -> walk P nc nt (first_step c) l nc' nt' env' -> walk P nc nt env (EResetCollectors :: l) nc' nt' env'
| W_collect nc nt env ep l nc' nt' env' : P ep -> walk P (S nc) nt (env + stp nc) l nc' nt' env' ->
    walk P nc nt env (ETrainFn ep env :: ECollect nc :: l) nc' nt' env'
| W_test nc nt env w ep l nc' nt' env' : (w = TInit <-> nc = O) -> walk P nc (S nt) env l nc' nt' env' ->
    walk P nc nt env (ETest w ep nt :: l) nc' nt' env'.
Lemma walk_app P nc nt env l nc1 nt1 env1 l2 nc2 nt2 env2 :
  walk P nc nt env l nc1 nt1 env1 -> walk P nc1 nt1 env1 l2 nc2 nt2 env2 -> walk P nc nt env (l ++ l2) nc2 nt2 env2.
Proof. induction 1; intros W; cbn [app]; [exact W|..]; [apply W_plain | apply W_reset | apply W_collect | apply W_test]; auto. Qed.
Lemma walk_weaken (P Q : Z -> Prop) nc nt env l nc1 nt1 env1 : (forall e, P e -> Q e) ->
  walk P nc nt env l nc1 nt1 env1 -> walk Q nc nt env l nc1 nt1 env1.
Proof. intros W. induction 1; [apply W_nil | apply W_plain | apply W_reset | apply W_collect | apply W_test]; auto. Qed.
Lemma walk_upd P n nc nt env : walk P nc nt env (repeat EUpdate n) nc nt env.
Proof. induction n as [|n IH]; cbn [repeat]; [apply W_nil | apply W_plain; auto]. Qed.

Definition grow (P : Z -> Prop) (s s' : st) : Prop :=
  exists l, s_ev s' = s_ev s ++ l /\ walk P (s_nc s) (s_nt s) (s_env s) l (s_nc s') (s_nt s') (s_env s').
Lemma grow_refl P s : grow P s s.
Proof. exists []. rewrite app_nil_r. split; [reflexivity | constructor]. Qed.
Lemma grow_trans P s1 s2 s3 : grow P s1 s2 -> grow P s2 s3 -> grow P s1 s3.
Proof.
  intros (l & E & W) (l' & E' & W'). exists (l ++ l'). split; [rewrite E', E, app_assoc; reflexivity|].
  eapply walk_app; eassumption.
Qed.
Lemma training_step_walk s s' n stop : training_step c collect test buflen s = (s', Ok (n, stop)) ->
  grow (fun e => e = s_epoch s) s s' /\ s_epoch s' = s_epoch s /\ s_nc s' = S (s_nc s).
Proof.
  intros H. split; [|apply training_step_eff in H; destruct H as (l & H); split; [apply (e_epoch _ _ _ _ _ _ _ _ H) | apply (e_train _ _ _ _ _ _ _ _ H Tr)]].
  revert H. unfold training_step. rewrite Tr.
  unfold collect_training_data. destruct (c_episode_per_test c) as [ep|]; [|discriminate].
  cbn -[train_stop policy_update]. set (r := collect (s_nc s)).
  match goal with |- context [train_stop c test ?x r] => set (s1 := x) end.
  destruct (train_stop c test s1 r) as [s2 [b|]] eqn:TS; [|discriminate].
  assert (G1 : grow (fun e => e = s_epoch s) s s1 /\ s_nc s1 = S (s_nc s)).
  { split; [|reflexivity]. exists [ETrainFn (s_epoch s) (s_env s); ECollect (s_nc s)]. split; [cbn; rewrite <- app_assoc; reflexivity|].
    unfold s1. cbn. apply W_collect; [reflexivity|]. constructor. }
  destruct G1 as [G1 N1].
  assert (G2 : grow (fun e => e = s_epoch s) s1 s2).
  { apply train_stop_ok in TS. destruct TS as [(-> & ->)|(f & _ & _ & _ & TS)]; [apply grow_refl|].
    cbv zeta in TS. assert (E : s_ev s2 = s_ev s1 ++ [ETest TTrain (s_epoch s1) (s_nt s1)] /\ s_nc s2 = s_nc s1 /\ s_nt s2 = S (s_nt s1) /\ s_env s2 = s_env s1).
    { destruct TS as [(-> & -> & F)|(-> & -> & F)]; repeat split. }
    destruct E as (E1 & E2 & E3 & E4). exists [ETest TTrain (s_epoch s1) (s_nt s1)]. split; [exact E1|]. rewrite E2, E3, E4.
    apply W_test; [split; [discriminate | rewrite N1; discriminate]|]. constructor. }
  destruct b; [intros [= <- <- <-]; eapply grow_trans; eassumption|].
  destruct (policy_update c buflen s2 (cs_steps r)) as [s3 [[]|]] eqn:PU; [|discriminate].
  intros [= <- <- <-]. eapply grow_trans; [exact G1|]. eapply grow_trans; [exact G2|].
  apply policy_update_ok in PU. destruct PU as (k & g & -> & _). exists (repeat EUpdate k). split; [reflexivity|]. cbn [s_nc s_nt s_env].
  apply walk_upd.
Qed.
Lemma epoch_loop_walk fuel : forall dn s s', epoch_loop c collect test buflen fuel dn s = (s', Ok tt) ->
  grow (fun e => e = s_epoch s) s s' /\ (s_nc s <= s_nc s')%nat /\ (dn < c_step_per_epoch c -> s_stop s = false -> (s_nc s < s_nc s')%nat).
Proof.
  induction fuel as [|fuel IH]; intros dn s s'; cbn [epoch_loop].
  - destruct ((dn <? c_step_per_epoch c) && negb (s_stop s)) eqn:C; [discriminate|]. intros [= <-].
    split; [apply grow_refl|]. split; [lia|]. intros A B. rewrite B in C. cbn in C. lia.
  - destruct ((dn <? c_step_per_epoch c) && negb (s_stop s)) eqn:C.
    2:{ intros [= <-]. split; [apply grow_refl|]. split; [lia|]. intros A B. rewrite B in C. cbn in C. lia. }
    destruct (training_step c collect test buflen s) as [s1 [[n stop]|]] eqn:TS; [|discriminate]. intros H.
    apply training_step_walk in TS as (G & E & N). apply IH in H as (G' & L & _). cbn [set_stop s_nc s_epoch] in *. rewrite E in G'.
    split; [|split; intros; lia]. eapply grow_trans; [exact G|]. exact G'.
Qed.
Lemma test_step_walk P s s' b : test_step c test s = (s', Ok b) -> (0 < s_nc s)%nat -> grow P s s' /\ s_nc s' = s_nc s /\ s_nt s' = S (s_nt s).
Proof.
  unfold test_step. destruct (c_episode_per_test c); [|discriminate]. unfold test_episode. cbn -[Qcltb]. intros H N.
  assert (T : forall ep l nt', walk P (s_nc s) (S (s_nt s)) (s_env s) l (s_nc s) nt' (s_env s) -> walk P (s_nc s) (s_nt s) (s_env s) (ETest TStep ep (s_nt s) :: l) (s_nc s) nt' (s_env s)).
  { intros ep l nt' W. apply W_test; [split; [discriminate | lia] | exact W]. }
  destruct (_ || _); [destruct (c_save_best c)|]; injection H as <- _.
  - split; [|split; reflexivity]. exists [ETest TStep (s_epoch s) (s_nt s); ESaveBest]. split; [cbn; rewrite <- app_assoc; reflexivity|]. apply T. constructor; [reflexivity|]. constructor.
  - split; [|split; reflexivity]. exists [ETest TStep (s_epoch s) (s_nt s)]. split; [reflexivity|]. apply T. constructor.
  - split; [|split; reflexivity]. exists [ETest TStep (s_epoch s) (s_nt s)]. split; [reflexivity|]. apply T. constructor.
Qed.
Lemma next_walk fuel s s' e : (s_iter s <= 0 -> s_stop s = false) -> next c collect test buflen fuel s = (s', Ok e) ->
  grow (fun x => x = e) s s' /\ (s_nc s < s_nc s')%nat.
Proof.
  intros Hst H. destruct (next_ok c collect test buflen _ _ _ _ Hst H) as (He & Hc & Hp & _).
  revert H. unfold TrainModel.next. set (s0 := set_epoch s (s_epoch s + 1) (s_iter s + 1)).
  assert (St : s_stop s = false) by (destruct (Z_lt_le_dec 0 (s_iter s)) as [L|L]; [apply Hc, L | apply Hst, L]).
  destruct (_ && _); [discriminate|]. destruct (_ && s_stop s0); [discriminate|].
  destruct (epoch_loop c collect test buflen fuel 0 s0) as [s1 [[]|]] eqn:EL; [|discriminate].
  apply epoch_loop_walk in EL as (G & _ & N). specialize (N Hp St).
  assert (E0 : s_epoch s0 = e) by (subst e; reflexivity). rewrite E0 in G. change (s_nc s0) with (s_nc s) in N.
  assert (G0 : grow (fun x => x = e) s s1) by exact G. clear G. rewrite Tr.
  destruct (s_stop s1).
  - destruct (c_step_per_epoch c <=? 0); [discriminate|]. intros [= <- _]. split; [exact G0 | exact N].
  - cbv zeta. set (s2 := emit s1 _).
    assert (G2 : grow (fun x => x = e) s1 s2).
    { exists [ESaveData (s_epoch s1) (s_env s1) (s_grad s1)]. split; [reflexivity|]. constructor; [reflexivity|]. constructor. }
    destruct (c_test c).
    + destruct (test_step c test s2) as [s4 [b|]] eqn:TS; [|discriminate].
      destruct (c_step_per_epoch c <=? 0); [discriminate|]. intros [= <- _].
      destruct (test_step_walk (fun x => x = e) _ _ _ TS) as (G3 & N3 & _); [change (s_nc s2) with (s_nc s1); lia|].
      split; [|cbn [set_stop s_nc]; rewrite N3; exact N].
      eapply grow_trans; [exact G0|]. eapply grow_trans; [exact G2|]. exact G3.
    + destruct (c_step_per_epoch c <=? 0); [discriminate|]. intros [= <- _]. split; [|exact N]. eapply grow_trans; eassumption.
Qed.
Lemma run_loop_walk fuel n : forall s s' l, 0 <= s_iter s -> (s_iter s <= 0 -> s_stop s = false) -> run_loop c collect test buflen fuel n s = (s', Ok l) ->
  grow (fun _ => True) s s'.
Proof.
  induction n as [|n IH]; intros s s' l Hi Hst; cbn [TrainModel.run_loop]; [discriminate|].
  destruct (next c collect test buflen fuel s) as [s1 [e|e]] eqn:N.
  - destruct (run_loop c collect test buflen fuel n s1) as [s2 [l2|]] eqn:R; [|discriminate]. intros [= <- <-].
    destruct (next_book c collect test buflen _ _ _ _ Hst N) as (_ & _ & I & _).
    apply next_walk in N as ((l1 & E & W) & _); [|exact Hst]. apply IH in R; [|lia|lia].
    eapply grow_trans; [|exact R]. exists l1. split; [exact E|]. eapply walk_weaken; [|exact W]. auto.
  - destruct e; try discriminate. intros [= <- <-]. apply next_stop in N as (_ & -> & _). exists []. split; [rewrite app_nil_r; reflexivity | constructor].
Qed.
Lemma reset_nt s s' : reset c test s = (s', Ok tt) -> s_nt s' = (s_nt s + if c_test c then 1 else 0)%nat.
Proof. clear collect buflen Tr.
  unfold reset. cbv zeta. match goal with |- context [if c_train c && ?B then ?X else ?Y] => set (sx := if c_train c && B then X else Y) end.
  assert (E : s_nt sx = s_nt s) by (unfold sx; destruct (c_train c && _); destruct (c_resume c) as [[[? ?] ?]|]; reflexivity). clearbody sx.
  destruct (c_test c); [destruct (c_episode_per_test c); [|discriminate]|]; unfold test_episode; destruct (c_save_best c); intros [= <-]; cbn; rewrite E; lia.
Qed.
Lemma reset_walk s s' : reset c test s = (s', Ok tt) -> s_nc s = O -> 
  exists l, s_ev s' = s_ev s ++ EResetCollectors :: (if c_test c then [ETest TInit (s_epoch s') (s_nt s)] else []) ++ l
    /\ s_nc s' = O /\ s_env s' = first_step c /\ s_iter s' = 0 /\ s_stop s' = false /\ s_nt s' = (s_nt s + if c_test c then 1 else 0)%nat
    /\ forall P, walk P (s_nc s) (s_nt s) (s_env s) (EResetCollectors :: (if c_test c then [ETest TInit (s_epoch s') (s_nt s)] else []) ++ l) (s_nc s') (s_nt s') (s_env s').
Proof.
  intros H N. pose proof (reset_ok c test _ _ H) as (_ & E1 & E2 & E3 & E4 & _ & _ & E5 & _ & E6 & _).
  pose proof (reset_nt _ _ H) as Nt.
  rewrite <- E1 in E6. eexists. split; [exact E6|]. split; [congruence|]. split; [exact E4|]. split; [exact E2|]. split; [exact E3|]. split; [exact Nt|].
  intros P. rewrite E5, E4, Nt. apply W_reset; [exact N|]. fold (first_step c).
  assert (W : forall k, walk P (s_nc s) k (first_step c) (if c_save_best c then [ESaveBest] else []) (s_nc s) k (first_step c)) by (intros k; destruct (c_save_best c); [constructor; [reflexivity|]|]; constructor).
  destruct (c_test c).
  - cbn [app]. apply W_test; [split; auto|]. rewrite Nat.add_1_r. apply W.
  - cbn [app]. rewrite Nat.add_0_r. apply W.
Qed.
(** The events of a run of a new trainer. *)
Lemma run_walk fuel n rp tit s' l : run c collect test buflen fuel n rp (new_trainer tit) = (s', Ok l) ->
  exists env0, walk (fun _ => True) 0 0 env0 (s_ev s') (s_nc s') (s_nt s') (s_env s') /\
   exists l', s_ev s' = EResetCollectors :: l' /\ (c_test c = true -> exists ep l'', l' = ETest TInit ep 0 :: l'') /\ walk (fun _ => True) 0 0 (first_step c) l' (s_nc s') (s_nt s') (s_env s').
Proof.
  intros H. apply run_ok in H as (sa & sb & Ha & Hb & H).
  assert (A : s_nc sa = O /\ exists l0, s_ev sa = l0 /\ walk (fun _ => True) 0 0 0 l0 O (s_nt sa) (s_env sa) /\
    (l0 = [] \/ exists l', l0 = EResetCollectors :: (if c_test c then [ETest TInit (s_epoch sa) 0] else []) ++ l')).
  { destruct Ha as [(-> & _)|(Ha & _)]; [split; [reflexivity|]; exists []; split; [reflexivity|]; split; [constructor | left; reflexivity]|].
    apply reset_walk in Ha as (l' & E & N & _ & _ & _ & _ & W); [|reflexivity]. split; [exact N|]. eexists. split; [exact E|]. split; [rewrite N in W; apply W|].
    right. exists l'. reflexivity. }
  destruct A as (NA & l0 & El & W0 & S0).
  apply reset_walk in Hb as (lb & Eb & Nb & _ & Ib & Sb & _ & Wb); [|exact NA].
  apply run_loop_walk in H as (l1 & E1 & W1); [|lia|auto].
  specialize (Wb (fun _ => True)). rewrite NA in Wb. rewrite Nb in *.
  set (mid := EResetCollectors :: (if c_test c then [ETest TInit (s_epoch sb) (s_nt sa)] else []) ++ lb) in *.
  assert (Full : walk (fun _ => True) 0 0 0 (s_ev s') (s_nc s') (s_nt s') (s_env s')).
  { rewrite E1, Eb, El. eapply walk_app; [|exact W1]. eapply walk_app; [exact W0 | exact Wb]. }
  exists 0. split; [exact Full|].
  assert (Sh : exists l', s_ev s' = EResetCollectors :: l' /\ (c_test c = true -> exists ep l'', l' = ETest TInit ep 0 :: l'')).
  { rewrite E1, Eb, El. destruct S0 as [-> | (l' & ->)].
    - inversion W0; subst. eexists. split; [cbn [app]; unfold mid; cbn [app]; reflexivity|]. intros CT. rewrite CT. cbn [app]. eexists _, _.
      match goal with H : _ = s_nt sa |- _ => rewrite <- H end. reflexivity.
    - eexists. split; [cbn [app]; reflexivity|]. intros CT. rewrite CT. cbn [app]. eexists _, _. reflexivity. }
  destruct Sh as (l' & E & T). exists l'. split; [exact E|]. split; [exact T|]. rewrite E in Full. inversion Full; subst; [|assumption].
  match goal with H : plain_ev EResetCollectors = true |- _ => discriminate H end.
Qed.

Notation at_ k := (first_step c + sumz (fun j => cs_steps (collect j)) 0 k).
Lemma at_S k : at_ (S k) = at_ k + stp k.
Proof. replace (S k) with (k + 1)%nat by lia. rewrite (sumz_add collect test buflen). cbn [Nat.add]. unfold sumz at 2. cbn. lia. Qed.
Lemma walk_le P nc nt env l nc' nt' env' : walk P nc nt env l nc' nt' env' -> (nc <= nc')%nat /\ (nt <= nt')%nat.
Proof. clear test buflen Tr. induction 1; lia. Qed.
Lemma replay_trains P cb te f nc nt env l nc' nt' env' : (forall t, call_train cb t = Ok (f t)) -> walk P nc nt env l nc' nt' env' -> env = at_ nc -> forall eps,
  exists us e, replay (Some cb) te l eps = (us, Ok e) /\ trains us = map (fun k => (k, f (at_ k))) (seq nc (nc' - nc)).
Proof.
  intros F. induction 1 as [nc nt env|nc nt env e l nc' nt' env' Pl W IH|nc nt env l nc' nt' env' N W IH|nc nt env ep l nc' nt' env' Pe W IH|nc nt env w ep l nc' nt' env' Hw W IH]; intros E eps; cbn [replay].
  - exists [], eps. rewrite Nat.sub_diag. split; reflexivity.
  - destruct (IH E eps) as (us & e' & R & T). destruct e; try discriminate Pl; exists us, e'; auto.
  - subst nc. destruct (IH ltac:(unfold sumz; cbn; lia) eps) as (us & e' & R & T). exists us, e'. auto.
  - rewrite F. destruct (IH ltac:(rewrite at_S; lia) (f env)) as (us & e' & R & T). rewrite R. exists (UTrain nc (f env) :: us), e'. split; [reflexivity|].
    cbn [trains]. apply walk_le in W as [L _]. replace (nc' - nc)%nat with (S (nc' - S nc)) by lia. cbn [seq map]. rewrite T, E. reflexivity.
  - destruct (IH E (match te with Some e => e | None => eps end)) as (us & e' & R & T). rewrite R. eexists (_ :: us), e'. split; [reflexivity | exact T].
Qed.
(** Tests with a test callback. *)
Lemma replay_tests P tr e nc nt env l nc' nt' env' : walk P nc nt env l nc' nt' env' -> forall eps us e', replay tr (Some e) l eps = (us, Ok e') ->
  map (fun x => (snd (fst x), snd x)) (tests us) = map (fun k => (k, e)) (seq nt (nt' - nt)).
Proof. clear test buflen Tr.
  induction 1 as [nc nt env|nc nt env x l nc' nt' env' Pl W IH|nc nt env l nc' nt' env' N W IH|nc nt env ep l nc' nt' env' Pe W IH|nc nt env w ep l nc' nt' env' Hw W IH]; intros eps us e' R; cbn [replay] in R.
  - injection R as <- _. rewrite Nat.sub_diag. reflexivity.
  - destruct x; try discriminate Pl; eapply IH; exact R.
  - eapply IH; exact R.
  - destruct tr as [cb|]; [destruct (call_train cb env) as [q|]; [|discriminate R]|];
      (match type of R with context [replay ?A ?B l ?C] => destruct (replay A B l C) as [us2 r2] eqn:R2 end; injection R as <- ->; cbn [tests]; eapply IH; exact R2).
  - destruct (replay tr (Some e) l e) as [us2 r2] eqn:R2. injection R as <- ->. cbn [tests map fst snd].
    apply walk_le in W as [_ L]. replace (nt' - nt)%nat with (S (nt' - S nt)) by lia. cbn [seq map]. f_equal. eapply IH; exact R2.
Qed.
(** Tests without a test callback, training at a constant eps. *)
Lemma replay_no_test P q nc nt env l nc' nt' env' : walk P nc nt env l nc' nt' env' -> forall eps us e', replay (Some (TcSetEps q)) None l eps = (us, Ok e') ->
  (nc <> O -> eps = q) -> forall eps0, (nc = O -> eps = eps0) -> 
  Forall (fun x => snd x = match fst (fst x) with TInit => eps0 | _ => q end) (tests us).
Proof. clear test buflen Tr.
  induction 1 as [nc nt env|nc nt env x l nc' nt' env' Pl W IH|nc nt env l nc' nt' env' N W IH|nc nt env ep l nc' nt' env' Pe W IH|nc nt env w ep l nc' nt' env' Hw W IH]; intros eps us e' R Hq eps0 H0; cbn [replay call_train] in R.
  - injection R as <- _. constructor.
  - destruct x; try discriminate Pl; eapply IH; eassumption.
  - eapply IH; eassumption.
  - destruct (replay (Some (TcSetEps q)) None l q) as [us2 r2] eqn:R2. injection R as <- ->. cbn [tests]. eapply IH; [exact R2 | reflexivity | lia].
  - destruct (replay (Some (TcSetEps q)) None l eps) as [us2 r2] eqn:R2. injection R as <- ->. cbn [tests]. constructor; [|eapply IH; eassumption].
    cbn [fst snd]. destruct (Nat.eq_dec nc 0) as [Z|Z]; [rewrite (proj2 Hw Z); apply H0, Z|]. destruct w; [exfalso; apply Z, Hw; reflexivity|apply Hq, Z|apply Hq, Z].
Qed.
(** Training without a train callback. *)
Lemma replay_no_train P te nc nt env l nc' nt' env' : walk P nc nt env l nc' nt' env' -> forall eps, (forall q, te = Some q -> eps = q) ->
  exists us, replay None te l eps = (us, Ok eps) /\ trains us = map (fun k => (k, eps)) (seq nc (nc' - nc)).
Proof. clear test buflen Tr.
  induction 1 as [nc nt env|nc nt env x l nc' nt' env' Pl W IH|nc nt env l nc' nt' env' N W IH|nc nt env ep l nc' nt' env' Pe W IH|nc nt env w ep l nc' nt' env' Hw W IH]; intros eps H; cbn [replay].
  - exists []. rewrite Nat.sub_diag. split; reflexivity.
  - destruct (IH eps H) as (us & R & T). destruct x; try discriminate Pl; exists us; auto.
  - apply IH, H.
  - destruct (IH eps H) as (us & R & T). rewrite R. exists (UTrain nc eps :: us). split; [reflexivity|].
    cbn [trains]. apply walk_le in W as [L _]. replace (nc' - nc)%nat with (S (nc' - S nc)) by lia. cbn [seq map]. rewrite T. reflexivity.
  - assert (E : match te with Some e => e | None => eps end = eps) by (destruct te as [q|]; [symmetry; apply H|]; reflexivity). rewrite E.
    destruct (IH eps H) as (us & R & T). rewrite R. eexists (_ :: us). split; [reflexivity | exact T].
Qed.
(** Calls of train_fn. *)
Lemma walk_calls e nc nt env l nc' nt' env' : walk (fun x => x = e) nc nt env l nc' nt' env' -> ~ In EResetCollectors l ->
  train_calls l = map (fun j => (e, env + sumz (fun k => cs_steps (collect k)) nc j)) (seq 0 (nc' - nc)) /\ collections l = seq nc (nc' - nc).
Proof. clear test buflen Tr.
  induction 1 as [nc nt env|nc nt env x l nc' nt' env' Pl W IH|nc nt env l nc' nt' env' N W IH|nc nt env ep l nc' nt' env' Pe W IH|nc nt env w ep l nc' nt' env' Hw W IH]; intros NI.
  - rewrite Nat.sub_diag. split; reflexivity.
  - destruct IH as [I1 I2]; [intros I; apply NI; right; exact I|]. destruct x; try discriminate Pl; cbn [train_calls collections]; auto.
  - exfalso. apply NI. left. reflexivity.
  - destruct IH as [I1 I2]; [intros I; apply NI; right; right; exact I|]. apply walk_le in W as [L _]. replace (nc' - nc)%nat with (S (nc' - S nc)) by lia.
    cbn [train_calls collections seq map]. rewrite I1, I2. subst ep. split; [|reflexivity]. f_equal; [f_equal; unfold sumz; cbn; lia|].
    rewrite <- seq_shift, map_map. apply map_ext. intros j. f_equal. rewrite sumz_S. lia.
  - destruct IH as [I1 I2]; [intros I; apply NI; right; exact I|]. cbn [train_calls collections]. auto.
Qed.
End Walk.

(** ** Statements *)
(** C266. With the linear decay the k-th training collection is made with the eps of the schedule at the number of steps collected before, whatever the tests do. *)
Lemma C266_decay_lemma : forall c collect test buflen fuel n rp tit s' l eps final decay te eps0,
  run c collect test buflen fuel n rp (new_trainer tit) = (s', Ok l) -> c_train c = true -> 0 < decay ->
  exists us e, replay (Some (TcDecay eps final decay)) te (s_ev s') eps0 = (us, Ok e) /\
    Forall2 (fun k u => fst u = k /\ scheduled eps final decay (first_step c + sumz (fun j => cs_steps (collect j)) 0 k) (snd u)) (seq 0 (s_nc s')) (trains us).
Proof.
  intros c collect test buflen fuel n rp tit s' l eps final decay te eps0 H Tr Hd.
  apply run_walk in H as (_ & _ & l' & E & _ & W); [|exact Tr]. rewrite E. cbn [replay].
  set (f := fun t => if t <=? decay then (eps - Q2Qc (inject_Z t) / Q2Qc (inject_Z decay) * (eps - final))%Qc else final).
  assert (F : forall t, call_train (TcDecay eps final decay) t = Ok (f t)).
  { intros t. cbn [call_train]. unfold eps_at, f. destruct (t <=? decay); [|reflexivity]. destruct (Z.eqb_spec decay 0); [lia|]. reflexivity. }
  destruct (replay_trains c collect test buflen (fun _ => True) (TcDecay eps final decay) te f _ _ _ _ _ _ _ F W ltac:(unfold sumz; cbn; lia) eps0) as (us & e & R & T).
  exists us, e. split; [exact R|]. rewrite T, Nat.sub_0_r.
  assert (S : forall t, scheduled eps final decay t (f t)).
  { intros t. unfold f. split; intros L; [destruct (Z.leb_spec t decay); [|lia] | destruct (Z.leb_spec t decay); [lia | reflexivity]].
    assert (Dn : Q2Qc (inject_Z decay) <> 0%Qc) by (apply Zc_neq0; lia).
    fold (Zc (decay - t)) (Zc decay) (Zc t). fold (Zc decay) in Dn. rewrite Zc_sub.
    field. exact Dn. }
  clearbody f. induction (seq 0 (s_nc s')) as [|k ks IH]; cbn [map]; constructor; [cbn [fst snd]; split; [reflexivity | apply S] | exact IH].
Qed.
(** C266. With a constant eps for training every training collection is made with it. *)
Lemma C266_constant_lemma : forall c collect test buflen fuel n rp tit s' l q te eps0,
  run c collect test buflen fuel n rp (new_trainer tit) = (s', Ok l) -> c_train c = true ->
  exists us e, replay (Some (TcSetEps q)) te (s_ev s') eps0 = (us, Ok e) /\ trains us = map (fun k => (k, q)) (seq 0 (s_nc s')).
Proof.
  intros c collect test buflen fuel n rp tit s' l q te eps0 H Tr.
  apply run_walk in H as (_ & _ & l' & E & _ & W); [|exact Tr]. rewrite E. cbn [replay].
  destruct (replay_trains c collect test buflen (fun _ => True) (TcSetEps q) te (fun _ => q) _ _ _ _ _ _ _ (fun _ => eq_refl) W ltac:(unfold sumz; cbn; lia) eps0) as (us & e & R & T).
  exists us, e. split; [exact R|]. rewrite T, Nat.sub_0_r. reflexivity.
Qed.
(** C267. With a test callback every test is made with its eps, whatever the training does. *)
Lemma C267_tests_partial_lemma : forall c collect test buflen fuel n rp tit s' l tr q eps0 us e,
  run c collect test buflen fuel n rp (new_trainer tit) = (s', Ok l) -> c_train c = true ->
  replay tr (Some q) (s_ev s') eps0 = (us, Ok e) -> map (fun x => (snd (fst x), snd x)) (tests us) = map (fun k => (k, q)) (seq 0 (s_nt s')).
Proof.
  intros c collect test buflen fuel n rp tit s' l tr q eps0 us e H Tr R.
  apply run_walk in H as (env0 & W & _); [|exact Tr]. rewrite <- (Nat.sub_0_r (s_nt s')). eapply replay_tests; eassumption.
Qed.
(** C267. Without a test callback only the tests before the training are made with the eps of the policy: all others are made with the one set for training. *)
Lemma C267_no_callback_refuted_lemma : forall c collect test buflen fuel n rp tit s' l q eps0,
  run c collect test buflen fuel n rp (new_trainer tit) = (s', Ok l) -> c_train c = true ->
  exists us e, replay (Some (TcSetEps q)) None (s_ev s') eps0 = (us, Ok e) /\
    forall w k x, In (w, k, x) (tests us) -> x = match w with TInit => eps0 | _ => q end.
Proof.
  intros c collect test buflen fuel n rp tit s' l q eps0 H Tr.
  destruct (C266_constant_lemma c collect test buflen fuel n rp tit s' l q None eps0 H Tr) as (us & e & R & _). exists us, e. split; [exact R|].
  apply run_walk in H as (env0 & W & _); [|exact Tr].
  assert (F : Forall (fun x : tkind * nat * Qc => snd x = match fst (fst x) with TInit => eps0 | _ => q end) (tests us)) by (eapply replay_no_test; [exact W | exact R | congruence | reflexivity]).
  intros w k x I. rewrite Forall_forall in F. apply (F _ I).
Qed.
(** C268. With a test callback and no train callback every training collection is made with the eps of the tests; the eps of the policy is never used. *)
Lemma C268_test_only_refuted_lemma : forall c collect test buflen fuel n rp tit s' l q eps0,
  run c collect test buflen fuel n rp (new_trainer tit) = (s', Ok l) -> c_train c = true -> c_test c = true ->
  exists us, replay None (Some q) (s_ev s') eps0 = (us, Ok q) /\ trains us = map (fun k => (k, q)) (seq 0 (s_nc s')).
Proof.
  intros c collect test buflen fuel n rp tit s' l q eps0 H Tr Ts.
  apply run_walk in H as (_ & _ & l' & E & T & W); [|exact Tr]. rewrite E. cbn [replay]. destruct (T Ts) as (ep & l'' & ->).
  inversion W; subst; [match goal with H : plain_ev _ = true |- _ => discriminate H end|].
  match goal with H : walk _ _ _ _ _ _ l'' _ _ _ |- _ => assert (X : exists us, replay None (Some q) l'' q = (us, Ok q) /\ trains us = map (fun k => (k, q)) (seq 0 (s_nc s' - 0))) by (eapply replay_no_train; [exact H | congruence]); destruct X as (us & R & Tn) end.
  cbn [replay]. rewrite R. eexists (_ :: us). split; [reflexivity|]. cbn [trains]. rewrite Tn, Nat.sub_0_r. reflexivity.
Qed.
(** C268. Without any callback every collection uses the eps of the policy. *)
Lemma C268_none_partial_lemma : forall c collect test buflen fuel n rp tit s' l eps0,
  run c collect test buflen fuel n rp (new_trainer tit) = (s', Ok l) -> c_train c = true ->
  exists us, replay None None (s_ev s') eps0 = (us, Ok eps0) /\ trains us = map (fun k => (k, eps0)) (seq 0 (s_nc s')).
Proof.
  intros c collect test buflen fuel n rp tit s' l eps0 H Tr.
  apply run_walk in H as (env0 & W & _); [|exact Tr].
  assert (X : exists us, replay None None (s_ev s') eps0 = (us, Ok eps0) /\ trains us = map (fun k => (k, eps0)) (seq 0 (s_nc s' - 0))) by (eapply replay_no_train; [exact W | discriminate]).
  destruct X as (us & R & T). exists us. rewrite Nat.sub_0_r in T. auto.
Qed.
(** C269. In every epoch train_fn is called once before each collection, with the epoch and the steps collected so far. *)
Lemma C269_calls_partial_lemma : forall c collect test buflen fuel s s' e,
  (s_iter s <= 0 -> s_stop s = false) -> c_train c = true -> next c collect test buflen fuel s = (s', Ok e) ->
  exists m l, (0 < m)%nat /\ s_ev s' = s_ev s ++ l /\ collections l = seq (s_nc s) m /\
    train_calls l = map (fun j => (e, s_env s + sumz (fun k => cs_steps (collect k)) (s_nc s) j)) (seq 0 m).
Proof.
  intros c collect test buflen fuel s s' e Hst Tr H.
  destruct (next_book c collect test buflen _ _ _ _ Hst H) as (_ & _ & _ & _ & _ & _ & l0 & El & NR & _).
  apply next_walk in H as ((l & E & W) & N); [|exact Tr|exact Hst].
  assert (l0 = l) by (rewrite El in E; apply app_inv_head in E; exact E). subst l0.
  apply walk_calls in W as [W1 W2]; [|exact NR].
  exists (s_nc s' - s_nc s)%nat, l. split; [lia|]. auto.
Qed.
(** C269. train_fn is not called once per epoch: with two collections in the first epoch it is called twice. *)
Lemma C269_once_refuted_lemma : exists c collect test buflen s' e,
  next c collect test buflen 5 (new_trainer true) = (s', Ok e) /\ train_calls (s_ev s') = [(1, 0); (1, 5)].
Proof.
  exists (mkCfg Onpolicy 1 10 (Some 4) 1 true false true (Some 1) None false None None), (fun _ => mkC 5 1 0%Qc), (fun _ => mkT 0%Qc 0%Qc 0%Qc 0%Qc), (fun _ => 5).
  eexists _, _. split; [vm_compute; reflexivity|]. vm_compute. reflexivity.
Qed.

(** ** Stopping *)
(** C270. The stop callback accepts the mean rewards that reach the threshold given, or else the one of the environment; if there is none it raises for every value. *)
Lemma C270_threshold_lemma : forall threshold spec,
  (exists t, (threshold = Some t \/ threshold = None /\ spec = Some (Some t)) /\
     exists f, (forall q, should_stop threshold spec q = Ok (f q)) /\ forall q, f q = true <-> (t <= q)%Qc) \/
  threshold = None /\ (spec = None /\ (forall q, should_stop threshold spec q = Err AttributeError) \/
                      spec = Some None /\ forall q, should_stop threshold spec q = Err AssertionError).
Proof.
  intros threshold spec.
  assert (S : forall t q, Qcleb t q = true <-> (t <= q)%Qc) by (intros t q; destruct (Qcleb_spec t q) as [L|L]; split; intros H; try exact L; try reflexivity; try discriminate H; exfalso; qclra).
  destruct threshold as [t|].
  - left. exists t. split; [left; reflexivity|]. exists (Qcleb t). split; [reflexivity | apply S].
  - destruct spec as [[t|]|].
    + left. exists t. split; [right; split; reflexivity|]. exists (Qcleb t). split; [reflexivity | apply S].
    + right. split; [reflexivity|]. right. split; reflexivity.
    + right. split; [reflexivity|]. left. split; reflexivity.
Qed.
(** C271. A run stopped before the last epoch has reached the threshold in some test; if no test during training stopped it, in the first test with the best score. *)
Lemma C271_reached_partial_lemma : forall c collect test buflen fuel n rp tit s' l t f,
  run c collect test buflen fuel n rp (new_trainer tit) = (s', Ok l) ->
  c_stop c = Some f -> (forall q, f q = true <-> (t <= q)%Qc) -> c_resume c = None ->
  Z.of_nat (length l) < c_max_epoch c ->
  (t <= s_best_reward s')%Qc /\
  (c_test c = true -> ~ train_stopped c test (s_ev s') ->
   exists pre rest k, s_ev s' = pre ++ EResetCollectors :: rest /\ ~ In EResetCollectors rest /\
     is_best (fun k => ts_score (test k)) (c_save_best c) rest (s_best_epoch s') k /\ (t <= ts_mean (test k))%Qc).
Proof.
  intros c collect test buflen fuel n rp tit s' l t f H Cs F Cr L.
  pose proof (C35_epochs_lemma _ _ _ _ _ _ _ _ _ _ H) as E. cbv zeta in E. rewrite Cr in E. cbn [new_trainer s_start] in E.
  destruct E as (_ & _ & _ & E). destruct (E ltac:(lia)) as (f' & Ef & R). rewrite Cs in Ef. injection Ef as <-. apply F in R.
  split; [exact R|]. intros Ct NT.
  destruct (C36_best_partial_lemma _ _ _ _ _ _ _ _ _ _ H Ct NT) as (pre & rest & k & A & B & C & _ & D); [rewrite Cr; cbn; lia|].
  exists pre, rest, k. rewrite D in R. auto.
Qed.
Lemma next_best_mono c collect test buflen fuel s s' e t f : (forall k, ts_score (test k) = ts_mean (test k)) -> c_test c = true ->
  c_stop c = Some f -> (forall q, f q = true <-> (t <= q)%Qc) -> (s_iter s <= 0 -> s_stop s = false) ->
  s_best_score s = s_best_reward s -> (t <= s_best_reward s)%Qc ->
  0 <= s_best_epoch s ->
  next c collect test buflen fuel s = (s', Ok e) -> s_stop s' = true.
Proof.
  intros Sm Ct Cs F Hst Eb R Be H. destruct (next_ok c collect test buflen _ _ _ _ Hst H) as (_ & _ & _ & s1 & m & l & Lf & T).
  cbv zeta in T. destruct (offline_env_eq c s1) as (_ & _ & _ & _ & _ & O6 & O7 & O8 & O9 & _ & O11 & _).
  destruct (s_stop s1) eqn:S1; [subst s'; rewrite O9; reflexivity|]. rewrite Ct in T. destruct T as (b & s4 & TS & ->). cbn [set_stop s_stop].
  pose proof (l_best _ _ _ _ _ _ _ _ Lf S1) as [B1 B2]. pose proof (l_be _ _ _ _ _ _ _ _ Lf) as B3. cbn [set_epoch s_best_score s_best_reward s_best_epoch] in B1, B2, B3.
  revert TS. unfold test_step. destruct (c_episode_per_test c); [|discriminate]. unfold test_episode. cbn -[Qcltb]. rewrite Cs.
  set (s2 := offline_env c s1) in *. intros TS.
  match type of TS with context [if ?B then _ else _] => destruct B eqn:C end.
  - apply orb_true_iff in C as [C|C]; [lia|]. rewrite O7, B1, Eb, Sm in C.
    assert (L : (t <= ts_mean (test (s_nt s2)))%Qc) by (destruct (Qcltb_spec (s_best_reward s) (ts_mean (test (s_nt s2)))) as [X|X]; [qclra | discriminate C]).
    destruct (c_save_best c); injection TS as _ <-; cbn -[Qcltb]; apply F, L.
  - injection TS as _ <-. cbn -[Qcltb]. apply F. rewrite O8, B2. exact R.
Qed.
(** C271. When the test before the training reaches the threshold, the training stops after one epoch, however bad the later tests are. *)
Lemma C271_initial_refuted_lemma : forall c collect test buflen fuel n (rp : bool) tit s' l t f,
  run c collect test buflen fuel n rp (new_trainer tit) = (s', Ok l) ->
  c_test c = true -> c_stop c = Some f -> (forall q, f q = true <-> (t <= q)%Qc) -> c_resume c = None ->
  (forall k, ts_score (test k) = ts_mean (test k)) -> (t <= ts_mean (test (if rp then 1 else 0)%nat))%Qc ->
  l = [1].
Proof.
  intros c collect test buflen fuel n rp tit s' l t f H Ct Cs F Cr Sm R.
  apply run_ok in H as (sa & sb & Ha & Hb & H).
  assert (A : s_nt sa = (if rp then 1 else 0)%nat /\ s_start sa = 0).
  { destruct Ha as [(-> & ->)|(Ha & ->)]; [split; reflexivity|]. pose proof (reset_ok c test _ _ Ha) as (A1 & _). rewrite Cr in A1. split; [|exact A1].
    apply reset_nt in Ha. rewrite Ct in Ha. exact Ha. }
  destruct A as [A1 A2]. pose proof (reset_ok c test _ _ Hb) as (B1 & B2 & B3 & B4 & _ & _ & _ & _ & _ & _ & B11).
  destruct (B11 Ct) as (D1 & D2 & D3). rewrite Cr, A2 in *. rewrite A1 in D2, D3.
  destruct n as [|n]; [discriminate H|]. cbn [TrainModel.run_loop] in H.
  destruct (next c collect test buflen fuel sb) as [s1 [e|e]] eqn:N.
  2:{ destruct e; try discriminate H. apply next_stop in N as (N & _). lia. }
  assert (St : s_stop s1 = true) by (eapply next_best_mono; [exact Sm | exact Ct | exact Cs | exact F | intros _; exact B4 | congruence | rewrite D3; exact R | lia | exact N]).
  destruct (next_book c collect test buflen _ _ _ _ ltac:(intros _; exact B4) N) as (_ & _ & I & _).
  destruct (next_ok c collect test buflen _ _ _ _ ltac:(intros _; exact B4) N) as (He & _).
  destruct n as [|n]; [discriminate H|]. cbn [TrainModel.run_loop] in H.
  assert (N2 : exists x, next c collect test buflen fuel s1 = (x, Err StopIteration)).
  { unfold next. cbn [set_epoch s_iter s_epoch s_stop]. rewrite St. destruct (Z.ltb_spec 1 (s_iter s1 + 1)); [|lia]. cbn [andb].
    destruct (c_max_epoch c <? s_epoch s1 + 1); eexists; reflexivity. }
  destruct N2 as (x & N2). rewrite N2 in H. injection H as _ <-. rewrite He, B2. reflexivity.
Qed.
