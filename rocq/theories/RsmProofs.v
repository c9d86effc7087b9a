(** * Proofs about resuming a training *)
From Verif Require Import PyLemmas TrainModel TrainProofs CompSpec CompProofs RsmSpec.
Open Scope Z_scope.

Lemma training_app l1 l2 : training (l1 ++ l2) = training l1 ++ training l2.
Proof. apply filter_app. Qed.

Section Rel.
Variable c : config.
Variable r : option (Z * Z * Z).
Variables (collect : nat -> cstat) (test test' : nat -> tstat) (buflen : nat -> Z) (d : nat) (P : list event).
Hypothesis NoStop : c_stop c = None.
Notation c' := (with_resume c r).
Notation collect' := (fun j => collect (d + j)%nat).
Notation buflen' := (fun j => buflen (d + j)%nat).

(** The state of the whole training and that of the resumed one. *)
Record rel (s s' : st) : Prop := mkRel {
  r_epoch : s_epoch s = s_epoch s'; r_env : s_env s = s_env s'; r_grad : s_grad s = s_grad s';
  r_stop : s_stop s = false; r_stop' : s_stop s' = false; r_nc : s_nc s = (d + s_nc s')%nat;
  r_ev : training (s_ev s) = P ++ training (s_ev s') }.
Lemma rel_emit s s' e : rel s s' -> rel (emit s e) (emit s' e).
Proof.
  intros []. constructor; auto. cbn [emit s_ev]. rewrite !training_app, r_ev0, <- app_assoc. reflexivity.
Qed.
Lemma rel_emit2 s s' e e' : rel s s' -> of_training e = false -> of_training e' = false -> rel (emit s e) (emit s' e').
Proof.
  intros [] H H'. constructor; auto. cbn [emit s_ev]. rewrite !training_app, r_ev0. unfold training at 2 4. cbn [filter]. rewrite H, H', !app_nil_r. reflexivity.
Qed.
Lemma rel_emitl s s' e : rel s s' -> of_training e = false -> rel (emit s e) s'.
Proof.
  intros [] H. constructor; auto. cbn [emit s_ev]. rewrite training_app, r_ev0. unfold training at 2. cbn [filter]. rewrite H, app_nil_r. reflexivity.
Qed.
Lemma rel_emitr s s' e : rel s s' -> of_training e = false -> rel s (emit s' e).
Proof.
  intros [] H. constructor; auto. cbn [emit s_ev]. rewrite training_app, r_ev0. unfold training at 3. cbn [filter]. rewrite H, app_nil_r. reflexivity.
Qed.
Ltac same := intros []; constructor; cbn [set_env set_ep set_grad set_best set_stop set_calls set_epoch s_epoch s_env s_grad s_stop s_nc s_ev]; auto; try congruence.
Lemma rel_env s s' x x' : rel s s' -> x = x' -> rel (set_env s x) (set_env s' x').
Proof. same. Qed.
Lemma rel_grad s s' x x' : rel s s' -> x = x' -> rel (set_grad s x) (set_grad s' x').
Proof. same. Qed.
Lemma rel_ep s s' x x' : rel s s' -> rel (set_ep s x) (set_ep s' x').
Proof. same. Qed.
Lemma rel_best s s' e x y : rel s s' -> rel (set_best s e x y) s'.
Proof. same. Qed.
Lemma rel_best' s s' e x y : rel s s' -> rel s (set_best s' e x y).
Proof. same. Qed.
Lemma rel_calls s s' n t n' t' : rel s s' -> n = (d + n')%nat -> rel (set_calls s n t) (set_calls s' n' t').
Proof. same. Qed.
Lemma rel_nostop s s' : rel s s' -> rel (set_stop s false) (set_stop s' false).
Proof. same. Qed.
Lemma rel_setepoch s s' i i' e e' : rel s s' -> e = e' -> rel (set_epoch s e i) (set_epoch s' e' i').
Proof. same. Qed.
(** Outcomes that agree. *)
Definition agree {A} (x y : st * res A) : Prop := rel (fst x) (fst y) /\ snd x = snd y.

Lemma rel_updates n : forall s s', rel s s' -> rel (updates n s) (updates n s').
Proof.
  induction n as [|n IH]; intros s s' H; [exact H|]. cbn [updates]. apply IH. unfold sample_and_update. apply rel_emit, rel_grad; [exact H|]. rewrite (r_grad _ _ H). reflexivity.
Qed.
Lemma agree_update s s' n : rel s s' -> agree (policy_update c buflen s n) (policy_update c' buflen' s' n).
Proof.
  intros H. unfold policy_update. cbn [with_resume c_kind c_buffer c_train c_update_per_step c_batch].
  destruct (c_kind c).
  - destruct (c_buffer c) as [b|]; [|split; [exact H|reflexivity]]. destruct (b <=? 0); [split; [exact H|reflexivity]|].
    split; [|reflexivity]. exact (rel_updates 1 _ _ H).
  - destruct (negb (c_train c)); [split; [exact H|reflexivity]|]. destruct (_ =? 0); [split; [exact H|reflexivity]|].
    split; [|reflexivity]. apply rel_updates, H.
  - destruct (negb (c_train c)); [split; [exact H|reflexivity]|]. split; [|reflexivity]. cbn [fst].
    assert (G : rel (set_grad (emit s EUpdate) (s_grad (emit s EUpdate) + 1)) (set_grad (emit s' EUpdate) (s_grad (emit s' EUpdate) + 1))).
    { apply rel_grad; [apply rel_emit, H|]. cbn. rewrite (r_grad _ _ H). reflexivity. }
    destruct (c_batch c) as [b|].
    + destruct (0 <? b); [|exact G]. apply rel_grad; [exact G|]. rewrite (r_grad _ _ G), (r_nc _ _ G). reflexivity.
    + apply rel_grad; [exact G|]. rewrite (r_grad _ _ G). reflexivity.
Qed.
Lemma agree_step s s' : rel s s' -> agree (training_step c collect test buflen s) (training_step c' collect' test' buflen' s').
Proof.
  intros H. unfold training_step, collect_training_data, train_stop. cbn [with_resume c_train c_stop c_episode_per_test c_buffer]. rewrite NoStop.
  destruct (c_train c).
  - destruct (c_episode_per_test c); [|split; [exact H|reflexivity]].
    cbn [emit s_nc s_nt s_env s_ep s_epoch set_calls].
    rewrite <- (r_nc _ _ H), <- (r_epoch _ _ H), <- (r_env _ _ H).
    set (cs := collect (s_nc s)).
    match goal with |- agree (match policy_update c buflen ?a ?n with _ => _ end) (match policy_update _ _ ?b _ with _ => _ end) =>
      assert (A : agree (policy_update c buflen a n) (policy_update c' buflen' b n)) end.
    { apply agree_update, rel_ep, rel_env; [|reflexivity]. apply rel_emit2; [|reflexivity|reflexivity]. apply rel_calls; [apply rel_emit, H|]. rewrite (r_nc _ _ H). lia. }
    destruct A as [A1 A2]. destruct (policy_update c buflen _ _) as [s1 r1], (policy_update c' buflen' _ _) as [s2 r2]. cbn [fst snd] in A1, A2. subst r2.
    destruct r1; (split; [exact A1|reflexivity]).
  - destruct (c_buffer c); [|split; [exact H|reflexivity]].
    destruct (agree_update s s' 0 H) as [A1 A2]. destruct (policy_update c buflen s 0) as [s1 r1], (policy_update c' buflen' s' 0) as [s2 r2]. cbn [fst snd] in A1, A2. subst r2.
    destruct r1; (split; [exact A1|reflexivity]).
Qed.
Lemma step_nostop s s1 n b : training_step c collect test buflen s = (s1, Ok (n, b)) -> b = false.
Proof.
  unfold training_step, train_stop. rewrite NoStop. destruct (c_train c).
  - destruct (collect_training_data _ _ _) as [s2 [cs|]]; [|discriminate]. destruct (policy_update _ _ _ _) as [s3 [|]]; [|discriminate]. intros [= _ _ <-]. reflexivity.
  - destruct (c_buffer c); [|discriminate]. destruct (policy_update _ _ _ _) as [s3 [|]]; [|discriminate]. intros [= _ _ <-]. reflexivity.
Qed.
Lemma agree_loop fuel : forall dn s s', rel s s' -> agree (epoch_loop c collect test buflen fuel dn s) (epoch_loop c' collect' test' buflen' fuel dn s').
Proof.
  induction fuel as [|fuel IH]; intros dn s s' H; cbn [epoch_loop]; cbn [with_resume c_step_per_epoch]; rewrite (r_stop _ _ H), (r_stop' _ _ H); cbn [negb].
  - destruct (_ && _); (split; [exact H|reflexivity]).
  - destruct (_ && _); [|split; [exact H|reflexivity]].
    destruct (agree_step s s' H) as [A1 A2]. destruct (training_step c collect test buflen s) as [s1 r1] eqn:E1, (training_step c' _ _ _ s') as [s2 r2]. cbn [fst snd] in A1, A2. subst r2.
    destruct r1 as [[n b]|e]; [|split; [exact A1|reflexivity]]. apply step_nostop in E1 as ->. apply IH, rel_nostop, A1.
Qed.
Lemma agree_test s s' : rel s s' -> agree (test_step c test s) (test_step c' test' s') /\ forall s1 b, test_step c test s = (s1, Ok b) -> b = false.
Proof.
  intros H. unfold test_step. cbn [with_resume c_episode_per_test c_stop c_save_best]. rewrite NoStop.
  destruct (c_episode_per_test c); [|split; [split; [exact H|reflexivity]|discriminate]]. cbn [test_episode].
  split; [|intros s1 b [= _ <-]; reflexivity]. split; [|reflexivity]. cbn [fst].
  assert (K : forall (b1 b2 : bool) e e' (x1 y1 z1 x2 y2 z2 : _), rel
    (if b1 then let s := set_best (emit (set_calls s (s_nc s) (S (s_nt s))) (ETest TStep e (s_nt s))) x1 y1 z1 in if c_save_best c then emit s ESaveBest else s
     else emit (set_calls s (s_nc s) (S (s_nt s))) (ETest TStep e (s_nt s)))
    (if b2 then let s := set_best (emit (set_calls s' (s_nc s') (S (s_nt s'))) (ETest TStep e' (s_nt s'))) x2 y2 z2 in if c_save_best c then emit s ESaveBest else s
     else emit (set_calls s' (s_nc s') (S (s_nt s'))) (ETest TStep e' (s_nt s')))).
  { intros b1 b2 e e' x1 y1 z1 x2 y2 z2. destruct b1, b2, (c_save_best c); cbv zeta;
      repeat first [apply rel_emitl; [|reflexivity] | apply rel_emitr; [|reflexivity] | apply rel_best | apply rel_best'];
      (apply rel_calls; [exact H|apply (r_nc _ _ H)]). }
  apply K.
Qed.
Lemma agree_next fuel s s' : rel s s' -> 0 < s_iter s -> 0 <= s_iter s' -> (s_iter s' = 0 -> s_epoch s' + 1 <= c_max_epoch c) ->
  agree (next c collect test buflen fuel s) (next c' collect' test' buflen' fuel s').
Proof.
  intros H I I' F. unfold next. cbn [with_resume c_max_epoch c_train c_buffer c_batch c_test c_step_per_epoch].
  set (s0 := set_epoch s (s_epoch s + 1) (s_iter s + 1)). set (s0' := set_epoch s' (s_epoch s' + 1) (s_iter s' + 1)).
  assert (H0 : rel s0 s0') by (apply rel_setepoch; [exact H|rewrite (r_epoch _ _ H); reflexivity]).
  assert (E1 : (1 <? s_iter s0) && (c_max_epoch c <? s_epoch s0) = (1 <? s_iter s0') && (c_max_epoch c <? s_epoch s0')).
  { cbn [s0 s0' set_epoch s_iter s_epoch]. rewrite (r_epoch _ _ H). destruct (Z.ltb_spec 1 (s_iter s + 1)); [|lia]. cbn [andb].
    destruct (Z.ltb_spec 1 (s_iter s' + 1)); [reflexivity|]. cbn [andb]. apply Z.ltb_ge, F. lia. }
  rewrite E1. destruct (_ && (_ <? s_epoch s0')); [split; [exact H0|reflexivity]|].
  rewrite (r_stop _ _ H0), (r_stop' _ _ H0), !andb_false_r.
  destruct (agree_loop fuel 0 s0 s0' H0) as [A1 A2].
  destruct (epoch_loop c collect test buflen fuel 0 s0) as [s1 r1], (epoch_loop c' _ _ _ fuel 0 s0') as [s1' r1']. cbn [fst snd] in A1, A2. subst r1'.
  destruct r1 as [u|e]; [|split; [exact A1|reflexivity]].
  assert (T : forall s2 s2', rel s2 s2' ->
    agree (match (if s_stop s2 then (s2, Ok tt) else
             let s3 := emit s2 (ESaveData (s_epoch s2) (s_env s2) (s_grad s2)) in
             if c_test c then match test_step c test s3 with (s4, Err e) => (s4, Err e) | (s4, Ok stop) => (set_stop s4 stop, Ok tt) end else (s3, Ok tt)) with
           | (s4, Err e) => (s4, Err e) | (s4, Ok _) => if c_step_per_epoch c <=? 0 then (s4, Err RuntimeError) else (s4, Ok (s_epoch s4)) end)
          (match (if s_stop s2' then (s2', Ok tt) else
             let s3 := emit s2' (ESaveData (s_epoch s2') (s_env s2') (s_grad s2')) in
             if c_test c then match test_step c' test' s3 with (s4, Err e) => (s4, Err e) | (s4, Ok stop) => (set_stop s4 stop, Ok tt) end else (s3, Ok tt)) with
           | (s4, Err e) => (s4, Err e) | (s4, Ok _) => if c_step_per_epoch c <=? 0 then (s4, Err RuntimeError) else (s4, Ok (s_epoch s4)) end)).
  { intros s2 s2' H2. rewrite (r_stop _ _ H2), (r_stop' _ _ H2), (r_epoch _ _ H2), (r_env _ _ H2), (r_grad _ _ H2). cbv zeta.
    set (ev := ESaveData _ _ _). assert (H3 : rel (emit s2 ev) (emit s2' ev)) by (apply rel_emit, H2).
    assert (Fin : forall a b, rel a b -> agree (if c_step_per_epoch c <=? 0 then (a, Err RuntimeError) else (a, Ok (s_epoch a)))
       (if c_step_per_epoch c <=? 0 then (b, Err RuntimeError) else (b, Ok (s_epoch b)))).
    { intros a b Hab. destruct (_ <=? 0); (split; [exact Hab|]); [reflexivity|]. cbn [snd]. rewrite (r_epoch _ _ Hab). reflexivity. }
    destruct (c_test c); [|apply Fin, H3].
    destruct (agree_test _ _ H3) as [[B1 B2] B3]. destruct (test_step c test (emit s2 ev)) as [s4 r4], (test_step c' test' (emit s2' ev)) as [s4' r4']. cbn [fst snd] in B1, B2. subst r4'.
    destruct r4 as [b|e]; [|split; [exact B1|reflexivity]]. rewrite (B3 s4 b eq_refl). apply Fin, rel_nostop, B1. }
  destruct (c_train c); [apply T, A1|]. destruct (c_buffer c) as [n|]; [|split; [exact A1|reflexivity]].
  apply T, rel_env; [exact A1|]. rewrite (r_grad _ _ A1). reflexivity.
Qed.
Lemma loop_stop fuel : forall dn s s1 u, s_stop s = false -> epoch_loop c collect test buflen fuel dn s = (s1, Ok u) -> s_stop s1 = false.
Proof.
  induction fuel as [|fuel IH]; intros dn s s1 u S H; cbn [epoch_loop] in H; rewrite S in H; cbn [negb] in H.
  - destruct (_ && _); [discriminate|]. injection H as <- _. exact S.
  - destruct (_ && _); [|injection H as <- _; exact S]. destruct (training_step c collect test buflen s) as [s2 [[n b]|e]] eqn:E; [|discriminate].
    apply step_nostop in E as ->. eapply IH; [|exact H]. reflexivity.
Qed.
Lemma last_saved_app l l' : last_saved (l ++ l') = fold_left (fun r e => match e with ESaveData a b c => Some (a, b, c) | _ => r end) l' (last_saved l).
Proof. unfold last_saved. apply fold_left_app. Qed.
(** An epoch saves its counters at its end. *)
Lemma next_saves fuel s s1 e : s_stop s = false -> next c collect test buflen fuel s = (s1, Ok e) ->
  s_stop s1 = false /\ last_saved (s_ev s1) = Some (s_epoch s1, s_env s1, s_grad s1).
Proof.
  intros S H. unfold next in H. set (s0 := set_epoch s (s_epoch s + 1) (s_iter s + 1)) in H.
  destruct (_ && (_ <? _)); [discriminate|]. change (s_stop s0) with (s_stop s) in H. rewrite S, andb_false_r in H.
  destruct (epoch_loop c collect test buflen fuel 0 s0) as [s2 [u|]] eqn:L; [|discriminate]. apply loop_stop in L; [|exact S].
  assert (T : forall s2, s_stop s2 = false ->
     match (if s_stop s2 then (s2, Ok tt) else
             let s3 := emit s2 (ESaveData (s_epoch s2) (s_env s2) (s_grad s2)) in
             if c_test c then match test_step c test s3 with (s4, Err e) => (s4, Err e) | (s4, Ok stop) => (set_stop s4 stop, Ok tt) end else (s3, Ok tt)) with
           | (s4, Err e) => (s4, Err e) | (s4, Ok _) => if c_step_per_epoch c <=? 0 then (s4, Err RuntimeError) else (s4, Ok (s_epoch s4)) end = (s1, Ok e) ->
     s_stop s1 = false /\ last_saved (s_ev s1) = Some (s_epoch s1, s_env s1, s_grad s1)).
  { clear -NoStop. intros s3 S' H'. rewrite S' in H'. clear -NoStop S' H'. rename S' into S, H' into H, s3 into s2. cbv zeta in H. destruct (c_test c).
    - unfold test_step in H. rewrite NoStop in H. destruct (c_episode_per_test c); [|discriminate]. cbn [test_episode] in H.
      destruct (c_step_per_epoch c <=? 0); [discriminate|]. injection H as <- _.
      split; [reflexivity|]. cbn [set_stop s_ev s_epoch s_env s_grad].
      destruct (_ || _); [destruct (c_save_best c)|]; cbn [emit set_best set_calls s_ev s_epoch s_env s_grad]; rewrite !last_saved_app; reflexivity.
    - destruct (c_step_per_epoch c <=? 0); [discriminate|]. injection H as <- _. split; [exact S|]. cbn [emit s_ev s_epoch s_env s_grad]. rewrite last_saved_app. reflexivity. }
  destruct (c_train c); [apply (T s2 L H)|]. destruct (c_buffer c) as [n|]; [|discriminate]. refine (T (set_env s2 _) L H).
Qed.
Lemma rel_run fuel n : forall s s' s2 l, rel s s' -> 0 < s_iter s -> 0 <= s_iter s' -> (s_iter s' = 0 -> s_epoch s' + 1 <= c_max_epoch c) ->
  run_loop c' collect' test' buflen' fuel n s' = (s2, Ok l) -> exists s3, run_loop c collect test buflen fuel n s = (s3, Ok l) /\ rel s3 s2.
Proof.
  induction n as [|n IH]; intros s s' s2 l H I I' F R; [discriminate|]. cbn [run_loop] in *.
  destruct (agree_next fuel s s' H I I' F) as [A1 A2]. 
  destruct (next c collect test buflen fuel s) as [s1 r1] eqn:N, (next c' _ _ _ fuel s') as [s1' r1'] eqn:N'. cbn [fst snd] in A1, A2. subst r1'.
  destruct r1 as [e|e].
  - destruct (run_loop c' _ _ _ fuel n s1') as [s3 [l3|]] eqn:R3; [|discriminate]. injection R as <- <-.
    apply next_book in N as (_ & _ & N3 & _); [|rewrite (r_stop _ _ H); auto]. apply next_book in N' as (_ & _ & N3' & _); [|rewrite (r_stop' _ _ H); auto].
    apply (IH s1) in R3 as (s4 & -> & R4); [|exact A1|lia|lia|intros; lia]. exists s4. auto.
  - destruct e; try discriminate. injection R as <- <-. exists s1. auto.
Qed.
End Rel.

Section Parts.
Variable c : config.
Variables (collect : nat -> cstat) (test : nat -> tstat) (buflen : nat -> Z).
Hypothesis NoStop : c_stop c = None.
Notation cE := (with_epochs c).
(** The longer training after the epochs of the shorter one. *)
Lemma run_parts k E fuel : k <= E -> forall n s s1 l1, 0 <= s_iter s -> s_stop s = false ->
  (0 < s_iter s -> last_saved (s_ev s) = Some (s_epoch s, s_env s, s_grad s)) ->
  run_loop (cE k) collect test buflen fuel n s = (s1, Ok l1) ->
  exists s1', 0 < s_iter s1' /\ s_stop s1' = false /\ last_saved (s_ev s1') = Some (s_epoch s1', s_env s1', s_grad s1') /\ k < s_epoch s1' + 1 /\
    s_nc s1 = s_nc s1' /\ s_ev s1 = s_ev s1' /\ s_env s1 = s_env s1' /\ s_grad s1 = s_grad s1' /\ s_epoch s1' = s_epoch s + Z.of_nat (length l1) /\
    forall m s2 l2, run_loop (cE E) collect test buflen fuel m s1' = (s2, Ok l2) -> run_loop (cE E) collect test buflen fuel (length l1 + m) s = (s2, Ok (l1 ++ l2)).
Proof.
  intros LE n. induction n as [|n IH]; intros s s1 l1 Hi Hs Sv R; [discriminate|]. cbn [run_loop] in R.
  destruct (Z_lt_le_dec 0 (s_iter s)) as [I|I]; [destruct (Z_lt_le_dec k (s_epoch s + 1)) as [Q|Q]|].
  - assert (X : next (cE k) collect test buflen fuel s = (set_epoch s (s_epoch s + 1) (s_iter s + 1), Err StopIteration)).
    { unfold next. set (s0 := set_epoch s (s_epoch s + 1) (s_iter s + 1)).
      assert (J : (1 <? s_iter s0) && (c_max_epoch (cE k) <? s_epoch s0) = true).
      { apply andb_true_iff. split; apply Z.ltb_lt; cbn [s0 set_epoch s_iter s_epoch with_epochs c_max_epoch]; lia. }
      rewrite J. reflexivity. }
    rewrite X in R. injection R as <- <-. exists s. cbn [set_epoch s_nc s_ev s_env s_grad length]. rewrite Z.add_0_r.
    repeat match goal with |- _ /\ _ => split end; auto.
  - rewrite (next_epochs c collect test buflen k E) in R by lia. destruct (next (cE E) collect test buflen fuel s) as [s3 [e|e]] eqn:N.
    + destruct (run_loop (cE k) collect test buflen fuel n s3) as [s4 [l3|]] eqn:R3; [|discriminate]. injection R as <- <-.
      destruct (next_saves (cE E) collect test buflen NoStop _ _ _ _ Hs N) as [S3 V3].
      destruct (next_book (cE E) collect test buflen _ _ _ _ (fun _ => Hs) N) as (_ & E3 & N3 & _).
      assert (I3 : 0 <= s_iter s3) by lia.
      destruct (IH _ _ _ I3 S3 (fun _ => V3) R3) as (s1' & X1 & X2 & X3 & X4 & X5 & X6 & X7 & X8 & X9 & X10). exists s1'.
      split; [exact X1|]. split; [exact X2|]. split; [exact X3|]. split; [exact X4|]. split; [exact X5|]. split; [exact X6|]. split; [exact X7|]. split; [exact X8|].
      split; [rewrite X9, E3; cbn [length]; lia|].
      intros m s2 l2 H. cbn [length Nat.add app]. cbn [run_loop]. rewrite N, (X10 m s2 l2 H). reflexivity.
    + exfalso. destruct e; try discriminate. clear R. apply next_stop in N. destruct N as (N0 & N1 & [N2|N2]); cbn [with_epochs c_max_epoch] in N2; [lia|congruence].
  - rewrite (next_epochs c collect test buflen k E) in R by lia. destruct (next (cE E) collect test buflen fuel s) as [s3 [e|e]] eqn:N.
    + destruct (run_loop (cE k) collect test buflen fuel n s3) as [s4 [l3|]] eqn:R3; [|discriminate]. injection R as <- <-.
      destruct (next_saves (cE E) collect test buflen NoStop _ _ _ _ Hs N) as [S3 V3].
      destruct (next_book (cE E) collect test buflen _ _ _ _ (fun _ => Hs) N) as (_ & E3 & N3 & _).
      assert (I3 : 0 <= s_iter s3) by lia.
      destruct (IH _ _ _ I3 S3 (fun _ => V3) R3) as (s1' & X1 & X2 & X3 & X4 & X5 & X6 & X7 & X8 & X9 & X10). exists s1'.
      split; [exact X1|]. split; [exact X2|]. split; [exact X3|]. split; [exact X4|]. split; [exact X5|]. split; [exact X6|]. split; [exact X7|]. split; [exact X8|].
      split; [rewrite X9, E3; cbn [length]; lia|].
      intros m s2 l2 H. cbn [length Nat.add app]. cbn [run_loop]. rewrite N, (X10 m s2 l2 H). reflexivity.
    + exfalso. destruct e; try discriminate. clear R. apply next_stop in N. destruct N as (N0 & N1 & [N2|N2]); cbn [with_epochs c_max_epoch] in N2; [lia|congruence].
Qed.
End Parts.

(** C328. A training without stop function that ended after epoch [k] and is resumed from what was saved last performs the remaining
    epochs: in both parts together the same epochs, collections, calls of train_fn, updates and saved counters as the training in one go, up to the same counters. *)
Lemma C328_resume_lemma : forall (c : config) (k E : Z) collect test test2 buflen fuel n1 n2 (rp tit : bool) s1 s2 l1 l2,
  c_stop c = None -> c_resume c = None -> (1 <= k)%Z -> (k < E)%Z ->
  run (with_epochs c k) collect test buflen fuel n1 rp (new_trainer tit) = (s1, Ok l1) ->
  run (with_resume (with_epochs c E) (last_saved (s_ev s1))) (fun j => collect (s_nc s1 + j)%nat) test2 (fun j => buflen (s_nc s1 + j)%nat) fuel n2 rp (new_trainer tit) = (s2, Ok l2) ->
  exists n s, run (with_epochs c E) collect test buflen fuel n rp (new_trainer tit) = (s, Ok (l1 ++ l2)) /\
    s_env s = s_env s2 /\ s_grad s = s_grad s2 /\ s_nc s = (s_nc s1 + s_nc s2)%nat /\ training (s_ev s) = training (s_ev s1) ++ training (s_ev s2).
Proof.
  intros c k E collect test test2 buflen fuel n1 n2 rp tit s1 s2 l1 l2 NS NR K1 KE R1 R2.
  pose proof (C35_epochs_lemma _ _ _ _ _ _ _ _ _ _ R1) as B. cbv zeta in B. cbn [with_epochs c_resume c_max_epoch] in B. rewrite NR in B. cbn [new_trainer s_start] in B.
  destruct B as (_ & _ & B & _).
  pose proof R1 as R1'. apply run_ok in R1 as (sa & sb & Ha & Hb & R1).
  assert (Z0 : s_start sa = 0 /\ s_nc sa = 0%nat /\ training (s_ev sa) = []).
  { destruct Ha as [[-> _]|[Ha _]]; [repeat split|]. apply reset_ok in Ha as (A1 & _ & _ & _ & _ & _ & _ & A2 & _ & A3 & _). rewrite A1, A2, A3. cbn [with_epochs c_resume]. rewrite NR. cbn [with_epochs c_resume].
    split; [reflexivity|]. split; [reflexivity|]. rewrite training_app. cbn. destruct (c_test c), (c_save_best c); reflexivity. }
  destruct Z0 as (Z1 & Z2 & Z3).
  pose proof Hb as Hb'. apply reset_ok in Hb' as (_ & B2 & B3 & B4 & _). cbn [with_epochs c_resume] in B2. rewrite NR, Z1 in B2.
  destruct (run_parts c collect test buflen NS k E fuel ltac:(lia) n1 sb s1 l1 ltac:(lia) B4 ltac:(intros; lia) R1) as (s1' & X1 & X2 & X3 & X4 & X5 & X6 & X7 & X8 & X9 & X10).
  rewrite X6 in R2. rewrite X3 in R2. apply run_ok in R2 as (sc & sd & Hc & Hd & R2).
  assert (W0 : s_nc sc = 0%nat /\ training (s_ev sc) = []).
  { destruct Hc as [[-> _]|[Hc _]]; [repeat split|]. apply reset_ok in Hc as (A1 & _ & _ & _ & _ & _ & _ & A2 & _ & A3 & _). rewrite A2, A3.
    split; [reflexivity|]. rewrite training_app. cbn. destruct (c_test c), (c_save_best c); reflexivity. }
  destruct W0 as (W1 & W2).
  apply reset_ok in Hd as (_ & D2 & D3 & D4 & D5 & D6 & _ & D8 & _ & D10 & _). cbn [with_resume with_epochs c_resume] in D2, D5, D6.
  assert (RR : rel (s_nc s1) (training (s_ev s1)) s1' sd).
  { constructor; try congruence.
    - rewrite D8, W1. lia.
    - rewrite X6, D10, training_app, W2. cbn. destruct (c_test c), (c_save_best c); cbn; rewrite app_nil_r; reflexivity. }
  apply (rel_run (with_epochs c E) _ collect test test2 buflen (s_nc s1) (training (s_ev s1)) NS fuel n2 s1' sd) in R2; [|exact RR|exact X1|lia|].
  2:{ intros _. cbn [with_epochs c_max_epoch]. rewrite D2, X9, B2. lia. }
  destruct R2 as (s3 & R3 & Q). exists (length l1 + n2)%nat, s3.
  split; [|destruct Q; auto].
  apply X10 in R3. unfold run. change (reset (with_epochs c E) test) with (reset c test). change (reset (with_epochs c k) test) with (reset c test) in Ha, Hb. destruct rp.
  - destruct Ha as [[_ H]|[Ha _]]; [discriminate|]. rewrite Ha, Hb. exact R3.
  - destruct Ha as [[-> _]|[_ H]]; [|discriminate]. rewrite Hb. exact R3.
Qed.

Lemma never_stopped c test l : c_stop c = None -> ~ train_stopped c test l.
Proof. intros NS (f & e & k & H & _). congruence. Qed.
Lemma last_unique {A} (x : A) : forall p p' r r', ~ In x r -> ~ In x r' -> p ++ x :: r = p' ++ x :: r' -> r = r'.
Proof.
  induction p as [|y p IH]; intros [|z p'] r r' H H' E; cbn in E.
  - congruence.
  - injection E as <- ->. exfalso. apply H. apply in_or_app. right. left. reflexivity.
  - injection E as -> <-. exfalso. apply H'. apply in_or_app. right. left. reflexivity.
  - injection E as _ E. exact (IH p' r r' H H' E).
Qed.
Lemma resumed_events c (e n g : Z) collect test buflen fuel m (rp : bool) s s2 l2 :
  c_test c = true -> c_resume c = Some (e, n, g) -> run c collect test buflen fuel m rp s = (s2, Ok l2) ->
  exists pre k0 rest, s_ev s2 = pre ++ EResetCollectors :: ETest TInit e k0 :: (if c_save_best c then [ESaveBest] else []) ++ rest /\ ~ In EResetCollectors rest.
Proof.
  intros CT CR R. apply run_ok in R as (sa & sb & _ & Hb & R). apply reset_ok in Hb as (_ & _ & B3 & B4 & _ & _ & _ & _ & _ & B10 & _).
  apply run_loop_book in R; [|lia|auto|congruence]. destruct R as (_ & _ & _ & _ & _ & _ & q & ev & R7 & R8 & _).
  rewrite R7, B10, CT, CR, <- app_assoc. cbn [app]. eexists _, _, _. split; [reflexivity|exact R8].
Qed.
(** C329. A resumed training saves as the best policy the best since it was resumed: if the policy it starts with is at least as good as the best before, so is what is saved and reported in the end. *)
Lemma C329_since_partial_lemma : forall (c : config) (e n g : Z) collect test buflen fuel m (rp : bool) s s2 l2 (B : Qc), (0 <= e)%Z ->
  c_stop c = None -> c_test c = true -> c_resume c = Some (e, n, g) -> run c collect test buflen fuel m rp s = (s2, Ok l2) ->
  (forall k, In (ETest TInit e k) (s_ev s2) -> (B <= ts_score (test k))%Qc) -> (B <= s_best_score s2)%Qc.
Proof.
  intros c e n g collect test buflen fuel m rp s s2 l2 B E0 NS CT CR R HB.
  destruct (C36_best_partial_lemma _ _ _ _ _ _ _ _ _ _ R CT (never_stopped _ _ _ NS)) as (pre & rest & k & Ev & NI & (a & w & b & El & Hw & H1 & H2 & _) & -> & _); [rewrite CR; exact E0|].
  destruct (resumed_events c e n g _ _ _ _ _ _ _ _ _ CT CR R) as (pre' & k0 & rest' & Ev' & NI').
  assert (NJ : ~ In EResetCollectors (ETest TInit e k0 :: (if c_save_best c then [ESaveBest] else []) ++ rest')).
  { intros [X|X]; [discriminate X|]. apply in_app_iff in X as [X|X]; [|exact (NI' X)]. destruct (c_save_best c); cbn in X; intuition discriminate. }
  pose proof Ev as Ev2. rewrite Ev' in Ev2. apply last_unique in Ev2; [|exact NJ|exact NI].
  assert (I : In (ETest TInit e k0) rest) by (rewrite <- Ev2; left; reflexivity).
  assert (B0 : (B <= ts_score (test k0))%Qc) by (apply HB; rewrite Ev; apply in_or_app; right; right; exact I).
  rewrite El in I. apply in_app_or in I as [I|[I|I]].
  - apply Qcle_trans with (1 := B0). apply Qclt_le_weak. apply (H1 _ _ _ I). discriminate.
  - injection I as _ _ ->. exact B0.
  - apply Qcle_trans with (1 := B0). apply (H2 _ _ _ I). discriminate.
Qed.
(** C329. Not the best of all: when resuming, save_best_fn is called for the current policy, whatever was saved before, and if all tests since then are worse than the best before, so is the policy saved and the best score reported in the end. *)
Lemma C329_best_refuted_lemma : forall (c : config) (e n g : Z) collect test buflen fuel m (rp : bool) s s2 l2 (B : Qc), (0 <= e)%Z ->
  c_stop c = None -> c_test c = true -> c_save_best c = true -> c_resume c = Some (e, n, g) -> run c collect test buflen fuel m rp s = (s2, Ok l2) ->
  (forall k, (ts_score (test k) < B)%Qc) ->
  (s_best_score s2 < B)%Qc /\ exists pre rest k, s_ev s2 = pre ++ EResetCollectors :: ETest TInit e k :: ESaveBest :: rest.
Proof.
  intros c e n g collect test buflen fuel m rp s s2 l2 B E0 NS CT SB CR R HB.
  destruct (C36_best_partial_lemma _ _ _ _ _ _ _ _ _ _ R CT (never_stopped _ _ _ NS)) as (pre & rest & k & _ & _ & _ & -> & _); [rewrite CR; exact E0|].
  split; [apply HB|]. destruct (resumed_events c e n g _ _ _ _ _ _ _ _ _ CT CR R) as (pre' & k0 & rest' & Ev' & _).
  rewrite SB in Ev'. exists pre', rest', k0. exact Ev'.
Qed.
