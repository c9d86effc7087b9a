(** * Proofs about the order of priority updates *)
From Coq Require Import Permutation.
From Verif Require Import Py PyLemmas Num SegTreeModel SegTreeSpec SegTreeProofs TreelawProofs BufferModel PrioModel PrioSpec PrioProofs PordSpec.
Open Scope nat_scope.

Lemma treeok_uniq n t t' arr : treeok n t arr -> treeok n t' arr -> t = t'.
Proof. intros (a & -> & E) (b & -> & E'). apply C307_canonical_lemma. congruence. Qed.
Lemma treeok_ok n t arr idx vals t' : treeok n t arr -> st_setitem t idx vals = Ok t' -> exists arr', treeok n t' arr'.
Proof.
  intros Ht E. destruct (legal n idx vals) eqn:L; [destruct (treeok_set n t arr idx vals Ht L) as (t2 & E2 & H2); exists (write_all arr idx vals); congruence|].
  destruct Ht as (tops & -> & _). destruct (C13_setitem_accepts_lemma n tops idx vals) as (_ & H & _). destruct (H L) as (e & E2). congruence.
Qed.
Lemma reached_tree pw eps n p : reached pw eps n p -> exists arr, treeok n (p_tree p) arr.
Proof.
  induction 1 as [|p index p' _ [arr IH] E|p index ws p' _ [arr IH] E].
  - exists (repeat 0%Qc n). apply treeok_init.
  - unfold init_weight in E. destruct (st_setitem _ _ _) as [t|e] eqn:Et; [|discriminate]. cbn [bind] in E. injection E as <-. cbn [p_tree]. eapply treeok_ok; eassumption.
  - unfold update_weight in E. destruct (st_setitem _ _ _) as [t|e] eqn:Et; [|discriminate]. cbn [bind] in E. injection E as <-. cbn [p_tree]. eapply treeok_ok; eassumption.
Qed.
Lemma upd_ok pw eps n p arr idx ws : treeok n (p_tree p) arr -> fit n idx ws ->
  exists t, update_weight pw eps p idx ws = Ok (mkPrio t (max_of (p_max p) (map (prio_of eps) ws)) (min_of (p_min p) (map (prio_of eps) ws)))
  /\ treeok n t (write_all arr idx (map (fun w => pw (prio_of eps w)) ws)).
Proof.
  intros Ht (F1 & F2 & F3). destruct (update_weight_ok pw eps n p arr idx ws Ht F1 F2 F3) as (p' & E & T & M1 & M2).
  exists (p_tree p'). split; [|exact T]. rewrite E. destruct p' as [t a b]. cbn in *. subst. reflexivity.
Qed.
Lemma fit_app n i w j v : fit n i w -> fit n j v -> fit n (i ++ j) (w ++ v).
Proof.
  intros (A1 & A2 & A3) (B1 & B2 & B3). split; [destruct i; [contradiction|discriminate]|]. split; [rewrite !app_length; lia|].
  intros z Hz. apply in_app_iff in Hz as [Hz|Hz]; auto.
Qed.
Lemma max_of_in b l l' : (forall x, In x l <-> In x l') -> max_of b l = max_of b l'.
Proof. intros H. apply (is_max_uniq _ _ (b :: l')); [|apply max_of_is_max]. eapply is_max_ext; [|apply max_of_is_max]. intros x. cbn. rewrite H. reflexivity. Qed.
Lemma min_of_in b l l' : (forall x, In x l <-> In x l') -> min_of b l = min_of b l'.
Proof. intros H. apply (is_min_uniq _ _ (b :: l')); [|apply min_of_is_min]. eapply is_min_ext; [|apply min_of_is_min]. intros x. cbn. rewrite H. reflexivity. Qed.
Lemma max_of_app b l l' : max_of b (l ++ l') = max_of (max_of b l) l'.
Proof. apply fold_left_app. Qed.
Lemma min_of_app b l l' : min_of b (l ++ l') = min_of (min_of b l) l'.
Proof. apply fold_left_app. Qed.

(** C372. Updating two sets of indices in one call is updating them one after the other. *)
Lemma C372_join_lemma : forall pw eps n p i w j v, reached pw eps n p -> fit n i w -> fit n j v ->
  update_weight pw eps p (i ++ j) (w ++ v) = (let* p1 := update_weight pw eps p i w in update_weight pw eps p1 j v)
  /\ is_ok (update_weight pw eps p (i ++ j) (w ++ v)) = true.
Proof.
  intros pw eps n p i w j v Hr Fi Fj. destruct (reached_tree pw eps n p Hr) as (arr & Ht).
  destruct (upd_ok pw eps n p arr _ _ Ht (fit_app n i w j v Fi Fj)) as (t & E & T). destruct (upd_ok pw eps n p arr i w Ht Fi) as (t1 & E1 & T1). rewrite E1. cbn [bind].
  destruct (upd_ok pw eps n (mkPrio t1 (max_of (p_max p) (map (prio_of eps) w)) (min_of (p_min p) (map (prio_of eps) w))) _ j v T1 Fj) as (t2 & E2 & T2). cbn [p_max p_min] in E2.
  rewrite E, E2. split; [|reflexivity]. rewrite !map_app in *. rewrite write_all_app in T by (rewrite map_length; apply Fi).
  rewrite max_of_app, min_of_app, (treeok_uniq _ _ _ _ T T2). reflexivity.
Qed.
Lemma write_all_fold : forall idx vals arr, write_all arr idx vals = fold_left (fun a iv => upd a (Z.to_nat (fst iv)) (snd iv)) (combine idx vals) arr.
Proof. induction idx as [|i idx IH]; intros [|v vals] arr; cbn; try reflexivity. apply IH. Qed.
Lemma upd_comm {T} (l : list T) i j x y : i <> j -> upd (upd l i x) j y = upd (upd l j y) i x.
Proof.
  intros H. apply nth_error_ext. intros k. rewrite !nth_error_upd, !upd_length.
  destruct (Nat.eqb_spec i k), (Nat.eqb_spec j k); cbn [andb]; try reflexivity; try lia; destruct (_ <? _); reflexivity.
Qed.
Lemma writes_perm l l' : Permutation l l' -> NoDup (map fst l) -> (forall x, In x l -> (0 <= fst x)%Z) -> forall arr : list Qc,
  fold_left (fun a iv => upd a (Z.to_nat (fst iv)) (snd iv)) l arr = fold_left (fun a iv => upd a (Z.to_nat (fst iv)) (snd iv)) l' arr.
Proof.
  induction 1 as [|x l l' P IH|x y l|l l2 l3 P1 IH1 P2 IH2]; intros ND Hz arr.
  - reflexivity.
  - cbn. apply IH; [inversion ND; assumption|intros z Hz'; apply Hz; right; exact Hz'].
  - cbn. rewrite upd_comm; [reflexivity|]. intros Q. inversion ND as [|? ? N1 N2]; subst. apply N1. left.
    pose proof (Hz x (or_intror (or_introl eq_refl))). pose proof (Hz y (or_introl eq_refl)). lia.
  - rewrite IH1 by assumption. apply IH2; [eapply Permutation_NoDup; [apply Permutation_map; exact P1|exact ND]|].
    intros x Hx. apply Hz. eapply Permutation_in; [symmetry; exact P1|exact Hx].
Qed.
Lemma combine_fst {X Y} : forall (l : list X) (l' : list Y), length l' = length l -> map fst (combine l l') = l.
Proof. induction l as [|x l IH]; intros [|y l'] H; try discriminate; [reflexivity|]. cbn. f_equal. apply IH. cbn in H. lia. Qed.
Lemma combine_snd {X Y} : forall (l : list X) (l' : list Y), length l' = length l -> map snd (combine l l') = l'.
Proof. induction l as [|x l IH]; intros [|y l'] H; try discriminate; [reflexivity|]. cbn. f_equal. apply IH. cbn in H. lia. Qed.
Lemma combine_map_snd {X Y Z} (f : Y -> Z) : forall (l : list X) (l' : list Y), combine l (map f l') = map (fun x => (fst x, f (snd x))) (combine l l').
Proof. induction l as [|x l IH]; intros [|y l']; cbn; try reflexivity. f_equal. apply IH. Qed.
(** C372. The order in which distinct indices are listed in a call makes no difference. *)
Lemma C372_order_lemma : forall pw eps n p i w j v, reached pw eps n p -> fit n i w -> length v = length j -> NoDup i -> Permutation (combine i w) (combine j v) ->
  update_weight pw eps p i w = update_weight pw eps p j v /\ is_ok (update_weight pw eps p i w) = true.
Proof.
  intros pw eps n p i w j v Hr Fi Lj ND P. destruct (reached_tree pw eps n p Hr) as (arr & Ht). pose proof Fi as (F1 & F2 & F3).
  assert (Pi : Permutation i j) by (rewrite <- (combine_fst i w F2), <- (combine_fst j v Lj); apply Permutation_map; exact P).
  assert (Pw : Permutation w v) by (rewrite <- (combine_snd i w F2), <- (combine_snd j v Lj); apply Permutation_map; exact P).
  assert (Fj : fit n j v).
  { split; [intros ->; apply Permutation_sym, Permutation_nil in Pi; contradiction|]. split; [exact Lj|]. intros z Hz. apply F3. eapply Permutation_in; [symmetry; exact Pi|exact Hz]. }
  destruct (upd_ok pw eps n p arr i w Ht Fi) as (t1 & E1 & T1). destruct (upd_ok pw eps n p arr j v Ht Fj) as (t2 & E2 & T2). rewrite E1, E2. split; [|reflexivity].
  assert (EA : write_all arr i (map (fun x => pw (prio_of eps x)) w) = write_all arr j (map (fun x => pw (prio_of eps x)) v)).
  { rewrite !write_all_fold, !combine_map_snd. apply writes_perm.
    - apply Permutation_map. exact P.
    - rewrite map_map. cbn [fst]. change (fun x : Z * Qc => fst x) with (@fst Z Qc). rewrite combine_fst; assumption.
    - intros x Hx. apply in_map_iff in Hx. destruct Hx as ([z y] & <- & Hx). apply in_combine_l in Hx. cbn [fst]. apply F3 in Hx. lia. }
  rewrite EA in T1. rewrite (treeok_uniq _ _ _ _ T1 T2).
  rewrite (max_of_in _ (map (prio_of eps) w) (map (prio_of eps) v)), (min_of_in _ (map (prio_of eps) w) (map (prio_of eps) v)); [reflexivity| |];
    intros x; split; intros Hx; (eapply Permutation_in; [|exact Hx]); apply Permutation_map; [exact Pw|symmetry; exact Pw|exact Pw|symmetry; exact Pw].
Qed.
(** C372. Updates of sets of indices that have none in common commute. *)
Lemma C372_commute_lemma : forall pw eps n p i w j v, reached pw eps n p -> fit n i w -> fit n j v -> (forall z, In z i -> ~ In z j) ->
  (let* p1 := update_weight pw eps p i w in update_weight pw eps p1 j v) = (let* p1 := update_weight pw eps p j v in update_weight pw eps p1 i w)
  /\ is_ok (let* p1 := update_weight pw eps p i w in update_weight pw eps p1 j v) = true.
Proof.
  intros pw eps n p i w j v Hr Fi Fj Hd. destruct (C372_join_lemma pw eps n p i w j v Hr Fi Fj) as (<- & O1). destruct (C372_join_lemma pw eps n p j v i w Hr Fj Fi) as (<- & _).
  split; [|exact O1]. destruct (reached_tree pw eps n p Hr) as (arr & Ht).
  destruct (upd_ok pw eps n p arr _ _ Ht (fit_app n i w j v Fi Fj)) as (t & E & T). destruct (upd_ok pw eps n p arr _ _ Ht (fit_app n j v i w Fj Fi)) as (t' & E' & T').
  rewrite E, E'. destruct Fi as (A1 & A2 & A3), Fj as (B1 & B2 & B3). rewrite !map_app in *. rewrite write_all_app in T, T' by (rewrite map_length; assumption).
  assert (P1 : forall z, In z i -> (0 <= z)%Z) by (intros z Hz; specialize (A3 z Hz); lia).
  assert (P2 : forall z, In z j -> (0 <= z)%Z) by (intros z Hz; specialize (B3 z Hz); lia).
  set (f := fun x => pw (prio_of eps x)) in *.
  assert (EA : write_all (write_all arr i (map f w)) j (map f v) = write_all (write_all arr j (map f v)) i (map f w)).
  { apply nth_error_ext. intros k. assert (L1 : length (map f w) = length i) by (rewrite map_length; exact A2). assert (L2 : length (map f v) = length j) by (rewrite map_length; exact B2).
    destruct (in_dec Z.eq_dec (Z.of_nat k) i) as [Hi|Hi].
    - rewrite write_all_nth by (try assumption; apply Hd, Hi). apply write_all_hit; try assumption. rewrite SegTreeProofs.write_all_length. reflexivity.
    - rewrite (write_all_nth i (map f w)) by assumption. destruct (in_dec Z.eq_dec (Z.of_nat k) j) as [Hj|Hj].
      + apply write_all_hit; try assumption. rewrite SegTreeProofs.write_all_length. reflexivity.
      + rewrite !write_all_nth by assumption. reflexivity. }
  rewrite EA in T. rewrite (treeok_uniq _ _ _ _ T T'). do 2 f_equal; [apply max_of_in|apply min_of_in]; intros x; rewrite !in_app_iff; tauto.
Qed.
(** C372. Of two updates of the same indices the second one decides the weights. *)
Lemma C372_last_lemma : forall pw eps n p i w v, reached pw eps n p -> fit n i w -> fit n i v ->
  exists p1 p2 p3, update_weight pw eps p i w = Ok p1 /\ update_weight pw eps p1 i v = Ok p2 /\ update_weight pw eps p i v = Ok p3 /\ p_tree p2 = p_tree p3.
Proof.
  intros pw eps n p i w v Hr Fi Fv. destruct (reached_tree pw eps n p Hr) as (arr & Ht).
  destruct (upd_ok pw eps n p arr i w Ht Fi) as (t1 & E1 & T1).
  destruct (upd_ok pw eps n (mkPrio t1 (max_of (p_max p) (map (prio_of eps) w)) (min_of (p_min p) (map (prio_of eps) w))) _ i v T1 Fv) as (t2 & E2 & T2).
  destruct (upd_ok pw eps n p arr i v Ht Fv) as (t3 & E3 & T3). do 3 eexists. split; [exact E1|]. split; [exact E2|]. split; [exact E3|]. cbn [p_tree p_max p_min].
  destruct Fv as (B1 & B2 & B3).
  assert (P2 : forall z, In z i -> (0 <= z)%Z) by (intros z Hz; specialize (B3 z Hz); lia).
  assert (EA : write_all (write_all arr i (map (fun x => pw (prio_of eps x)) w)) i (map (fun x => pw (prio_of eps x)) v) = write_all arr i (map (fun x => pw (prio_of eps x)) v)).
  { apply nth_error_ext. intros k. assert (L2 : length (map (fun x => pw (prio_of eps x)) v) = length i) by (rewrite map_length; exact B2).
    destruct (in_dec Z.eq_dec (Z.of_nat k) i) as [Hi|Hi].
    - apply write_all_hit; try assumption. apply SegTreeProofs.write_all_length.
    - rewrite (write_all_nth i _ (write_all _ _ _)) by assumption. rewrite !write_all_nth by (try assumption; rewrite map_length; apply Fi). reflexivity. }
  rewrite EA in T2. exact (treeok_uniq _ _ _ _ T2 T3).
Qed.
(** C372. The weights of every prioritized buffer and every prioritized vector buffer are such weights. *)
Lemma C372_buffers_lemma : forall pw eps (Ob A Inf R : Type) (r0 : R) radd (last_frame : Ob -> Ob) o n ns,
  (forall ops (b : pbuf Ob A Inf R), p_run pw eps r0 radd last_frame o (pb_init r0 n) ops = Ok b -> reached pw eps n (pb_prio b))
  /\ (forall ops (m : pmgr Ob A Inf R), pm_run pw eps r0 radd last_frame o (pm_init r0 ns) ops = Ok m -> reached pw eps (list_sum ns) (pm_prio m)).
Proof.
  intros pw eps Ob A Inf R r0 radd last_frame o n ns. split.
  - assert (K : forall ops b0 (b : pbuf Ob A Inf R), reached pw eps n (pb_prio b0) -> p_run pw eps r0 radd last_frame o b0 ops = Ok b -> reached pw eps n (pb_prio b));
      [|intros ops b; apply K; apply reached_init].
    induction ops as [|[t|src|index ws] ops IH]; intros b0 b Hr E; cbn [p_run] in E.
    + injection E as <-. exact Hr.
    + unfold pb_add in E. destruct (add _ _ _ _ _ _) as [x|e]; [|discriminate]. cbn [bind] in E.
      destruct (init_weight _ _ _) as [p|e] eqn:Ei; [|discriminate]. cbn [bind fst] in E. apply (IH _ _) in E; [exact E|]. cbn [pb_prio]. eapply reached_add; eassumption.
    + unfold pb_update in E. destruct (update _ _) as [x|e]; [|discriminate]. cbn [bind] in E.
      destruct (init_weight _ _ _) as [p|e] eqn:Ei; [|discriminate]. cbn [bind fst] in E. apply (IH _ _) in E; [exact E|]. cbn [pb_prio]. eapply reached_add; eassumption.
    + destruct (update_weight _ _ _ _ _) as [p|e] eqn:Ei; [|discriminate]. cbn [bind] in E. apply (IH _ _) in E; [exact E|]. cbn [pb_prio]. eapply reached_update; eassumption.
  - assert (K : forall ops m0 (m : pmgr Ob A Inf R), reached pw eps (list_sum ns) (pm_prio m0) -> pm_run pw eps r0 radd last_frame o m0 ops = Ok m -> reached pw eps (list_sum ns) (pm_prio m));
      [|intros ops m; apply K; apply reached_init].
    induction ops as [|[ids ts|index ws] ops IH]; intros m0 m Hr E; cbn [pm_run] in E.
    + injection E as <-. exact Hr.
    + unfold pm_add in E. destruct (m_add _ _ _ _ _ _ _) as [x|e]; [|discriminate]. cbn [bind] in E.
      destruct (init_weight _ _ _) as [p|e] eqn:Ei; [|discriminate]. cbn [bind fst] in E. apply (IH _ _) in E; [exact E|]. cbn [pm_prio]. eapply reached_add; eassumption.
    + destruct (update_weight _ _ _ _ _) as [p|e] eqn:Ei; [|discriminate]. cbn [bind] in E. apply (IH _ _) in E; [exact E|]. cbn [pm_prio]. eapply reached_update; eassumption.
Qed.
