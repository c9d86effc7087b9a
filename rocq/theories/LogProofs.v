(** * Proofs about the logger *)
From Verif Require Import Py PyLemmas LogModel.
Open Scope Z_scope.

(** ** Specification: thinning a sequence of steps *)

(** The steps of scope [s] among the operations. *)
Definition steps_of (s : scope) (ops : list lop) : list Z :=
  flat_map (fun o => match o with OLog t x => if scope_eqb t s then [x] else [] | OSave _ _ _ _ => [] end) ops.
(** Greedy thinning: keep a step iff it is at least [d] above the last one kept. *)
Fixpoint thin (d l : Z) (xs : list Z) : list Z :=
  match xs with [] => [] | x :: xs => if x - l >=? d then x :: thin d x xs else thin d l xs end.
Fixpoint thin_last (d l : Z) (xs : list Z) : Z :=
  match xs with [] => l | x :: xs => if x - l >=? d then thin_last d x xs else thin_last d l xs end.

Lemma scope_eqb_spec a b : reflect (a = b) (scope_eqb a b).
Proof. destruct a, b; constructor; (reflexivity || discriminate). Qed.
Lemma tag_eqb_spec a b : reflect (a = b) (tag_eqb a b).
Proof.
  destruct a as [a| | |], b as [b| | |]; cbn; try (constructor; (reflexivity || discriminate)).
  destruct (scope_eqb_spec a b) as [->|H]; constructor; [reflexivity|intros E; injection E; exact H].
Qed.
Lemma items_app ev ev' t : items (ev ++ ev') t = items ev t ++ items ev' t.
Proof. unfold items. rewrite filter_app, map_app. reflexivity. Qed.

Lemma thin_spec iv s ops : forall l ev, let '(l', ev') := lrun iv ops (l, ev) in
  items ev' (TScope s) = items ev (TScope s) ++ thin (interval iv s) (last l s) (steps_of s ops)
  /\ last l' s = thin_last (interval iv s) (last l s) (steps_of s ops).
Proof.
  induction ops as [|o ops IH]; intros l ev; [cbn; rewrite app_nil_r; auto|].
  change (lrun iv (o :: ops) (l, ev)) with (lrun iv ops (lstep iv (l, ev) o)). destruct o as [t x|ck e n g].
  - cbn [lstep]. unfold log_data. destruct (x - last l t >=? interval iv t) eqn:E.
    + specialize (IH (set_last l t x) (ev ++ [(TScope t, x)])). destruct (lrun iv ops _) as [l' ev']. destruct IH as [IH1 IH2].
      rewrite IH1, IH2. rewrite items_app. cbn [steps_of flat_map]. unfold set_last; cbn [last]. unfold items at 2. cbn [filter fst tag_eqb].
      destruct (scope_eqb_spec t s) as [->|N].
      * cbn [map snd app thin thin_last]. destruct (scope_eqb_spec s s); [|contradiction]. rewrite E. rewrite <- app_assoc. auto.
      * destruct (scope_eqb_spec s t) as [F|_]; [symmetry in F; contradiction|]. cbn [map app]. rewrite app_nil_r. auto.
    + specialize (IH l ev). destruct (lrun iv ops _) as [l' ev']. destruct IH as [IH1 IH2]. rewrite IH1, IH2.
      cbn [steps_of flat_map]. destruct (scope_eqb_spec t s) as [->|N]; [|auto]. cbn [app thin thin_last]. rewrite E. auto.
  - cbn [lstep]. unfold save_data. destruct (ck && _).
    + specialize (IH (mkL (last l) e) (ev ++ [(TSaveEpoch, e); (TSaveEnv, n); (TSaveGrad, g)])). destruct (lrun iv ops _) as [l' ev'].
      rewrite items_app in IH. cbn in IH. rewrite app_nil_r in IH. exact IH.
    + specialize (IH l ev). destruct (lrun iv ops _) as [l' ev']. exact IH.
Qed.

(** Consecutive elements at least [d] apart. *)
Fixpoint spaced (d : Z) (xs : list Z) : Prop :=
  match xs with x :: ((y :: _) as t) => d <= y - x /\ spaced d t | _ => True end.
Lemma thin_spaced d xs : forall l, spaced d (l :: thin d l xs).
Proof.
  induction xs as [|x xs IH]; intros l; [exact Logic.I|]. cbn [thin]. destruct (Z.geb_spec (x - l) d) as [H|H]; [|apply IH].
  cbn [spaced]. split; [lia|apply IH].
Qed.
Lemma thin_incl d xs : forall l x, In x (thin d l xs) -> In x xs.
Proof. induction xs as [|y xs IH]; intros l x H; [destruct H|]. cbn [thin] in H. destruct (y - l >=? d); [destruct H as [->|H]; [left; reflexivity|right; eauto]|right; eauto]. Qed.
Lemma thin_app d xs ys : forall l, thin d l (xs ++ ys) = thin d l xs ++ thin d (thin_last d l xs) ys.
Proof. induction xs as [|x xs IH]; intros l; [reflexivity|]. cbn [app thin thin_last]. destruct (x - l >=? d); [cbn [app]; f_equal|]; apply IH. Qed.
Lemma thin_last_app d xs ys : forall l, thin_last d l (xs ++ ys) = thin_last d (thin_last d l xs) ys.
Proof. induction xs as [|x xs IH]; intros l; [reflexivity|]. cbn [app thin_last]. destruct (x - l >=? d); apply IH. Qed.
Lemma thin_last_eq d xs : forall l, thin_last d l xs = List.last (thin d l xs) l.
Proof.
  assert (F : forall (t : list Z) x l, List.last (x :: t) l = List.last t x).
  { clear. induction t as [|y t IH]; intros x l; [reflexivity|]. change (List.last (x :: y :: t) l) with (List.last (y :: t) l). rewrite (IH y l), (IH y x). reflexivity. }
  induction xs as [|x xs IH]; intros l; [reflexivity|]. cbn [thin thin_last]. destruct (x - l >=? d); [|apply IH]. rewrite F. apply IH.
Qed.

(** C46.  In any run of log and save calls on a new logger, for every scope: consecutive writes
    (the virtual step -1 first) are at least the interval apart, only submitted steps are
    written, in order, and the other scopes and the saves have no influence: a further call
    writes its step iff it is at least the interval above the last written one (-1 if none). *)
Lemma C46_rate_limit_lemma : forall iv s ops,
  let '(l, ev) := lrun iv ops start in
  let written := items ev (TScope s) in
  spaced (interval iv s) (-1 :: written)
  /\ (forall x, In x written -> In x (steps_of s ops))
  /\ (forall x, let '(_, ev') := log_data iv s (l, ev) x in
        items ev' (TScope s) = if (interval iv s <=? x - List.last written (-1))%Z then written ++ [x] else written).
Proof.
  intros iv s ops. pose proof (thin_spec iv s ops new_logger []) as H. change (lrun iv ops (new_logger, [])) with (lrun iv ops start) in H. destruct (lrun iv ops start) as [l ev] eqn:E.
  destruct H as [H1 H2]. cbn [items filter map app last new_logger] in H1, H2. cbn zeta.
  split; [rewrite H1; apply thin_spaced|]. split; [intros x Hx; rewrite H1 in Hx; eapply thin_incl; exact Hx|].
  intros x. unfold log_data. rewrite H1. rewrite <- thin_last_eq, <- H2. rewrite Z.geb_leb. destruct (interval iv s <=? x - last l s) eqn:F.
  - rewrite items_app, H1. unfold items. cbn [filter fst]. destruct (tag_eqb_spec (TScope s) (TScope s)); [reflexivity|contradiction].
  - exact H1.
Qed.

(** C46.  With non-decreasing steps and a positive interval every submitted step that is not
    written lies less than the interval above a written step (or above -1). *)
Lemma C46_coverage_lemma : forall iv s ops, 0 < interval iv s ->
  (forall i j a b, (i < j)%nat -> nth_error (steps_of s ops) i = Some a -> nth_error (steps_of s ops) j = Some b -> a <= b) ->
  let '(_, ev) := lrun iv ops start in
  forall x, In x (steps_of s ops) -> -1 <= x -> exists w, (w = -1 \/ In w (items ev (TScope s))) /\ w <= x < w + interval iv s.
Proof.
  intros iv s ops Hd Hm. pose proof (thin_spec iv s ops new_logger []) as H. change (lrun iv ops (new_logger, [])) with (lrun iv ops start) in H. destruct (lrun iv ops start) as [l ev].
  destruct H as [H1 _]. cbn [items filter map app last new_logger] in H1. rewrite H1. clear H1.
  revert Hd Hm. generalize (interval iv s), (steps_of s ops). clear.
  assert (G : forall xs l, (forall i j a b, (i < j)%nat -> nth_error xs i = Some a -> nth_error xs j = Some b -> a <= b) ->
     forall d, 0 < d -> forall x, In x xs -> l <= x -> exists w, (w = l \/ In w (thin d l xs)) /\ w <= x < w + d).
  { induction xs as [|y xs IH]; intros l Hm d Hd x Hx Hl; [destruct Hx|].
    assert (Hm' : forall i j a b, (i < j)%nat -> nth_error xs i = Some a -> nth_error xs j = Some b -> a <= b).
    { intros i j a b Hij Ha Hb. apply (Hm (S i) (S j) a b); [lia|exact Ha|exact Hb]. }
    cbn [thin]. destruct (Z.geb_spec (y - l) d) as [E|E].
    - assert (Hy : y <= x). { destruct Hx as [->|Hx]; [lia|]. apply In_nth_error in Hx as [j Hj]. apply (Hm 0%nat (S j) y x); [lia|reflexivity|exact Hj]. }
      destruct Hx as [->|Hx]; [exists x; split; [right; left; reflexivity|lia]|].
      destruct (IH y Hm' d Hd x Hx Hy) as (w & [->|Hw] & Hb); [exists y; split; [right; left; reflexivity|exact Hb]|exists w; split; [right; right; exact Hw|exact Hb]].
    - destruct Hx as [->|Hx]; [exists l; split; [left; reflexivity|lia]|]. apply (IH l Hm' d Hd x Hx Hl). }
  intros d xs Hd Hm x Hx Hl. exact (G xs (-1) Hm d Hd x Hx Hl).
Qed.

(** ** Saving and restoring *)

(** The saves that are carried out: same thinning on the epochs. *)
Fixpoint saves_done (d l : Z) (ops : list lop) : list (Z * Z * Z) :=
  match ops with
  | [] => []
  | OSave true e n g :: ops => if d <=? e - l then (e, n, g) :: saves_done d e ops else saves_done d l ops
  | _ :: ops => saves_done d l ops
  end.
Lemma saves_spec iv ops : forall l ev, let '(l', ev') := lrun iv ops (l, ev) in
  let d := saves_done (save_interval iv) (last_save l) ops in
  items ev' TSaveEpoch = items ev TSaveEpoch ++ map (fun x => fst (fst x)) d
  /\ items ev' TSaveEnv = items ev TSaveEnv ++ map (fun x => snd (fst x)) d
  /\ items ev' TSaveGrad = items ev TSaveGrad ++ map snd d.
Proof.
  induction ops as [|o ops IH]; intros l ev; [cbn; rewrite !app_nil_r; auto|].
  change (lrun iv (o :: ops) (l, ev)) with (lrun iv ops (lstep iv (l, ev) o)). destruct o as [t x|ck e n g].
  - cbn [lstep saves_done]. unfold log_data. destruct (x - last l t >=? interval iv t).
    + specialize (IH (set_last l t x) (ev ++ [(TScope t, x)])). destruct (lrun iv ops _) as [l' ev'].
      rewrite !items_app in IH. cbn in IH. rewrite !app_nil_r in IH. exact IH.
    + specialize (IH l ev). destruct (lrun iv ops _) as [l' ev']. exact IH.
  - cbn [lstep saves_done]. unfold save_data. destruct ck; cbn [andb]; [|specialize (IH l ev); destruct (lrun iv ops _) as [l' ev']; exact IH].
    rewrite Z.geb_leb. destruct (save_interval iv <=? e - last_save l).
    + specialize (IH (mkL (last l) e) (ev ++ [(TSaveEpoch, e); (TSaveEnv, n); (TSaveGrad, g)])). destruct (lrun iv ops _) as [l' ev'].
      rewrite !items_app in IH. cbn in IH. rewrite <- !app_assoc in IH. exact IH.
    + specialize (IH l ev). destruct (lrun iv ops _) as [l' ev']. exact IH.
Qed.
Lemma last_item_app (ev : events) t xs x : items ev t = xs ++ [x] -> last_item ev t = Ok x.
Proof. intros E. unfold last_item. rewrite E, rev_app_distr. reflexivity. Qed.

(** C46.  restore_data of a new logger on the event file of any run returns the counters of the
    last save that was carried out, and (0, 0, 0) if there was none. *)
Lemma C46_restore_lemma : forall iv ops,
  let '(_, ev) := lrun iv ops start in
  snd (restore_data new_logger ev) = List.last (saves_done (save_interval iv) (-1) ops) (0, 0, 0).
Proof.
  intros iv ops. pose proof (saves_spec iv ops new_logger []) as H. change (lrun iv ops (new_logger, [])) with (lrun iv ops start) in H. destruct (lrun iv ops start) as [l ev]. cbn zeta in H.
  cbn [items filter map app last_save new_logger] in H. destruct H as (H1 & H2 & H3).
  set (d := saves_done (save_interval iv) (-1) ops) in *. clearbody d.
  destruct d as [|x0 d0]; [unfold restore_data, last_item; rewrite H1, H2; reflexivity|].
  destruct (exists_last (l := x0 :: d0) ltac:(discriminate)) as (d' & [[e n] g] & Ed). rewrite Ed in H1, H2, H3 |- *.
  rewrite map_app in H1, H2, H3. cbn [map fst snd] in H1, H2, H3. rewrite last_last.
  unfold restore_data. rewrite (last_item_app _ _ _ _ H1), (last_item_app _ _ _ _ H2), (last_item_app _ _ _ _ H3). reflexivity.
Qed.

(** C72.  A restored logger does not continue where the saved one stopped: its test counter is
    the epoch although test data are logged by environment step, and its info counter is lost,
    so data are written again within the interval. *)
Lemma C72_restored_test_refuted_lemma : exists iv l ev,
  lrun iv [OLog Test 100; OLog Info 1; OSave true 1 100 10] start = (l, ev)
  /\ snd (log_data iv Test (l, ev) 105) = ev
  /\ snd (log_data iv Info (l, ev) 2) = ev
  /\ let l' := fst (restore_data new_logger ev) in
     snd (log_data iv Test (l', ev) 105) = ev ++ [(TScope Test, 105)]
     /\ snd (log_data iv Info (l', ev) 2) = ev ++ [(TScope Info, 2)]
     /\ ~ spaced (interval iv Test) (items (snd (log_data iv Test (l', ev) 105)) (TScope Test)).
Proof.
  exists (mkI (fun s => match s with Test => 10 | Info => 2 | _ => 1 end) 1). do 2 eexists. split; [reflexivity|].
  split; [reflexivity|]. split; [reflexivity|]. cbn zeta. split; [reflexivity|]. split; [reflexivity|].
  vm_compute. intros [H _]. apply H. reflexivity.
Qed.

(** C72.  What a restored logger starts from after a save that was carried out: all counters but the
    one of the info scope. *)
Lemma C72_counters_partial_lemma : forall iv l ev epoch env_step gradient_step,
  save_interval iv <= epoch - last_save l ->
  let ev1 := snd (save_data iv (l, ev) true epoch env_step gradient_step) in
  let '(l', r) := restore_data new_logger ev1 in
  r = (epoch, env_step, gradient_step) /\ last_save l' = epoch
  /\ last l' Train = env_step /\ last l' Test = epoch /\ last l' Update = gradient_step /\ last l' Info = -1.
Proof.
  intros iv l ev epoch n g Hsv. unfold save_data. cbn [andb]. rewrite Z.geb_leb. destruct (Z.leb_spec (save_interval iv) (epoch - last_save l)) as [_|C]; [|lia].
  cbn [snd]. set (ev1 := ev ++ _).
  assert (I1 : items ev1 TSaveEpoch = items ev TSaveEpoch ++ [epoch]) by (unfold ev1; rewrite items_app; reflexivity).
  assert (I2 : items ev1 TSaveEnv = items ev TSaveEnv ++ [n]) by (unfold ev1; rewrite items_app; reflexivity).
  assert (I3 : items ev1 TSaveGrad = items ev TSaveGrad ++ [g]) by (unfold ev1; rewrite items_app; reflexivity).
  cbv zeta. unfold restore_data. rewrite (last_item_app _ _ _ _ I1), (last_item_app _ _ _ _ I2), (last_item_app _ _ _ _ I3). repeat split.
Qed.

Lemma spaced_app d xs ys : forall l, (ys <> [] -> d <= hd 0 ys - List.last xs l) -> spaced d (l :: xs) -> spaced d ys -> spaced d (l :: xs ++ ys).
Proof.
  induction xs as [|x xs IH]; intros l H H1 H2.
  - destruct ys as [|y ys]; [exact Logic.I|]. cbn [app spaced]. split; [apply H; discriminate|exact H2].
  - cbn [app]. destruct H1 as [H1 H1']. cbn [spaced]. split; [exact H1|]. apply IH; [|exact H1'|exact H2].
    intros N. specialize (H N). replace (List.last (x :: xs) l) with (List.last xs x) in H; [exact H|].
    clear. revert x l. induction xs as [|y xs IH]; intros x l; [reflexivity|]. change (List.last (x :: y :: xs) l) with (List.last (y :: xs) l).
    rewrite <- (IH y x), <- (IH y l). reflexivity.
Qed.

(** C72 (restricted to the train and update scopes).  If the run ended with a save that was
    carried out at the current steps (no train step logged above env_step, no update step above
    gradient_step), the writes before and after restoring are together at least the interval
    apart, whatever is logged after the restoration. *)
Lemma C72_train_update_partial_lemma : forall iv ops epoch env_step gradient_step ops' s x,
  (s = Train /\ x = env_step) \/ (s = Update /\ x = gradient_step) ->
  (forall y, In y (steps_of s ops) -> y <= x) -> -1 <= x ->
  let '(l, ev) := lrun iv ops start in
  save_interval iv <= epoch - last_save l ->
  let '(_, ev1) := save_data iv (l, ev) true epoch env_step gradient_step in
  let '(_, ev2) := lrun iv ops' (fst (restore_data new_logger ev1), ev1) in
  spaced (interval iv s) (-1 :: items ev2 (TScope s)).
Proof.
  intros iv ops epoch n g ops' s x Hs Hle Hx.
  pose proof (thin_spec iv s ops new_logger []) as H. change (lrun iv ops (new_logger, [])) with (lrun iv ops start) in H. destruct (lrun iv ops start) as [l ev].
  destruct H as [H1 H2]. cbn [items filter map app last new_logger] in H1, H2. intros Hsv. unfold save_data. cbn [andb].
  rewrite Z.geb_leb. destruct (Z.leb_spec (save_interval iv) (epoch - last_save l)) as [_|C]; [|lia].
  set (ev1 := ev ++ _).
  assert (I1 : items ev1 TSaveEpoch = items ev TSaveEpoch ++ [epoch]) by (unfold ev1; rewrite items_app; reflexivity).
  assert (I2 : items ev1 TSaveEnv = items ev TSaveEnv ++ [n]) by (unfold ev1; rewrite items_app; reflexivity).
  assert (I3 : items ev1 TSaveGrad = items ev TSaveGrad ++ [g]) by (unfold ev1; rewrite items_app; reflexivity).
  assert (I4 : items ev1 (TScope s) = items ev (TScope s)) by (unfold ev1; rewrite items_app; cbn; apply app_nil_r).
  pose proof (thin_spec iv s ops' (fst (restore_data new_logger ev1)) ev1) as H. destruct (lrun iv ops' _) as [l2 ev2]. destruct H as [H3 _].
  assert (Hl : last (fst (restore_data new_logger ev1)) s = x).
  { unfold restore_data. rewrite (last_item_app _ _ _ _ I1), (last_item_app _ _ _ _ I2), (last_item_app _ _ _ _ I3).
    destruct Hs as [[-> ->]|[-> ->]]; reflexivity. }
  rewrite Hl, I4, H1 in H3. rewrite H3. pose proof (thin_spaced (interval iv s) (steps_of s ops') x) as S2.
  apply spaced_app; [|apply thin_spaced|destruct (thin _ x _); [exact Logic.I|exact (proj2 S2)]].
  intros N. destruct (thin (interval iv s) x (steps_of s ops')) as [|y t]; [contradiction|]. cbn [hd]. destruct S2 as [S2 _].
  rewrite <- thin_last_eq. enough (thin_last (interval iv s) (-1) (steps_of s ops) <= x) by lia.
  rewrite thin_last_eq. pose proof (thin_incl (interval iv s) (steps_of s ops) (-1)) as Hi. set (t' := thin _ _ _) in *. clearbody t'.
  destruct t' as [|z t']; [exact Hx|]. apply Hle, Hi. destruct (exists_last (l := z :: t') ltac:(discriminate)) as (u & w & Ew).
  rewrite Ew, last_last. apply in_or_app. right. left. reflexivity.
Qed.
