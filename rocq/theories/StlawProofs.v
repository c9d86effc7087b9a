(** * Laws of stacking batches *)
From Verif Require Import Py PyLemmas BatchModel BatchSpec BatchProofs BatchCatProofs BatchStackProofs BatchMainProofs BatlawSpec BatlawProofs.
Open Scope nat_scope.

Lemma same_keys_refl l : same_keys l l.
Proof. intro k. reflexivity. Qed.
Lemma same_keys_sym l l' : same_keys l l' -> same_keys l' l.
Proof. intros H k. symmetry. apply H. Qed.
Lemma same_keys_trans l l' l'' : same_keys l l' -> same_keys l' l'' -> same_keys l l''.
Proof. intros H H' k. rewrite (H k). apply H'. Qed.
Lemma same_keys_nil l l' : same_keys l l' -> l = [] -> l' = [].
Proof. intros H ->. destruct l' as [|x l']; [reflexivity|]. destruct (proj2 (H (fst x)) (or_introl eq_refl)). Qed.
Definition alike (b b' : bval) : Prop := forall p, layout (at_path p b) (at_path p b').
Lemma layout_sym o l : layout o l -> layout l o.
Proof. destruct o as [[]|], l as [[]|]; cbn; auto using same_keys_sym. Qed.
Lemma layout_trans o l m : layout o l -> layout l m -> layout o m.
Proof. destruct o as [[]|], l as [[]|], m as [[]|]; cbn; try tauto. apply same_keys_trans. Qed.
Lemma alike_structure b b' : alike b b' -> same_structure b b'.
Proof.
  intros H p. specialize (H p). destruct (at_path p b) as [[k a|l|]|], (at_path p b') as [[k' a'|l'|]|]; cbn in *; try tauto.
  destruct l as [|x l], l' as [|x' l']; cbn; try tauto.
  - destruct (proj2 (H (fst x')) (or_introl eq_refl)).
  - destruct (proj1 (H (fst x)) (or_introl eq_refl)).
Qed.
Lemma alike_nonempty b b' : alike b b' -> nonempty b -> nonempty b'.
Proof.
  intros H (l & -> & N). specialize (H []). cbn in H. destruct b' as [|l'|]; try tauto. exists l'. split; [reflexivity|].
  intros ->. apply N. apply same_keys_sym in H. apply (same_keys_nil _ _ H). reflexivity.
Qed.

(** What [merged] says when the batches look alike. *)
Lemma merged_at ty rows bs r b0 : In b0 bs -> (forall b, In b bs -> alike b0 b) -> (forall p, at_path p b0 <> Some NoneV) -> merged ty rows bs r ->
  forall p, match at_path p b0 with
            | Some (Leaf _ _) => at_path p r = Some (Leaf (fst (ty p)) (Ar (snd (ty p)) (rows p)))
            | Some (Node l) => exists l', at_path p r = Some (Node l') /\ same_keys l l'
            | _ => at_path p r = None
            end.
Proof.
  intros I L N [D M] p. destruct (M p) as (M1 & M2 & M3). destruct (at_path p b0) as [[k a|l|]|] eqn:E.
  - apply M1. exists b0, k, a. auto.
  - destruct M2 as (l' & E' & K).
    + intros (b & k & a & Hb & Eb). specialize (L b Hb p). rewrite E, Eb in L. exact L.
    + eauto.
    + exists l'. split; [exact E'|]. intro s. rewrite K. split; [intro H; eauto|].
      intros (b & l2 & Hb & Eb & Hs). specialize (L b Hb p). rewrite E, Eb in L. apply L, Hs.
  - destruct (N p E).
  - apply M3. intros b Hb. specialize (L b Hb p). rewrite E in L. destruct (at_path p b) as [[]|]; cbn in L; tauto.
Qed.
Lemma merged_alike ty rows bs r b0 : In b0 bs -> (forall b, In b bs -> alike b0 b) -> (forall p, at_path p b0 <> Some NoneV) -> merged ty rows bs r -> alike b0 r.
Proof.
  intros I L N M p. pose proof (merged_at ty rows bs r b0 I L N M p) as H. destruct (at_path p b0) as [[k a|l|]|] eqn:E.
  - rewrite H. exact Logic.I.
  - destruct H as (l' & -> & K). exact K.
  - destruct (N p E).
  - rewrite H. exact Logic.I.
Qed.
Lemma stacked_typed ty bs r b0 : In b0 bs -> (forall b, In b bs -> alike b0 b) -> stack_typed ty bs -> (exists p k a, at_path p b0 = Some (Leaf k a)) ->
  merged ty (fun p => stack_rows ty p bs) bs r -> well_typed ty (length bs) r.
Proof.
  intros I L T (p0 & k0 & a0 & E0) M. destruct (T b0 I) as (_ & N & _).
  pose proof (merged_at ty _ bs r b0 I L N M) as At. destruct M as [D M].
  split; [|split; [|split; [exact D|]]].
  - intros p k a E. specialize (At p). destruct (at_path p b0) as [[k1 a1|l|]|] eqn:Eb.
    + rewrite E in At. injection At as -> ->. split; [reflexivity|]. cbn [typed]. split; [reflexivity|]. unfold stack_rows. split; [apply map_length|].
      apply Forall_forall. intros x Hx. apply in_map_iff in Hx as (b & <- & Hb).
      specialize (L b Hb p). rewrite Eb in L. destruct (at_path p b) as [[k2 a2| |]|] eqn:E2; cbn in L; try tauto.
      destruct (T b Hb) as (_ & _ & T3 & _). destruct (T3 p k2 a2 E2) as [-> H]. exact H.
    + destruct At as (l' & E' & _). congruence.
    + congruence.
    + congruence.
  - intros p E. specialize (At p). destruct (at_path p b0) as [[k1 a1|l|]|] eqn:Eb; [congruence| |congruence|congruence].
    destruct At as (l' & E' & _). congruence.
  - intro H. exfalso. specialize (At p0). rewrite E0 in At. exact (H _ _ _ At).
Qed.
(** Batches that look like each other and have the same arrays are the same. *)
Lemma alike_same b b' : alike b b' -> (forall p k a k' a', at_path p b = Some (Leaf k a) -> at_path p b' = Some (Leaf k' a') -> k = k' /\ a = a') -> same_batch b b'.
Proof.
  intros L H p. specialize (L p). specialize (H p). destruct (at_path p b) as [[k a|l|]|], (at_path p b') as [[k' a'|l'|]|]; cbn in L; try tauto.
  exact (H _ _ _ _ eq_refl eq_refl).
Qed.

(** C327.  Stacking two groups of batches and concatenating the stacks is stacking all of them. *)
Lemma C327_stack_cat_lemma : forall (ty : list string -> akind * list nat) (xs ys : list bval),
  xs <> [] -> ys <> [] -> stack_typed ty (xs ++ ys) ->
  (forall b b' p, In b (xs ++ ys) -> In b' (xs ++ ys) -> layout (at_path p b) (at_path p b')) ->
  (forall b, In b (xs ++ ys) -> nonempty b /\ exists p k a, at_path p b = Some (Leaf k a)) ->
  exists r rx ry r', bstack (xs ++ ys) = Ok r /\ bstack xs = Ok rx /\ bstack ys = Ok ry /\ bcat [rx; ry] = Ok r' /\ same_batch r r'.
Proof.
  intros ty xs ys Nx Ny T L Ne.
  assert (Il : forall b, In b xs -> In b (xs ++ ys)) by (intros; apply in_or_app; now left).
  assert (Ir : forall b, In b ys -> In b (xs ++ ys)) by (intros; apply in_or_app; now right).
  assert (Tx : stack_typed ty xs).
  { intros b Hb. destruct (T b (Il b Hb)) as (T1 & T2 & T3 & T4). repeat split; auto; try apply (T3 p k a H); eauto. }
  assert (Ty : stack_typed ty ys).
  { intros b Hb. destruct (T b (Ir b Hb)) as (T1 & T2 & T3 & T4). repeat split; auto; try apply (T3 p k a H); eauto. }
  destruct (C19_stack_lemma ty (xs ++ ys)) as (r & Hr & Mr); [now destruct xs|exact T|exact L|intros b Hb; apply (Ne b Hb)|].
  destruct (C19_stack_lemma ty xs) as (rx & Hrx & Mx); [exact Nx|exact Tx|auto|intros b Hb; apply (Ne b (Il b Hb))|].
  destruct (C19_stack_lemma ty ys) as (ry & Hry & My); [exact Ny|exact Ty|auto|intros b Hb; apply (Ne b (Ir b Hb))|].
  destruct xs as [|x xs]; [congruence|]. destruct ys as [|y ys]; [congruence|].
  set (X := x :: xs) in *. set (Y := y :: ys) in *.
  assert (Ix : In x X) by (left; reflexivity). assert (Iy : In y Y) by (left; reflexivity).
  assert (Lx : forall b, In b X -> alike x b) by (intros b Hb p; apply L; auto).
  assert (Ly : forall b, In b Y -> alike y b) by (intros b Hb p; apply L; auto).
  assert (Lr : forall b, In b (X ++ Y) -> alike x b) by (intros b Hb p; apply L; auto).
  assert (Nox : forall p, at_path p x <> Some NoneV) by (apply (T x (Il x Ix))).
  assert (Noy : forall p, at_path p y <> Some NoneV) by (apply (T y (Ir y Iy))).
  assert (Wx : well_typed ty (length X) rx) by (apply (stacked_typed ty X rx x); auto; apply (Ne x); auto).
  assert (Wy : well_typed ty (length Y) ry) by (apply (stacked_typed ty Y ry y); auto; apply (Ne y); auto).
  pose proof (merged_alike ty _ X rx x Ix Lx Nox Mx) as Ax. pose proof (merged_alike ty _ Y ry y Iy Ly Noy My) as Ay.
  pose proof (merged_alike ty _ (X ++ Y) r x (Il x Ix) Lr Nox Mr) as Ar.
  assert (Axy : alike rx ry).
  { intro p. eapply layout_trans; [apply layout_sym, Ax|]. eapply layout_trans; [|apply Ay]. apply L; auto. }
  assert (Axx : alike rx rx) by (intro p; eapply layout_trans; [apply layout_sym, Ax|apply Ax]).
  assert (Ayy : alike ry ry) by (intro p; eapply layout_trans; [apply layout_sym, Ay|apply Ay]).
  set (two := [(rx, length X); (ry, length Y)]).
  destruct (C19_cat_lemma ty two) as (r' & Hr' & Mr').
  { discriminate. }
  { intros bn [<-|[<-|[]]]; assumption. }
  { intros bn bn' [<-|[<-|[]]] [<-|[<-|[]]]; apply alike_structure; try assumption. intro p. apply layout_sym, Axy. }
  { intros bn [<-|[<-|[]]]; cbn [fst]; [apply (alike_nonempty x)|apply (alike_nonempty y)]; try assumption; apply Ne; auto. }
  exists r, rx, ry, r'. repeat match goal with |- _ /\ _ => split end; try assumption.
  assert (L2 : forall b, In b (map fst two) -> alike rx b) by (intros b [<-|[<-|[]]]; assumption).
  assert (Norx : forall p, at_path p rx <> Some NoneV) by apply Wx.
  pose proof (merged_alike ty _ (map fst two) r' rx (or_introl eq_refl) L2 Norx Mr') as Ar'.
  apply alike_same.
  - intro p. eapply layout_trans; [apply layout_sym, Ar|]. eapply layout_trans; [apply Ax|apply Ar'].
  - intros p k a k' a' E E'.
    pose proof (Ar p) as Q. rewrite E in Q. destruct (at_path p x) as [[kx ax| |]|] eqn:Ex; cbn in Q; try tauto. clear Q.
    pose proof (merged_at ty _ (X ++ Y) r x (Il x Ix) Lr Nox Mr p) as Q. rewrite Ex, E in Q. injection Q as -> ->.
    pose proof (merged_at ty _ X rx x Ix Lx Nox Mx p) as Qx. rewrite Ex in Qx.
    pose proof (merged_at ty _ (map fst two) r' rx (or_introl eq_refl) L2 Norx Mr' p) as Q'. rewrite Qx, E' in Q'. injection Q' as -> ->.
    split; [reflexivity|]. f_equal. unfold cat_rows, two. cbn [flat_map fst snd]. rewrite Qx. cbn [contributed].
    pose proof (L x y p (Il x Ix) (Ir y Iy)) as Q. rewrite Ex in Q. destruct (at_path p y) as [[ky ay| |]|] eqn:Ey; cbn in Q; try tauto.
    pose proof (merged_at ty _ Y ry y Iy Ly Noy My p) as Qy. rewrite Ey in Qy. rewrite Qy. cbn [contributed]. rewrite app_nil_r.
    unfold stack_rows. exact (map_app _ X Y).
Qed.

(** C327.  Row i of a stack is batch i: the same arrays, the same keys. *)
Lemma C327_row_lemma : forall (ty : list string -> akind * list nat) (bs : list bval) (i : nat) (b : bval),
  stack_typed ty bs -> (forall b b' p, In b bs -> In b' bs -> layout (at_path p b) (at_path p b')) ->
  (forall b, In b bs -> nonempty b /\ exists p k a, at_path p b = Some (Leaf k a)) -> nth_error bs i = Some b ->
  exists r s, bstack bs = Ok r /\ bgetitem r (IInt (Z.of_nat i)) = Ok s /\ same_batch b s.
Proof.
  intros ty bs i b T L Ne E. pose proof (nth_error_In _ _ E) as I.
  destruct (C19_stack_lemma ty bs) as (r & Hr & Mr); [intros ->; destruct I|exact T|exact L|intros b' Hb; apply (Ne b' Hb)|].
  assert (Lb : forall c, In c bs -> alike b c) by (intros c Hc p; apply L; auto).
  assert (No : forall p, at_path p b <> Some NoneV) by (apply (T b I)).
  assert (W : well_typed ty (length bs) r) by (apply (stacked_typed ty bs r b); auto; apply (Ne b); auto).
  pose proof (merged_alike ty _ bs r b I Lb No Mr) as A.
  destruct (alike_nonempty b r A (proj1 (Ne b I))) as (l0 & El & Nl).
  assert (Hi : i < length bs) by (apply nth_error_Some; congruence).
  assert (S : selected (length bs) (IInt (Z.of_nat i)) = Some [i]) by (cbn; rewrite pick_nat by exact Hi; reflexivity).
  destruct (C19_getitem_lemma r (length bs) (IInt (Z.of_nat i)) [i] l0 El Nl) as (s & Hs & At); [apply W|apply (well_typed_aligned ty), W|exact S|].
  exists r, s. split; [exact Hr|]. split; [exact Hs|].
  intro p. specialize (At p). pose proof (merged_at ty _ bs r b I Lb No Mr p) as Q.
  destruct (at_path p b) as [[k a|l|]|] eqn:Eb.
  - rewrite Q in At. rewrite At. destruct (T b I) as (_ & _ & T3 & _). destruct (T3 p k a Eb) as [-> _]. split; [reflexivity|].
    cbn [picked map nth]. unfold stack_rows. erewrite nth_error_nth; [reflexivity|]. rewrite nth_error_map, E. cbn. rewrite Eb. reflexivity.
  - destruct Q as (l' & Q & K). rewrite Q in At. destruct At as (l2 & At & K2). rewrite At. intro s'. rewrite K2. apply K.
  - destruct (No p Eb).
  - rewrite Q in At. rewrite At. exact Logic.I.
Qed.

Lemma mapM_total {X Y} (f : X -> res Y) (g : X -> Y) l : (forall x, In x l -> f x = Ok (g x)) -> mapM f l = Ok (map g l).
Proof.
  induction l as [|x l IH]; intro H; [reflexivity|]. cbn [mapM map]. rewrite (H x (or_introl eq_refl)), IH; [reflexivity|]. intros y Hy. apply H. right. exact Hy.
Qed.
(** C327.  Stacking the rows of a batch gives the batch. *)
Lemma C327_rows_lemma : forall (ty : list string -> akind * list nat) (b : bval) (n : nat),
  nonempty b -> well_typed ty n b -> 0 < n ->
  exists rows r, mapM (fun i => bgetitem b (IInt (Z.of_nat i))) (seq 0 n) = Ok rows /\ bstack rows = Ok r /\ same_batch b r.
Proof.
  intros ty b n (l0 & El & Nl) W Hn.
  assert (Al : aligned n b) by (apply (well_typed_aligned ty), W). assert (D : distinct b) by apply W.
  assert (G : forall i, i < n -> exists s, bgetitem b (IInt (Z.of_nat i)) = Ok s /\
     forall p, match at_path p b with
               | Some (Leaf k (Ar rs l)) => at_path p s = Some (Leaf k (nth i l (Sc CNan)))
               | Some (Leaf k (Sc _)) => True
               | Some (Node l) => exists l', at_path p s = Some (Node l') /\ map fst l' = map fst l
               | Some NoneV => at_path p s = Some NoneV
               | None => at_path p s = None
               end).
  { intros i Hi. assert (S : selected n (IInt (Z.of_nat i)) = Some [i]) by (cbn; rewrite pick_nat by exact Hi; reflexivity).
    destruct (C19_getitem_lemma b n (IInt (Z.of_nat i)) [i] l0 El Nl D Al S) as (s & Hs & At). exists s. split; [exact Hs|exact At]. }
  set (row i := match bgetitem b (IInt (Z.of_nat i)) with Ok s => s | Err _ => b end).
  assert (Er : mapM (fun i => bgetitem b (IInt (Z.of_nat i))) (seq 0 n) = Ok (map row (seq 0 n))).
  { apply mapM_total. intros i Hi. apply in_seq in Hi. destruct (G i ltac:(lia)) as (s & E & _). unfold row. rewrite E. reflexivity. }
  set (rows := map row (seq 0 n)) in *.
  assert (Lf : forall p k a, at_path p b = Some (Leaf k a) -> k = fst (ty p) /\ exists l, a = Ar (snd (ty p)) l /\ length l = n /\ Forall (typed k (snd (ty p))) l).
  { intros p k a E. destruct W as (W1 & _). destruct (W1 p k a E) as [Ek Ta]. split; [exact Ek|].
    destruct a as [c|rs l]; [destruct Ta|]. destruct Ta as (-> & Tl & Tf). exists l. auto. }
  assert (Row : forall i, i < n -> forall p, match at_path p b with
               | Some (Leaf k (Ar rs l)) => at_path p (row i) = Some (Leaf k (nth i l (Sc CNan)))
               | Some (Leaf k (Sc _)) => False
               | Some (Node l) => exists l', at_path p (row i) = Some (Node l') /\ map fst l' = map fst l
               | Some NoneV => False
               | None => at_path p (row i) = None
               end).
  { intros i Hi p. destruct (G i Hi) as (s & E & At). specialize (At p). unfold row. rewrite E.
    destruct (at_path p b) as [[k a|l|]|] eqn:Eb; [|exact At| |exact At].
    - destruct (Lf p k a Eb) as (_ & l & -> & _). exact At.
    - destruct W as (_ & W2 & _). exact (W2 p Eb). }
  assert (A : forall i, i < n -> alike b (row i)).
  { intros i Hi p. specialize (Row i Hi p). destruct (at_path p b) as [[k [c|rs l]|l|]|]; try tauto.
    - rewrite Row. exact Logic.I.
    - destruct Row as (l' & -> & K). intro s. rewrite K. reflexivity.
    - rewrite Row. exact Logic.I. }
  assert (In_row : forall c, In c rows -> exists i, i < n /\ c = row i).
  { intros c Hc. apply in_map_iff in Hc as (i & <- & Hi). apply in_seq in Hi. exists i. split; [lia|reflexivity]. }
  destruct (C19_stack_lemma ty rows) as (r & Hr & Mr).
  { unfold rows. destruct n; [lia|discriminate]. }
  { intros c Hc. destruct (In_row c Hc) as (i & Hi & ->). repeat match goal with |- _ /\ _ => split end.
    - intros p l E. pose proof (Row i Hi p) as R. destruct (at_path p b) as [[k [x|rs l1]|l1|]|] eqn:Eb; try tauto; try congruence.
      destruct R as (l' & E' & K). rewrite E in E'. injection E' as <-. rewrite K. exact (D p l1 Eb).
    - intros p E. pose proof (Row i Hi p) as R. destruct (at_path p b) as [[k [x|rs l1]|l1|]|] eqn:Eb; try tauto; try congruence.
      destruct R as (l' & E' & K). congruence.
    - intros p k a E. pose proof (Row i Hi p) as R. destruct (at_path p b) as [[k1 [x|rs l1]|l1|]|] eqn:Eb; try tauto; try congruence.
      + rewrite E in R. injection R as -> ->. destruct (Lf p k1 _ Eb) as (Ek & l & [= -> ->] & Hl & F). split; [exact Ek|].
        rewrite Forall_forall in F. apply F, nth_In. lia.
      + destruct R as (l' & E' & K). congruence.
    - intros p k a c' l Hc' E E'. destruct (In_row c' Hc') as (j & Hj & ->). exfalso.
      pose proof (layout_trans _ _ _ (layout_sym _ _ (A i Hi p)) (A j Hj p)) as Q. rewrite E, E' in Q. exact Q. }
  { intros c c' p Hc Hc'. destruct (In_row c Hc) as (i & Hi & ->). destruct (In_row c' Hc') as (j & Hj & ->).
    exact (layout_trans _ _ _ (layout_sym _ _ (A i Hi p)) (A j Hj p)). }
  { intros c Hc. destruct (In_row c Hc) as (i & Hi & ->). apply (alike_nonempty b); [apply A, Hi|]. exists l0. auto. }
  exists rows, r. split; [exact Er|]. split; [exact Hr|].
  assert (R0 : In (row 0) rows) by (unfold rows; apply in_map, in_seq; lia).
  assert (L0 : forall c, In c rows -> alike (row 0) c).
  { intros c Hc p. destruct (In_row c Hc) as (i & Hi & ->). exact (layout_trans _ _ _ (layout_sym _ _ (A 0 Hn p)) (A i Hi p)). }
  assert (N0 : forall p, at_path p (row 0) <> Some NoneV).
  { intros p E. pose proof (A 0 Hn p) as Q. rewrite E in Q. destruct (at_path p b) as [[]|]; exact Q. }
  pose proof (merged_alike ty _ rows r (row 0) R0 L0 N0 Mr) as Ar. apply alike_same.
  - intro p. exact (layout_trans _ _ _ (A 0 Hn p) (Ar p)).
  - intros p k a k' a' E E'. pose proof (merged_at ty _ rows r (row 0) R0 L0 N0 Mr p) as Q. pose proof (Row 0 Hn p) as Q0. rewrite E in Q0.
    destruct (Lf p k a E) as (Ek & l & -> & Hl & F). rewrite Q0, E' in Q. injection Q as -> ->. split; [exact Ek|]. f_equal.
    unfold stack_rows, rows. rewrite map_map. symmetry. transitivity (map (fun i => nth i l (Sc CNan)) (seq 0 n)).
    + apply map_ext_in. intros i Hi. apply in_seq in Hi. pose proof (Row i ltac:(lia) p) as Qi. rewrite E in Qi. rewrite Qi. reflexivity.
    + rewrite <- Hl. clear. apply (nth_ext _ _ (Sc CNan) (Sc CNan)); [rewrite map_length, seq_length; reflexivity|].
      intros k Hk. rewrite map_length, seq_length in Hk. rewrite (nth_indep _ _ (nth 0 l (Sc CNan))) by (rewrite map_length, seq_length; exact Hk).
      rewrite (map_nth (fun j => nth j l (Sc CNan))), seq_nth by exact Hk. reflexivity.
Qed.
