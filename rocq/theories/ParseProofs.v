(** * Proofs about building batches from Python values *)
From Coq Require Import String.
From Verif Require Import ParseModel ParseSpec BatchSpec PyLemmas BatchProofs BatchCatProofs BatchMainProofs.
Open Scope nat_scope.

Section PyInd.
Variable P : py -> Prop.
Hypothesis Hn : forall k q, P (PNum k q).
Hypothesis Hs : forall s, P (PStr s).
Hypothesis Hno : P PNone.
Hypothesis Ho : forall n, P (PObj n).
Hypothesis Hd : forall l, P (PDict l).
Hypothesis Hb : forall b, P (PBatch b).
Hypothesis Hq : forall l, (forall y, In y l -> P y) -> P (PSeq l).
Hypothesis Ha : forall k a, P (PArr k a).
Hypothesis Hoa : forall l, P (POArr l).
Fixpoint py_induction (x : py) : P x :=
  match x with
  | PNum k q => Hn k q
  | PStr s => Hs s
  | PNone => Hno
  | PObj n => Ho n
  | PDict l => Hd l
  | PBatch b => Hb b
  | PSeq l => Hq l ((fix go (l : list py) : forall y, In y l -> P y :=
                       match l return forall y, In y l -> P y with
                       | [] => fun y H => match H with end
                       | x :: l => fun y H => match H with
                                              | or_introl E => match E in _ = z return P z with eq_refl => py_induction x end
                                              | or_intror H => go l y H
                                              end
                       end) l)
  | PArr k a => Ha k a
  | POArr l => Hoa l
  end.
End PyInd.

(** ** Dimensions *)
Lemma common_same : forall a, common a a = a.
Proof. induction a as [|x a IH]; cbn; auto. rewrite Nat.eqb_refl, IH. reflexivity. Qed.
Lemma commons_same : forall l sh, l <> [] -> (forall d, In d l -> d = sh) -> commons l = sh.
Proof.
  induction l as [|x l IH]; intros sh Hl H; [congruence|].
  destruct l as [|y l]; [apply H; left; reflexivity|].
  change (commons (x :: y :: l)) with (common x (commons (y :: l))).
  rewrite (IH sh); [|discriminate|intros d Hd; apply H; right; exact Hd].
  rewrite (H x (or_introl eq_refl)). apply common_same.
Qed.
Lemma common_prefix_l : forall a b, exists r, a = common a b ++ r.
Proof.
  induction a as [|x a IH]; intros b; cbn; [exists []; reflexivity|].
  destruct b as [|y b]; [exists (x :: a); reflexivity|].
  destruct (x =? y); [|exists (x :: a); reflexivity].
  destruct (IH b) as [r Hr]. exists r. cbn. f_equal. exact Hr.
Qed.
Lemma common_prefix_r : forall a b, exists r, b = common a b ++ r.
Proof.
  induction a as [|x a IH]; intros b; cbn; [exists b; reflexivity|].
  destruct b as [|y b]; [exists []; reflexivity|].
  destruct (x =? y) eqn:E; [|exists (y :: b); reflexivity].
  apply Nat.eqb_eq in E. subst y.
  destruct (IH b) as [r Hr]. exists r. cbn. f_equal. exact Hr.
Qed.
Lemma commons_prefix : forall l d, In d l -> exists r, d = commons l ++ r.
Proof.
  induction l as [|x l IH]; intros d [].
  - subst d. destruct l as [|y l]; [exists []; cbn; rewrite app_nil_r; reflexivity|].
    change (commons (x :: y :: l)) with (common x (commons (y :: l))). apply common_prefix_l.
  - destruct l as [|y l]; [destruct H|].
    destruct (IH d H) as [r Hr].
    change (commons (x :: y :: l)) with (common x (commons (y :: l))).
    destruct (common_prefix_r x (commons (y :: l))) as [r' Hr'].
    exists (r' ++ r). rewrite app_assoc, <- Hr'. exact Hr.
Qed.
Lemma commons_head : forall l n, l <> [] -> (forall d, In d l -> exists t, d = n :: t) -> exists c, commons l = n :: c.
Proof.
  induction l as [|x l IH]; intros n Hl H; [congruence|].
  destruct (H x (or_introl eq_refl)) as [t Ht]. subst x.
  destruct l as [|y l]; [exists t; reflexivity|].
  destruct (IH n) as [c Hc]; [discriminate|intros d Hd; apply H; right; exact Hd|].
  change (commons ((n :: t) :: y :: l)) with (common (n :: t) (commons (y :: l))).
  rewrite Hc. cbn. rewrite Nat.eqb_refl. eauto.
Qed.

Lemma rect_dims : forall sh x, rect sh x -> pdims x = sh.
Proof.
  induction sh as [|n sh IH]; intros x H.
  - destruct x; cbn in H; try contradiction; reflexivity.
  - destruct H as (l & -> & Hn & H0 & Hl). cbn [pdims]. f_equal; [exact Hn|].
    destruct l as [|y l].
    + cbn in Hn. rewrite (H0 (eq_sym Hn)). reflexivity.
    + apply commons_same; [discriminate|]. intros d Hd. apply in_map_iff in Hd as (z & <- & Hz). apply IH, Hl, Hz.
Qed.
Lemma rect_regular : forall sh x, rect sh x -> regular x = true.
Proof.
  induction sh as [|n sh IH]; intros x H.
  - destruct x; cbn in H; try contradiction; reflexivity.
  - destruct H as (l & -> & Hn & H0 & Hl). cbn [regular].
    apply andb_true_intro. split.
    + apply forallb_forall. intros y Hy. apply IH, Hl, Hy.
    + apply forallb_forall. intros d Hd. apply in_map_iff in Hd as (z & <- & Hz).
      rewrite (rect_dims sh z) by (apply Hl; exact Hz).
      destruct l as [|y l]; [destruct Hz|]. cbn.
      rewrite (rect_dims sh y) by (apply Hl; left; reflexivity).
      unfold dims_eqb. destruct (list_eq_dec Nat.eq_dec sh sh); congruence.
Qed.
Lemma rect_odd : forall sh x, rect sh x -> odd x = false.
Proof.
  induction sh as [|n sh IH]; intros x H.
  - destruct x; cbn in H; try contradiction; reflexivity.
  - destruct H as (l & -> & Hn & H0 & Hl). cbn [odd].
    destruct (existsb odd l) eqn:E; [|reflexivity].
    apply existsb_exists in E as (y & Hy & Ey). rewrite (IH y (Hl y Hy)) in Ey. discriminate.
Qed.
Lemma fill_rect : forall leaf arr sh x, rect sh x ->
  exists a, fill leaf arr sh x = Ok a /\ has_shape sh a /\ forall p, cell_at p a = option_map leaf (elem_at p x).
Proof.
  intros leaf arr. induction sh as [|n sh IH]; intros x H.
  - exists (Sc (leaf x)).
    destruct x; cbn in H; try contradiction;
      (split; [reflexivity|split; [exact Logic.I|intros p; destruct p; reflexivity]]).
  - destruct H as (l & -> & Hn & H0 & Hl). cbn [fill].
    assert (Hm : exists al, mapM (fill leaf arr sh) l = Ok al /\ length al = length l /\
              Forall (typed KObj sh) al /\
              forall i p, match nth_error al i with Some a => cell_at p a | None => None end =
                          option_map leaf (match nth_error l i with Some y => elem_at p y | None => None end)).
    { clear Hn H0. induction l as [|y l IHl].
      - exists []. split; [reflexivity|]. split; [reflexivity|]. split; [constructor|].
        intros i p. destruct i; reflexivity.
      - destruct (IH y (Hl y (or_introl eq_refl))) as (a & Ha & Hs & Hc).
        destruct IHl as (al & Hal & Hlen & Hfa & Hcc); [intros z Hz; apply Hl; right; exact Hz|].
        exists (a :: al). cbn [mapM]. rewrite Ha. cbn [bind]. rewrite Hal. cbn [bind].
        split; [reflexivity|]. split; [cbn; congruence|]. split; [constructor; assumption|].
        intros i p. destruct i as [|i]; cbn [nth_error]; [apply Hc|apply Hcc]. }
    destruct Hm as (al & Hal & Hlen & Hfa & Hcc).
    exists (Ar sh al). rewrite Hal. cbn [bind].
    split; [reflexivity|]. split.
    + cbn. split; [reflexivity|]. split; [congruence|exact Hfa].
    + intros p. destruct p as [|i p]; cbn [cell_at elem_at]; [reflexivity|apply Hcc].
Qed.

(** ** Kinds *)
Definition kind_of (y : py) : dk := match y with PNum k _ => DNum k | PStr _ => DStr | _ => DObj end.
Lemma rect_kinds : forall sh x d, rect sh x -> (In d (leaf_kinds x) <-> exists p y, elem_at p x = Some y /\ kind_of y = d).
Proof.
  induction sh as [|n sh IH]; intros x d H.
  - assert (E : leaf_kinds x = [kind_of x]) by (destruct x; cbn in H; try contradiction; reflexivity).
    rewrite E. split.
    + intros [<-|[]]. exists [], x. split; [destruct x; cbn in H; try contradiction; reflexivity|reflexivity].
    + intros (p & y & Hy & <-). destruct p; destruct x; cbn in H, Hy; try contradiction; inversion Hy; subst; left; reflexivity.
  - destruct H as (l & -> & Hn & H0 & Hl). cbn [leaf_kinds]. rewrite in_flat_map. split.
    + intros (y & Hy & Hd). apply (IH y d (Hl y Hy)) in Hd as (p & z & Hz & Hk).
      apply In_nth_error in Hy as (i & Hi). exists (i :: p), z. split; [cbn; rewrite Hi; exact Hz|exact Hk].
    + intros (p & z & Hz & Hk). destruct p as [|i p]; cbn in Hz; [discriminate|].
      destruct (nth_error l i) as [y|] eqn:Hi; [|discriminate].
      apply nth_error_In in Hi. exists y. split; [exact Hi|]. apply (IH y d (Hl y Hi)). eauto.
Qed.

Lemma fold_obj : forall l x, (x = DObj \/ In DObj l) -> fold_left dkjoin l x = DObj.
Proof.
  induction l as [|y l IH]; intros x [H|H]; cbn.
  - exact H.
  - destruct H.
  - apply IH. left. subst x. reflexivity.
  - destruct H as [->|H]; [apply IH; left; destruct x; reflexivity|apply IH; right; exact H].
Qed.
Lemma fold_str : forall l x, (x = DStr \/ In DStr l) -> x <> DObj -> ~ In DObj l -> fold_left dkjoin l x = DStr.
Proof.
  induction l as [|y l IH]; intros x [H|H] Hx Hn; cbn.
  - exact H.
  - destruct H.
  - apply IH; subst x; destruct y; cbn; auto; try (intro Hc; apply Hn; right; exact Hc); try discriminate;
      exfalso; apply Hn; left; reflexivity.
  - assert (Hn' : ~ In DObj l) by (intro; apply Hn; right; assumption).
    destruct H as [->|H].
    + apply IH; [left; destruct x; cbn; congruence|destruct x; cbn; congruence|exact Hn'].
    + apply IH; [right; exact H| |exact Hn'].
      destruct x; destruct y; cbn; try discriminate; try congruence; exfalso; apply Hn; left; reflexivity.
Qed.
Lemma fold_num : forall l k, k <> KObj -> (forall d, In d l -> exists k', d = DNum k' /\ k' <> KObj) ->
  exists k', fold_left dkjoin l (DNum k) = DNum k' /\ k' <> KObj /\
    (k' = KInt <-> k = KInt /\ forall d, In d l -> d = DNum KInt).
Proof.
  induction l as [|y l IH]; intros k Hk H; cbn.
  - exists k. split; [reflexivity|]. split; [exact Hk|]. split; [intros ->; split; [reflexivity|intros d []]|intros [-> _]; reflexivity].
  - destruct (H y (or_introl eq_refl)) as (k0 & -> & Hk0). cbn.
    destruct (IH (kjoin k k0)) as (k' & E & Hk' & Hi).
    { destruct k, k0; cbn; congruence. }
    { intros d Hd. apply H. right. exact Hd. }
    exists k'. split; [exact E|]. split; [exact Hk'|]. rewrite Hi. clear - Hk Hk0. split.
    + intros [E Ha]. destruct k, k0; cbn in E; try discriminate; try congruence.
      split; [reflexivity|]. intros d [<-|Hd]; auto.
    + intros [-> Ha]. assert (E := Ha (DNum k0) (or_introl eq_refl)). injection E as ->.
      split; [reflexivity|]. intros d Hd. apply Ha. right. exact Hd.
Qed.

Lemma not_set : forall sh x, sh <> [] -> rect sh x -> (exists p y, elem_at p x = Some y /\ ~ (exists l, y = PDict l)) \/ (forall p, elem_at p x = None) ->
  is_batch_set x = false.
Proof.
  intros sh x Hsh Hr H. destruct sh as [|n sh]; [congruence|]. destruct Hr as (l & -> & Hn & H0 & Hl).
  destruct l as [|y l]; [reflexivity|].
  change (is_batch_set (PSeq (y :: l))) with (forallb is_dict (y :: l)).
  destruct (forallb is_dict (y :: l)) eqn:E; [|reflexivity]. exfalso.
  rewrite forallb_forall in E.
  assert (Hd : forall z, In z (y :: l) -> exists d, z = PDict d).
  { intros z Hz. specialize (E z Hz). specialize (Hl z Hz).
    destruct z; try discriminate; [eauto|].
    destruct sh as [|m sh]; [destruct Hl|destruct Hl as (? & ? & _); discriminate]. }
  destruct H as [(p & z & Hz & Hnd)|Hnone].
  - destruct p as [|i p]; cbn in Hz; [discriminate|].
    destruct (nth_error (y :: l) i) as [w|] eqn:Hi; [|discriminate].
    apply nth_error_In in Hi. destruct (Hd w Hi) as (d & ->).
    destruct p; cbn in Hz; [|discriminate]. injection Hz as <-. apply Hnd. eauto.
  - destruct (Hd y (or_introl eq_refl)) as (d & ->). specialize (Hnone [0]). discriminate.
Qed.

Lemma parse_seq : forall id_of strnum l, is_batch_set (PSeq l) = false ->
  parse id_of strnum (PSeq l) = as_type_error (to_array id_of strnum (PSeq l)).
Proof. intros id_of strnum l H. cbn [parse]. rewrite H. reflexivity. Qed.

Lemma rect_nonleaf : forall sh x, rect sh x -> (exists p y, elem_at p x = Some y) \/ (forall p, elem_at p x = None).
Proof.
  induction sh as [|n sh IH]; intros x H.
  - left. exists [], x. destruct x; cbn in H; try contradiction; reflexivity.
  - destruct H as (l & -> & Hn & H0 & Hl).
    assert (D : (exists y, In y l /\ exists p z, elem_at p y = Some z) \/ (forall y, In y l -> forall p, elem_at p y = None)).
    { clear Hn H0. induction l as [|y l IHl]; [right; intros y []|].
      destruct (IH y (Hl y (or_introl eq_refl))) as [(p & z & Hz)|Hy].
      - left. exists y. split; [left; reflexivity|eauto].
      - destruct IHl as [(w & Hw & He)|Hx]; [intros z Hz; apply Hl; right; exact Hz|left; exists w; split; [right; exact Hw|exact He]|].
        right. intros w [<-|Hw]; auto. }
    destruct D as [(y & Hy & p & z & Hz)|D].
    + left. apply In_nth_error in Hy as (i & Hi). exists (i :: p), z. cbn. rewrite Hi. exact Hz.
    + right. intros p. destruct p as [|i p]; cbn; [reflexivity|].
      destruct (nth_error l i) as [y|] eqn:E; [apply D; apply nth_error_In in E; exact E|reflexivity].
Qed.

Lemma rect_scalar : forall sh x p y, rect sh x -> elem_at p x = Some y -> scalar y.
Proof.
  induction sh as [|n sh IH]; intros x p y H Hy.
  - destruct p; destruct x; cbn in H, Hy; try contradiction; try discriminate; injection Hy as <-; exact H.
  - destruct H as (l & -> & _ & _ & Hl). destruct p as [|i p]; cbn in Hy; [discriminate|].
    destruct (nth_error l i) as [z|] eqn:E; [|discriminate]. apply nth_error_In in E. eapply IH; eauto.
Qed.

(** C272. A nested list of numbers with the same number of elements everywhere becomes the array of
    those numbers, of ints if they all are (and there is one), of floats otherwise. *)
Lemma C272_numbers_lemma : forall (id_of : py -> nat) (strnum : akind -> cell -> nat) (sh : list nat) (x : py),
  sh <> [] -> rect sh x -> sane x -> (forall p y, elem_at p x = Some y -> is_num y) ->
  exists k a, parse id_of strnum x = Ok (Leaf k a) /\ has_shape sh a /\
    (forall p, cell_at p a = match elem_at p x with Some (PNum _ q) => Some (CN q) | _ => None end) /\
    (k = KInt \/ k = KFloat) /\
    (k = KInt <-> (exists p y, elem_at p x = Some y) /\ forall p y, elem_at p x = Some y -> is_int y).
Proof.
  intros id_of strnum sh x Hsh Hr Hsane Hnum.
  assert (Hset : is_batch_set x = false).
  { apply (not_set sh); auto. destruct (rect_nonleaf sh x Hr) as [(p & y & Hy)|Hn]; [left|right; exact Hn].
    exists p, y. split; [exact Hy|]. intros (l & ->). exact (Hnum p _ Hy). }
  assert (Hx : exists l, x = PSeq l) by (destruct sh; [congruence|destruct Hr as (l & -> & _); eauto]).
  destruct Hx as (l & ->).
  assert (Hk : exists k, dtype_of (leaf_kinds (PSeq l)) = DNum k /\ (k = KInt \/ k = KFloat) /\
            (k = KInt <-> (exists p y, elem_at p (PSeq l) = Some y) /\ forall p y, elem_at p (PSeq l) = Some y -> is_int y)).
  { assert (Hall : forall d, In d (leaf_kinds (PSeq l)) -> exists k', d = DNum k' /\ k' <> KObj).
    { intros d Hd. apply (rect_kinds sh) in Hd as (p & y & Hy & <-); [|exact Hr].
      assert (N := Hnum p y Hy). destruct y as [k q| | | | | | | |]; try contradiction.
      exists k. split; [reflexivity|]. destruct (Hsane p k q Hy) as [-> | ->]; discriminate. }
    assert (Hin : forall p y, elem_at p (PSeq l) = Some y -> In (kind_of y) (leaf_kinds (PSeq l))).
    { intros p y Hy. apply (rect_kinds sh); [exact Hr|eauto]. }
    assert (Hback : forall d, In d (leaf_kinds (PSeq l)) -> exists p y, elem_at p (PSeq l) = Some y /\ kind_of y = d).
    { intros d Hd. apply (rect_kinds sh); assumption. }
    destruct (leaf_kinds (PSeq l)) as [|d ds].
    - exists KFloat. split; [reflexivity|]. split; [right; reflexivity|]. split; [discriminate|].
      intros ((p & y & Hy) & _). destruct (Hin p y Hy).
    - destruct (Hall d (or_introl eq_refl)) as (k0 & -> & Hk0).
      destruct (fold_num ds k0 Hk0) as (k & E & Hk & Hi); [intros d Hd; apply Hall; right; exact Hd|].
      exists k. split; [exact E|]. split; [destruct k; auto; congruence|]. rewrite Hi. split.
      + intros [-> Ha]. split.
        * destruct (Hback (DNum KInt) (or_introl eq_refl)) as (p & y & Hy & _). eauto.
        * intros p y Hy. assert (N := Hnum p y Hy). destruct y as [k' q| | | | | | | |]; try contradiction.
          destruct (Hin p _ Hy) as [E'|E']; [injection E' as <-; exact Logic.I|].
          apply Ha in E'. cbn in E'. injection E' as ->. exact Logic.I.
      + intros (_ & Ha). split.
        * destruct (Hback (DNum k0) (or_introl eq_refl)) as (p & y & Hy & Hky).
          assert (A := Ha p y Hy). destruct y as [k' q| | | | | | | |]; try contradiction. destruct k'; try contradiction.
          cbn in Hky. congruence.
        * intros d' Hd'. destruct (Hback d' (or_intror Hd')) as (p & y & Hy & <-).
          assert (A := Ha p y Hy). destruct y as [k' q| | | | | | | |]; try contradiction. destruct k'; try contradiction. reflexivity. }
  destruct Hk as (k & Ek & Hk & Hi).
  destruct (fill_rect (keep id_of) keep_cell sh (PSeq l) Hr) as (a & Ha & Hs & Hc).
  exists k, a. rewrite parse_seq by exact Hset. unfold to_array.
  rewrite (rect_odd sh _ Hr), (rect_regular sh _ Hr), Ek, (rect_dims sh _ Hr), Ha. cbn [bind as_type_error].
  split; [reflexivity|]. split; [exact Hs|]. split; [|split; [exact Hk|exact Hi]].
  intros p. rewrite Hc. destruct (elem_at p (PSeq l)) as [y|] eqn:Hy; cbn; [|reflexivity].
  assert (N := Hnum p y Hy). destruct y; try contradiction. reflexivity.
Qed.

Lemma in_kind : forall sh x p y, rect sh x -> elem_at p x = Some y -> In (kind_of y) (leaf_kinds x).
Proof. intros sh x p y Hr Hy. apply (rect_kinds sh); eauto. Qed.

Lemma dtype_obj : forall l, In DObj l -> dtype_of l = DObj.
Proof. intros [|x l] H; [destruct H|]. cbn. apply fold_obj. destruct H; auto. Qed.
Lemma dtype_str : forall l, In DStr l -> ~ In DObj l -> dtype_of l = DStr.
Proof.
  intros [|x l] H Hn; [destruct H|]. cbn. apply fold_str; [destruct H; auto|intros ->; apply Hn; left; reflexivity|intro; apply Hn; right; assumption].
Qed.

(** C273. In a list (of any regular nesting) that has None or some other object in it, or only
    strings, everything is kept as it is. *)
Lemma C273_objects_lemma : forall (id_of : py -> nat) (strnum : akind -> cell -> nat) (sh : list nat) (x : py) (p0 : list nat) (y0 : py),
  sh <> [] -> rect sh x -> elem_at p0 x = Some y0 ->
  ((exists p y, elem_at p x = Some y /\ ~ exists l, y = PDict l) /\ ~ is_num y0 /\ ~ is_str y0 \/ (forall p y, elem_at p x = Some y -> is_str y)) ->
  exists a, parse id_of strnum x = Ok (Leaf KObj a) /\ has_shape sh a /\
    forall p, cell_at p a = option_map (as_is id_of) (elem_at p x).
Proof.
  intros id_of strnum sh x p0 y0 Hsh Hr H0 H.
  assert (Hset : is_batch_set x = false).
  { apply (not_set sh); auto. left. destruct H as [[H _]|H]; [exact H|].
    exists p0, y0. split; [exact H0|]. intros (l & ->). exact (H _ _ H0). }
  assert (Hx : exists l, x = PSeq l) by (destruct sh; [congruence|destruct Hr as (l & -> & _); eauto]).
  destruct Hx as (l & ->).
  rewrite parse_seq by exact Hset. unfold to_array.
  rewrite (rect_odd sh _ Hr), (rect_regular sh _ Hr), (rect_dims sh _ Hr).
  destruct H as [[_ [Hn Hs]]|H].
  - rewrite dtype_obj.
    2:{ assert (I := in_kind sh _ p0 y0 Hr H0). assert (S := rect_scalar sh _ p0 y0 Hr H0).
        destruct y0; cbn in *; try contradiction; try exact I; exfalso; auto. }
    destruct (fill_rect (keep id_of) keep_cell sh (PSeq l) Hr) as (a & Ha & Hsh' & Hc).
    exists a. rewrite Ha. split; [reflexivity|]. split; [exact Hsh'|]. exact Hc.
  - rewrite dtype_str.
    2:{ assert (I := in_kind sh _ p0 y0 Hr H0). assert (S := H _ _ H0). destruct y0; try contradiction. exact I. }
    2:{ intros Hd. apply (rect_kinds sh) in Hd as (p & y & Hy & E); [|exact Hr].
        assert (S := H _ _ Hy). destruct y; try contradiction. discriminate. }
    destruct (fill_rect (tostr id_of strnum) (tostr_cell strnum) sh (PSeq l) Hr) as (a & Ha & Hsh' & Hc).
    exists a. rewrite Ha. split; [reflexivity|]. split; [exact Hsh'|].
    intros p. rewrite Hc. destruct (elem_at p (PSeq l)) as [y|] eqn:Hy; [|reflexivity].
    assert (S := H _ _ Hy). destruct y; try contradiction. reflexivity.
Qed.

(** C273. Not so when there are just numbers and strings: every number is replaced by a string. *)
Lemma C273_mixed_refuted_lemma : forall (id_of : py -> nat) (strnum : akind -> cell -> nat) (sh : list nat) (x : py) (p0 p1 : list nat) (s : nat) (k : akind) (q : Qc),
  sh <> [] -> rect sh x ->
  (forall p y, elem_at p x = Some y -> is_num y \/ is_str y) ->
  elem_at p0 x = Some (PStr s) -> elem_at p1 x = Some (PNum k q) ->
  exists a, parse id_of strnum x = Ok (Leaf KObj a) /\ has_shape sh a /\
    cell_at p1 a = Some (CO (Some (strnum k (CN q)))).
Proof.
  intros id_of strnum sh x p0 p1 s k q Hsh Hr Hall H0 H1.
  assert (Hset : is_batch_set x = false).
  { apply (not_set sh); auto. left. exists p0, (PStr s). split; [exact H0|]. intros (l & E). discriminate. }
  assert (Hx : exists l, x = PSeq l) by (destruct sh; [congruence|destruct Hr as (l & -> & _); eauto]).
  destruct Hx as (l & ->).
  rewrite parse_seq by exact Hset. unfold to_array.
  rewrite (rect_odd sh _ Hr), (rect_regular sh _ Hr), (rect_dims sh _ Hr).
  rewrite dtype_str.
  2:{ exact (in_kind sh _ p0 _ Hr H0). }
  2:{ intros Hd. apply (rect_kinds sh) in Hd as (p & y & Hy & E); [|exact Hr].
      destruct (Hall _ _ Hy) as [N|N]; destruct y; try contradiction; discriminate. }
  destruct (fill_rect (tostr id_of strnum) (tostr_cell strnum) sh (PSeq l) Hr) as (a & Ha & Hsh' & Hc).
  exists a. rewrite Ha. split; [reflexivity|]. split; [exact Hsh'|]. rewrite Hc, H1. reflexivity.
Qed.

(** ** Ragged lists *)
Lemma ordinary_odd : forall x, ordinary x -> odd x = false.
Proof.
  induction x using py_induction; intros H'; try reflexivity.
  - destruct (H' [] _ eq_refl) as [[]|(k & a & E)]; discriminate E.
  - cbn [odd]. destruct (existsb odd l) eqn:E; [|reflexivity].
    apply existsb_exists in E as (y & Hy & Ey). rewrite H in Ey; [discriminate|exact Hy|].
    intros p z Hz. apply In_nth_error in Hy as (i & Hi). apply (H' (i :: p)). cbn. rewrite Hi. exact Hz.
  - destruct (H' [] _ eq_refl) as [[]|(k & a & E)]; discriminate E.
Qed.
Lemma sized_dims : forall n x, sized n x -> exists t, pdims x = n :: t.
Proof.
  intros n x H. destruct x; cbn in H; try contradiction.
  - cbn. subst n. eauto.
  - destruct a; try contradiction. cbn. subst n. eauto.
Qed.
Lemma sized_not_dict : forall n x, sized n x -> is_dict x = false.
Proof. intros n x H. destruct x; cbn in H; try contradiction; reflexivity. Qed.
Lemma sized_leaf : forall id_of n x, sized n x -> fill (keep id_of) keep_cell [] x = Ok (Sc (CO (Some (id_of x)))).
Proof.
  intros id_of n x H. destruct x; cbn in H; try contradiction; [reflexivity|].
  destruct a; [contradiction|]. reflexivity.
Qed.
Lemma mapM_const : forall (A B : Type) (f : A -> res B) (g : A -> B) (l : list A),
  (forall x, In x l -> f x = Ok (g x)) -> mapM f l = Ok (map g l).
Proof.
  intros A B f g. induction l as [|x l IH]; intros H; [reflexivity|]. cbn.
  rewrite H by (left; reflexivity). cbn. rewrite IH; [reflexivity|]. intros y Hy. apply H. right. exact Hy.
Qed.
Lemma not_set_sized : forall l n x, In x l -> sized n x -> is_batch_set (PSeq l) = false.
Proof.
  intros l n x Hx Hs. destruct l as [|y l]; [destruct Hx|].
  change (is_batch_set (PSeq (y :: l))) with (forallb is_dict (y :: l)).
  destruct (forallb is_dict (y :: l)) eqn:E; [|reflexivity].
  rewrite forallb_forall in E. specialize (E x Hx). rewrite (sized_not_dict n x Hs) in E. discriminate.
Qed.
Lemma irregular : forall l x y, In x l -> In y l -> pdims x <> pdims y -> regular (PSeq l) = false.
Proof.
  intros l x y Hx Hy Hne. cbn [regular].
  destruct (forallb (dims_eqb (hd [] (map pdims l))) (map pdims l)) eqn:E; [|apply andb_false_r].
  exfalso. apply Hne. rewrite forallb_forall in E.
  assert (D : forall z, In z l -> hd [] (map pdims l) = pdims z).
  { intros z Hz. specialize (E (pdims z) (in_map pdims l z Hz)). unfold dims_eqb in E.
    destruct (list_eq_dec Nat.eq_dec _ (pdims z)) as [e|]; [exact e|discriminate]. }
  rewrite <- (D x Hx), <- (D y Hy). reflexivity.
Qed.

(** C274. A list of lists or arrays of different lengths becomes the object array of those lists and arrays. *)
Lemma C274_ragged_lemma : forall (id_of : py -> nat) (strnum : akind -> cell -> nat) (l : list py) (x y : py) (n m : nat),
  (forall z, In z l -> ordinary z /\ exists n, sized n z) ->
  In x l -> In y l -> sized n x -> sized m y -> n <> m ->
  parse id_of strnum (PSeq l) = Ok (Leaf KObj (Ar [] (map (fun z => Sc (CO (Some (id_of z)))) l))).
Proof.
  intros id_of strnum l x y n m Hl Hx Hy Hn Hm Hne.
  rewrite parse_seq by (eapply not_set_sized; eassumption). unfold to_array.
  rewrite ordinary_odd.
  2:{ intros p z Hz. destruct p as [|i p]; cbn in Hz; [discriminate|].
      destruct (nth_error l i) as [w|] eqn:E; [|discriminate]. apply nth_error_In in E.
      destruct (Hl w E) as [O _]. exact (O p z Hz). }
  destruct (sized_dims n x Hn) as (tx & Ex). destruct (sized_dims m y Hm) as (ty & Ey).
  rewrite (irregular l x y Hx Hy) by congruence.
  assert (Hd : pdims (PSeq l) = [length l]).
  { cbn [pdims]. f_equal. destruct (commons (map pdims l)) as [|c cs] eqn:E; [reflexivity|]. exfalso.
    destruct (commons_prefix (map pdims l) (pdims x) (in_map _ _ _ Hx)) as (r & Hr).
    destruct (commons_prefix (map pdims l) (pdims y) (in_map _ _ _ Hy)) as (r' & Hr').
    rewrite E in Hr, Hr'. cbn in Hr, Hr'. congruence. }
  rewrite Hd. cbn [fill].
  rewrite (mapM_const _ _ _ (fun z => Sc (CO (Some (id_of z))))); [reflexivity|].
  intros z Hz. destruct (Hl z Hz) as (_ & k & Hk). exact (sized_leaf id_of k z Hk).
Qed.

Lemma strip_err : forall d a e, strip d a = Err e -> e = ValueError.
Proof.
  intros d. fix IH 1. intros a e H. destruct a as [c|rs l]; cbn [strip] in H.
  - destruct (length (shape (Sc c)) <=? d); congruence.
  - destruct (length (shape (Ar rs l)) <=? d); [congruence|].
    destruct l as [|x [|y l]]; [congruence| |congruence]. exact (IH x e H).
Qed.
Lemma mapM_err : forall (A B : Type) (f : A -> res B) (l : list A) (e : exn), mapM f l = Err e -> exists x, In x l /\ f x = Err e.
Proof.
  intros A B f. induction l as [|x l IH]; intros e H; cbn in H; [discriminate|].
  destruct (f x) eqn:E; cbn in H.
  - destruct (mapM f l) eqn:E'; cbn in H; [discriminate|]. injection H as ->.
    destruct (IH e eq_refl) as (z & Hz & Ez). exists z. split; [right; exact Hz|exact Ez].
  - injection H as ->. exists x. split; [left; reflexivity|exact E].
Qed.
Lemma bcast_err : forall sh a e, bcast sh a = Err e -> e = ValueError.
Proof.
  induction sh as [|n sh IH]; intros a e H; cbn in H.
  - destruct a; congruence.
  - destruct (length (shape a) <=? length sh).
    + destruct (bcast sh a) eqn:E; cbn in H; [discriminate|]. injection H as ->. eapply IH; exact E.
    + destruct a as [c|rs l]; [congruence|].
      destruct (length l =? n).
      * destruct (mapM (bcast sh) l) eqn:E; cbn in H; [discriminate|]. injection H as ->.
        apply mapM_err in E as (x & _ & Ex). eapply IH; exact Ex.
      * destruct l as [|x [|y l]]; [congruence| |congruence].
        destruct (bcast sh x) eqn:E; cbn in H; [discriminate|]. injection H as ->. eapply IH; exact E.
Qed.
Lemma nmap_total : forall (f : cell -> cell) (a : nd), exists b, nmap (fun c => Ok (f c)) a = Ok b.
Proof.
  intros f. fix IH 1. intros a. destruct a as [c|rs l]; cbn.
  - eexists; reflexivity.
  - assert (H : exists l', (fix go (l : list nd) : res (list nd) := match l with
                 | [] => Ok [] | x :: l => let* x := nmap (fun c => Ok (f c)) x in let* l := go l in Ok (x :: l) end) l = Ok l').
    { induction l as [|x l IHl]; [eexists; reflexivity|].
      destruct (IH x) as (x' & ->). destruct IHl as (l' & ->). eexists; reflexivity. }
    destruct H as (l' & ->). eexists; reflexivity.
Qed.
Lemma fill_arr_err : forall id_of d k a e, d <> [] -> fill (keep id_of) keep_cell d (PArr k a) = Err e -> e = ValueError.
Proof.
  intros id_of d k a e Hd H. destruct d as [|n d]; [congruence|]. cbn [fill] in H.
  destruct (broadcast (n :: d) a) as [b|e'] eqn:E; cbn [bind] in H.
  - destruct (nmap_total (keep_cell k) b) as (b' & Hb). rewrite Hb in H. discriminate.
  - injection H as ->. unfold broadcast in E. destruct (strip (length (n :: d)) a) as [a'|e'] eqn:E'; cbn [bind] in E.
    + eapply bcast_err; exact E.
    + injection E as ->. eapply strip_err; exact E'.
Qed.
Lemma shape_typed : forall sh a, has_shape sh a -> shape a = sh.
Proof.
  intros sh a H. destruct sh as [|n sh]; destruct a as [c|rs l]; cbn in H; try contradiction; [reflexivity|].
  destruct H as (-> & <- & _). reflexivity.
Qed.

(** C274. Not so for arrays with the same number of rows (other than one) and different dimensions
    after that: TypeError. *)
Lemma C274_arrays_refuted_lemma : forall (id_of : py -> nat) (strnum : akind -> cell -> nat) (l : list py) (n : nat) (x y : py) (sx sy : list nat),
  n <> 1 -> (forall z, In z l -> exists sh, num_array (n :: sh) z) ->
  In x l -> In y l -> num_array (n :: sx) x -> num_array (n :: sy) y -> sx <> sy ->
  parse id_of strnum (PSeq l) = Err TypeError.
Proof.
  intros id_of strnum l n x y sx sy Hn1 Hl Hx Hy Nx Ny Hne.
  assert (Dz : forall z sh, num_array sh z -> pdims z = sh).
  { intros z sh (k & a & -> & _ & H & _). cbn. apply shape_typed. exact H. }
  assert (Hsz : forall z, In z l -> sized n z).
  { intros z Hz. destruct (Hl z Hz) as (sh & k & a & -> & _ & H & _). cbn.
    destruct a; cbn in H; [contradiction|]. apply H. }
  rewrite parse_seq by (eapply not_set_sized; eauto). unfold to_array.
  rewrite ordinary_odd.
  2:{ intros p z Hz. destruct p as [|i p]; cbn in Hz; [discriminate|].
      destruct (nth_error l i) as [w|] eqn:E; [|discriminate]. apply nth_error_In in E.
      destruct (Hl w E) as (sh & k & a & -> & _). destruct p; cbn in Hz; [|discriminate].
      injection Hz as <-. right. eauto. }
  rewrite (irregular l x y Hx Hy) by (rewrite (Dz _ _ Nx), (Dz _ _ Ny); congruence).
  cbn [pdims].
  destruct (commons_head (map pdims l) n) as (c & Hc).
  { destruct l; [destruct Hx|discriminate]. }
  { intros d Hd. apply in_map_iff in Hd as (z & <- & Hz). destruct (Hl z Hz) as (sh & H). rewrite (Dz _ _ H). eauto. }
  rewrite Hc.
  change (fill (keep id_of) keep_cell (length l :: n :: c) (PSeq l))
    with (let* al := mapM (fill (keep id_of) keep_cell (n :: c)) l in Ok (Ar (n :: c) al)).
  assert (Hlong : exists z sh, In z l /\ num_array (n :: sh) z /\ length c < length sh).
  { assert (P : forall z sh, In z l -> num_array (n :: sh) z -> sh = c \/ length c < length sh).
    { intros z sh Hz N. destruct (commons_prefix (map pdims l) (pdims z) (in_map _ _ _ Hz)) as (r & Hr).
      rewrite Hc, (Dz _ _ N) in Hr. cbn in Hr. injection Hr as ->.
      destruct r; [left; apply app_nil_r|right; rewrite app_length; cbn; lia]. }
    destruct (P x sx Hx Nx) as [->|Lx]; [|eauto]. destruct (P y sy Hy Ny) as [->|Ly]; [congruence|eauto]. }
  destruct Hlong as (z & sh & Hz & Nz & Hlen).
  assert (Ez : fill (keep id_of) keep_cell (n :: c) z = Err ValueError).
  { destruct Nz as (k & a & -> & _ & H & _). cbn [fill]. unfold broadcast.
    assert (S : strip (length (n :: c)) a = Err ValueError).
    { destruct a as [cc|rs la]; cbn in H; [contradiction|]. destruct H as (-> & Hla & _). cbn.
      destruct (length sh <=? length c) eqn:E; [apply Nat.leb_le in E; lia|].
      destruct la as [|u [|v la]]; try reflexivity. cbn in Hla. congruence. }
    rewrite S. reflexivity. }
  destruct (mapM (fill (keep id_of) keep_cell (n :: c)) l) as [al|e] eqn:E.
  - exfalso. clear - E Hz Ez. revert al E. induction l as [|w l IH]; intros al E; [destruct Hz|].
    cbn [mapM] in E. destruct Hz as [->|Hz].
    + rewrite Ez in E. discriminate.
    + destruct (fill (keep id_of) keep_cell (n :: c) w); cbn [bind] in E; [|discriminate].
      destruct (mapM (fill (keep id_of) keep_cell (n :: c)) l) as [al'|]; [exact (IH Hz al' eq_refl)|discriminate].
  - apply mapM_err in E as (w & Hw & Ew). destruct (Hl w Hw) as (sh' & k & a & -> & _).
    apply fill_arr_err in Ew; [|discriminate]. subst e. reflexivity.
Qed.

(** ** Batch sets *)
Lemma parse_set : forall id_of strnum x l, (x = PSeq l /\ l <> [] \/ x = POArr l) -> (forall d, In d l -> dict_or_batch d) ->
  parse id_of strnum x = let* bs := mapM (parse id_of strnum) l in bstack bs.
Proof.
  intros id_of strnum x l Hx Hd.
  assert (Hset : forallb is_dict l = true).
  { apply forallb_forall. intros d Hin. specialize (Hd d Hin). destruct d; try contradiction; reflexivity. }
  assert (Hgo : forall l, (fix go (l : list py) : res (list bval) := match l with [] => Ok [] | v :: l => let* v := parse id_of strnum v in let* l := go l in Ok (v :: l) end) l = mapM (parse id_of strnum) l).
  { clear. induction l as [|y l IH]; [reflexivity|]. cbn [mapM]. destruct (parse id_of strnum y); cbn [bind]; [|reflexivity]. rewrite IH. reflexivity. }
  destruct Hx as [[-> Hne]| ->].
  - assert (Hs : is_batch_set (PSeq l) = true) by (destruct l; [congruence|exact Hset]).
    cbn [parse]. rewrite Hs, Hgo. reflexivity.
  - assert (Hs : is_batch_set (POArr l) = true) by exact Hset.
    cbn [parse]. rewrite Hs, Hgo. reflexivity.
Qed.

(** C275. A list, tuple or object array of non-empty dicts of the same layout becomes a Batch that
    gives dict i back as row i. *)
Lemma C275_rows_lemma : forall (id_of : py -> nat) (strnum : akind -> cell -> nat) (ty : list string -> akind * list nat) (x : py) (ds : list py) (bs : list bval) (i : nat) (b : bval),
  x = PSeq ds \/ x = POArr ds -> (forall d, In d ds -> dict_or_batch d) ->
  Forall2 (fun d b => parse id_of strnum d = Ok b) ds bs ->
  stack_typed ty bs ->
  (forall b b' p, In b bs -> In b' bs -> layout (at_path p b) (at_path p b')) ->
  (forall b, In b bs -> exists l, b = Node l /\ l <> []) ->
  nth_error bs i = Some b ->
  exists r s, parse id_of strnum x = Ok r /\ bgetitem r (IInt (Z.of_nat i)) = Ok s /\
    forall p k a, at_path p b = Some (Leaf k a) -> at_path p s = Some (Leaf k a).
Proof.
  intros id_of strnum ty x ds bs i b Hx Hd HF Ht Hlay Hne Hi.
  destruct (C19_stack_row_lemma ty bs i b Ht Hlay Hne Hi) as (r & s & Hr & Hs & Hp).
  exists r, s. split; [|split; assumption].
  rewrite (parse_set id_of strnum x ds); [| |exact Hd].
  - assert (Hm : mapM (parse id_of strnum) ds = Ok bs).
    { clear - HF. induction HF as [|d b ds bs H _ IH]; [reflexivity|]. cbn. rewrite H. cbn. rewrite IH. reflexivity. }
    rewrite Hm. exact Hr.
  - destruct Hx as [->| ->]; [left; split; [reflexivity|]|right; reflexivity].
    inversion HF; subst; [destruct i; discriminate|discriminate].
Qed.

Lemma mapM_app : forall (A B : Type) (f : A -> res B) (l l' : list A),
  mapM f (l ++ l') = let* a := mapM f l in let* b := mapM f l' in Ok (a ++ b).
Proof.
  intros A B f. induction l as [|x l IH]; intros l'; cbn.
  - destruct (mapM f l'); reflexivity.
  - destruct (f x); cbn; [|reflexivity]. rewrite IH. destruct (mapM f l); cbn; [|reflexivity].
    destruct (mapM f l'); reflexivity.
Qed.
Lemma bstack_drop : forall a b, bstack (a ++ Node [] :: b) = bstack (a ++ b).
Proof.
  intros a b. unfold bstack, bstack_. rewrite !forallb_app, !filter_app. reflexivity.
Qed.

(** C275. Not so with an empty dict among them: it gives no row, and the rows of all later dicts move up. *)
Lemma C275_empty_refuted_lemma : forall (id_of : py -> nat) (strnum : akind -> cell -> nat) (ds1 ds2 : list py),
  (forall d, In d (ds1 ++ ds2) -> dict_or_batch d) -> ds1 ++ ds2 <> [] ->
  parse id_of strnum (PSeq (ds1 ++ PDict [] :: ds2)) = parse id_of strnum (PSeq (ds1 ++ ds2)) /\
  parse id_of strnum (POArr (ds1 ++ PDict [] :: ds2)) = parse id_of strnum (POArr (ds1 ++ ds2)).
Proof.
  intros id_of strnum ds1 ds2 Hd Hne.
  assert (Hd' : forall d, In d (ds1 ++ PDict [] :: ds2) -> dict_or_batch d).
  { intros d Hin. apply in_app_iff in Hin as [Hin|[<-|Hin]]; [apply Hd; apply in_app_iff; auto|exact Logic.I|apply Hd; apply in_app_iff; auto]. }
  assert (E : (let* bs := mapM (parse id_of strnum) (ds1 ++ PDict [] :: ds2) in bstack bs) =
              (let* bs := mapM (parse id_of strnum) (ds1 ++ ds2) in bstack bs)).
  { rewrite !mapM_app. destruct (mapM (parse id_of strnum) ds1); cbn [bind]; [|reflexivity].
    cbn [mapM parse forallb negb bind]. destruct (mapM (parse id_of strnum) ds2); cbn [bind]; [|reflexivity].
    apply bstack_drop. }
  split.
  - rewrite (parse_set id_of strnum _ (ds1 ++ PDict [] :: ds2)), (parse_set id_of strnum _ (ds1 ++ ds2)); auto.
    left. split; [reflexivity|]. destruct ds1; discriminate.
  - rewrite (parse_set id_of strnum _ (ds1 ++ PDict [] :: ds2)), (parse_set id_of strnum _ (ds1 ++ ds2)); auto.
Qed.

(** ** The constructor *)
Lemma field_put : forall (v : bval) k l s, field (put k v l) s = if String.eqb s k then Some v else field l s.
Proof.
  intros v k l s. unfold field. induction l as [|[k' v'] l IH]; cbn.
  - destruct (String.eqb s k); reflexivity.
  - destruct (String.eqb k k') eqn:E; cbn.
    + apply String.eqb_eq in E. subst k'. destruct (String.eqb s k); reflexivity.
    + destruct (String.eqb s k') eqn:E'; cbn.
      * apply String.eqb_eq in E'. subst k'. destruct (String.eqb s k) eqn:E''; [|reflexivity].
        apply String.eqb_eq in E''. subst s. rewrite String.eqb_refl in E. discriminate.
      * exact IH.
Qed.
Lemma field_puts : forall kw self s, NoDup (map fst kw) ->
  field (fold_left (fun l kv => put (fst kv) (snd kv) l) kw self) s = match field kw s with Some v => Some v | None => field self s end.
Proof.
  induction kw as [|[k v] kw IH]; intros self s Hnd; [reflexivity|]. cbn [fold_left fst snd].
  inversion Hnd as [|? ? Hni Hnd']; subst. rewrite IH by exact Hnd'. rewrite field_put. unfold field at 3. cbn.
  fold (field kw s). destruct (String.eqb s k) eqn:E; cbn; [|reflexivity].
  apply String.eqb_eq in E. subst s.
  assert (N : field kw k = None).
  { clear - Hni. unfold field. induction kw as [|[k' v'] kw IH]; [reflexivity|]. cbn.
    destruct (String.eqb k k') eqn:E; [apply String.eqb_eq in E; subst; exfalso; apply Hni; left; reflexivity|].
    apply IH. intro; apply Hni; right; assumption. }
  rewrite N. reflexivity.
Qed.
Lemma parse_dict : forall id_of strnum l vs, Forall2 (fun kv v => fst kv = SKey (fst v) /\ parse id_of strnum (snd kv) = Ok (snd v)) l vs ->
  parse id_of strnum (PDict l) = Ok (Node vs).
Proof.
  intros id_of strnum l vs H. cbn [parse].
  assert (Hk : forallb (fun kv : pkey * py => str_key (fst kv)) l = true).
  { apply forallb_forall. intros kv Hin. induction H as [|? ? ? ? [E _] _ IH]; [destruct Hin|].
    destruct Hin as [<-|Hin]; [rewrite E; reflexivity|auto]. }
  rewrite Hk. cbn [negb].
  assert (Hgo : (fix go (l : list (pkey * py)) : res (list (string * bval)) := match l with
                 | [] => Ok [] | (k, v) :: l => let* v := parse id_of strnum v in let* l := go l in Ok ((key_name k, v) :: l) end) l = Ok vs).
  { clear Hk. induction H as [|[k v] [k' v'] l vs [E Ev] _ IH]; [reflexivity|]. cbn in E, Ev. subst k.
    rewrite Ev. cbn [bind]. rewrite IH. reflexivity. }
  rewrite Hgo. reflexivity.
Qed.
Lemma mapM_kw : forall id_of strnum (kwargs : list (string * py)) kw, Forall2 (fun kv v => fst kv = fst v /\ parse id_of strnum (snd kv) = Ok (snd v)) kwargs kw ->
  mapM (fun kv => let* v := parse id_of strnum (snd kv) in Ok (fst kv, v)) kwargs = Ok kw.
Proof.
  intros id_of strnum kwargs kw H. induction H as [|[k v] [k' v'] l vs [E Ev] _ IH]; [reflexivity|].
  cbn in E, Ev. subst k'. cbn. rewrite Ev. cbn. rewrite IH. reflexivity.
Qed.

(** C276. Batch(dict, key=value, ...): every value is stored, parsed, under its key; a keyword wins
    over the same key of the dict; nothing else is stored. *)
Lemma C276_fields_lemma : forall (id_of : py -> nat) (strnum : akind -> cell -> nat) (l : list (pkey * py)) (kwargs : list (string * py)) (vs kw : list (string * bval)),
  Forall2 (fun kv v => fst kv = SKey (fst v) /\ parse id_of strnum (snd kv) = Ok (snd v)) l vs ->
  Forall2 (fun kv v => fst kv = fst v /\ parse id_of strnum (snd kv) = Ok (snd v)) kwargs kw ->
  NoDup (map fst kw) ->
  exists r, init id_of strnum (Some (PDict l)) kwargs = Ok r /\
    forall s, field r s = match field kw s with Some v => Some v | None => field vs s end.
Proof.
  intros id_of strnum l kwargs vs kw Hl Hk Hnd. unfold init.
  rewrite (parse_dict _ _ _ _ Hl). cbn [bind items]. rewrite (mapM_kw _ _ _ _ Hk). cbn [bind].
  eexists. split; [reflexivity|]. intros s. apply field_puts. exact Hnd.
Qed.

(** C276. A dict with a key that is not a string is refused whatever the values. *)
Lemma C276_keys_lemma : forall (id_of : py -> nat) (strnum : akind -> cell -> nat) (l : list (pkey * py)) (kwargs : list (string * py)) (n : nat) (v : py),
  In (OKey n, v) l -> init id_of strnum (Some (PDict l)) kwargs = Err AssertionError.
Proof.
  intros id_of strnum l kwargs n v Hin. unfold init. cbn [parse].
  assert (Hk : forallb (fun kv : pkey * py => str_key (fst kv)) l = false).
  { destruct (forallb (fun kv : pkey * py => str_key (fst kv)) l) eqn:E; [|reflexivity].
    rewrite forallb_forall in E. specialize (E _ Hin). discriminate. }
  rewrite Hk. reflexivity.
Qed.

(** C276. Not every argument is stored or refused: a list with an element that is no dict, an
    array of numbers, a number, a string or any other object is dropped without notice. *)
Lemma C276_dropped_refuted_lemma : forall (id_of : py -> nat) (strnum : akind -> cell -> nat) (x : py) (kwargs : list (string * py)),
  (match x with
   | PSeq l => l = [] \/ exists d, In d l /\ ~ (exists m, d = PDict m) /\ ~ (exists b, d = PBatch b)
   | PArr k _ => k <> KObj
   | PDict _ | PBatch _ | POArr _ => False
   | _ => True
   end) ->
  init id_of strnum (Some x) kwargs = init id_of strnum None kwargs.
Proof.
  intros id_of strnum x kwargs H. unfold init.
  destruct x; try contradiction; try reflexivity.
  - assert (E : is_batch_set (PSeq l) = false).
    { destruct H as [->|(d & Hd & H1 & H2)]; [reflexivity|]. destruct l as [|y l]; [reflexivity|].
      change (is_batch_set (PSeq (y :: l))) with (forallb is_dict (y :: l)).
      destruct (forallb is_dict (y :: l)) eqn:E; [|reflexivity]. rewrite forallb_forall in E. specialize (E d Hd).
      destruct d; try discriminate; exfalso; eauto. }
    rewrite E. reflexivity.
  - destruct k; [| |congruence]; reflexivity.
Qed.

(** ** Parsing again *)
Lemma parse_lift : forall id_of strnum v, (forall rs, v <> Leaf KObj (Ar rs [])) -> parse id_of strnum (lift v) = Ok v.
Proof.
  intros id_of strnum v H. destruct v as [k a|l|]; try reflexivity. cbn [lift parse].
  destruct k; try reflexivity. destruct a as [c|rs [|x l]]; try reflexivity. exfalso. exact (H rs eq_refl).
Qed.
Lemma put_same : forall (v : bval) k l, field l k = Some v -> put k v l = l.
Proof.
  intros v k l. unfold field. induction l as [|[k' v'] l IH]; intros H; cbn in *; [discriminate|].
  destruct (String.eqb k k') eqn:E; cbn in H.
  - injection H as ->. apply String.eqb_eq in E. subst k'. reflexivity.
  - rewrite IH by exact H. reflexivity.
Qed.

(** C277. Assigning to a key the value it has changes nothing, and Batch(batch) has the values of
    the batch, as long as no value is an object array without rows. *)
Lemma C277_again_partial_lemma : forall (id_of : py -> nat) (strnum : akind -> cell -> nat) (l : list (string * bval)),
  (forall k v rs, In (k, v) l -> v <> Leaf KObj (Ar rs [])) ->
  init id_of strnum (Some (PBatch (Node l))) [] = Ok l /\
  forall k v, field l k = Some v -> set_key id_of strnum l k (lift v) = Ok l.
Proof.
  intros id_of strnum l H. split.
  - unfold init. cbn [items mapM bind fold_left].
    assert (E : mapM (fun kv => let* v := parse id_of strnum (lift (snd kv)) in Ok (fst kv, v)) l = Ok l).
    { induction l as [|[k v] l IH]; [reflexivity|]. cbn.
      rewrite parse_lift by (intros rs; apply (H k v rs); left; reflexivity). cbn.
      rewrite IH; [reflexivity|]. intros k' v' rs Hin. apply (H k' v' rs). right. exact Hin. }
    rewrite E. reflexivity.
  - intros k v Hf. unfold set_key. rewrite parse_lift.
    + cbn. rewrite put_same by exact Hf. reflexivity.
    + intros rs. unfold field in Hf. destruct (find (fun kv => String.eqb k (fst kv)) l) as [[k' v']|] eqn:E; [|discriminate].
      cbn in Hf. injection Hf as ->. apply find_some in E as [E _]. apply (H k' v rs E).
Qed.

(** C277. Not so for an object array without rows: it becomes an empty Batch. *)
Lemma C277_rows_refuted_lemma : forall (id_of : py -> nat) (strnum : akind -> cell -> nat) (l : list (string * bval)) (k : string) (rs : list nat),
  field l k = Some (Leaf KObj (Ar rs [])) ->
  set_key id_of strnum l k (lift (Leaf KObj (Ar rs []))) = Ok (put k (Node []) l) /\
  exists r, init id_of strnum (Some (PBatch (Node l))) [] = Ok r /\ field r k = Some (Node []).
Proof.
  intros id_of strnum l k rs Hf. split; [reflexivity|].
  unfold init. cbn [items].
  assert (E : exists r, mapM (fun kv => let* v := parse id_of strnum (lift (snd kv)) in Ok (fst kv, v)) l = Ok r /\ field r k = Some (Node [])).
  { unfold field in *. induction l as [|[k' v] l IH]; cbn in Hf; [discriminate|].
    assert (P : exists w, parse id_of strnum (lift v) = Ok w /\ (v = Leaf KObj (Ar rs []) -> w = Node [])).
    { destruct v as [kd a|lv|]; cbn [lift parse]; [|exists (Node lv); split; [reflexivity|discriminate]|exists NoneV; split; [reflexivity|discriminate]].
      destruct kd; try (eexists; split; [reflexivity|discriminate]).
      destruct a as [c|rs' [|y la]]; [eexists; split; [reflexivity|discriminate]|eexists; split; reflexivity|eexists; split; [reflexivity|discriminate]]. }
    destruct P as (w & Hw & Hv). cbn. rewrite Hw. cbn.
    assert (T : exists r, mapM (fun kv : string * bval => let* v := parse id_of strnum (lift (snd kv)) in Ok (fst kv, v)) l = Ok r).
    { clear. induction l as [|[k' v] l (r & IH)]; [eexists; reflexivity|]. cbn.
      assert (P : exists w, parse id_of strnum (lift v) = Ok w).
      { destruct v as [kd a|lv|]; cbn [lift parse]; try (eexists; reflexivity).
        destruct kd; try (eexists; reflexivity). destruct a as [c|rs' [|y la]]; eexists; reflexivity. }
      destruct P as (w & ->). cbn. rewrite IH. eexists; reflexivity. }
    destruct (String.eqb k k') eqn:E; cbn in Hf.
    - injection Hf as ->. destruct T as (r & ->). exists ((k', w) :: r). split; [reflexivity|]. cbn. rewrite E. cbn.
      rewrite (Hv eq_refl). reflexivity.
    - destruct (IH Hf) as (r & -> & Hr). exists ((k', w) :: r). split; [reflexivity|]. cbn. rewrite E. exact Hr. }
  destruct E as (r & -> & Hr). cbn. exists r. auto.
Qed.

(** ** Rows as dicts *)
Lemma find_key_in : forall (k : string) (v : bval) (l : list (string * bval)), NoDup (map fst l) -> In (k, v) l ->
  find (fun kx => String.eqb k (fst kx)) l = Some (k, v).
Proof.
  intros k v l. induction l as [|[k' v'] l IH]; intros Hnd Hin; [destruct Hin|]. cbn.
  inversion Hnd as [|? ? Hni Hnd']; subst. destruct Hin as [E|Hin].
  - injection E as -> ->. rewrite String.eqb_refl. reflexivity.
  - destruct (String.eqb k k') eqn:E; [|apply IH; assumption].
    apply String.eqb_eq in E. subst k'. exfalso. apply Hni. change k with (fst (k, v)). apply in_map. exact Hin.
Qed.
Lemma parse_to_dict : forall id_of strnum b,
  (forall p rs, at_path p b <> Some (Leaf KObj (Ar rs []))) -> distinct b -> parse id_of strnum (to_dict b) = Ok b.
Proof.
  intros id_of strnum b. induction b as [k a|l IH|] using bval_ind'; intros H Hd.
  - cbn [to_dict parse]. destruct k; try reflexivity. destruct a as [c|rs [|x l]]; try reflexivity. exfalso. exact (H [] rs eq_refl).
  - cbn [to_dict]. apply parse_dict. assert (Hnd := Hd [] l eq_refl).
    assert (F : forall k v, In (k, v) l -> parse id_of strnum (to_dict v) = Ok v).
    { intros k v Hin. rewrite Forall_forall in IH. apply (IH (k, v) Hin).
      - intros p rs E. apply (H (k :: p) rs). cbn. rewrite (find_key_in k v l Hnd Hin). exact E.
      - intros p l' E. apply (Hd (k :: p)). cbn. rewrite (find_key_in k v l Hnd Hin). exact E. }
    clear - F. induction l as [|[k v] l IHl]; [constructor|]. constructor.
    + split; [reflexivity|]. apply (F k). left. reflexivity.
    + apply IHl. intros k' v' Hin. apply (F k'). right. exact Hin.
  - reflexivity.
Qed.

Lemma selected_int : forall n i, i < n -> selected n (IInt (Z.of_nat i)) = Some [i].
Proof.
  intros n i H. unfold selected, pick_one.
  replace ((- Z.of_nat n <=? Z.of_nat i) && (Z.of_nat i <? Z.of_nat n))%Z with true.
  - rewrite Z.mod_small by lia. cbn. rewrite Nat2Z.id. reflexivity.
  - symmetry. apply andb_true_intro. split; lia.
Qed.
Lemma mapM_rows : forall (A : Type) (P : nat -> A -> Prop) (f : nat -> res A) n m,
  (forall i, m <= i < m + n -> exists r, f i = Ok r /\ P i r) ->
  exists rs, mapM f (seq m n) = Ok rs /\ length rs = n /\ forall j r, nth_error rs j = Some r -> P (m + j) r.
Proof.
  intros A P f. induction n as [|n IH]; intros m H; cbn.
  - exists []. split; [reflexivity|]. split; [reflexivity|]. intros j r E. destruct j; discriminate.
  - destruct (H m) as (r & Er & Pr); [lia|]. destruct (IH (S m)) as (rs & Ers & Hl & Hp); [intros i Hi; apply H; lia|].
    exists (r :: rs). rewrite Er. cbn. rewrite Ers. cbn. split; [reflexivity|]. split; [congruence|].
    intros j r' E. destruct j as [|j]; cbn in E.
    + injection E as <-. rewrite Nat.add_0_r. exact Pr.
    + apply Hp in E. replace (m + S j) with (S m + j) by lia. exact E.
Qed.

(** C278. The dicts made of a dict of arrays with the same number of rows are as many as there are
    rows, and a Batch made of them has the arrays that were given. *)
Lemma C278_transposed_lemma : forall (id_of : py -> nat) (strnum : akind -> cell -> nat) (ty : list string -> akind * list nat) (d : py) (l : list (string * bval)) (n : nat),
  init id_of strnum (Some d) [] = Ok l -> 0 < n -> well_typed ty n (Node l) ->
  (forall p k a, at_path p (Node l) = Some (Leaf k a) -> k = KObj -> hd_error (snd (ty p)) <> Some 0) ->
  exists ds r, dict_of_arr_to_arr_of_dicts id_of strnum d = Ok (POArr ds) /\ length ds = n /\
    (forall x, In x ds -> dict_or_batch x) /\
    parse id_of strnum (POArr ds) = Ok r /\
    forall p k a, at_path p (Node l) = Some (Leaf k a) -> at_path p r = Some (Leaf k a).
Proof.
  intros id_of strnum ty d l n Hinit Hn Hw Hobj. assert (Hw' := Hw). destruct Hw' as (Hty & Hno & Hd & Hlf).
  assert (Hal : aligned n (Node l)).
  { intros p k a Hp. destruct (Hty p k a Hp) as (_ & T). destruct a as [c|rs la]; cbn in T; [contradiction|].
    exists rs, la. split; [reflexivity|apply T]. }
  assert (Hne : l <> []).
  { intros ->. assert (n = 0); [|lia]. apply Hlf. intros p k a Hp. destruct p; cbn in Hp; discriminate. }
  assert (Hiter : exists rows, brows (Node l) = Ok rows /\ length rows = n /\
            forall i r, nth_error rows i = Some r -> i < n /\ forall p,
              match at_path p (Node l) with
              | Some (Leaf k (Ar rs la)) => at_path p r = Some (Leaf k (nth i la (Sc CNan)))
              | Some (Node lv) => exists lv', at_path p r = Some (Node lv') /\ map fst lv' = map fst lv
              | _ => at_path p r = None
              end).
  { unfold brows. destruct l as [|kv l']; [congruence|]. set (l := kv :: l') in *.
    rewrite (blen_typed ty n (Node l) Hw). cbn [bind].
    destruct (mapM_rows bval (fun i r => i < n /\ forall p,
              match at_path p (Node l) with
              | Some (Leaf k (Ar rs la)) => at_path p r = Some (Leaf k (nth i la (Sc CNan)))
              | Some (Node lv) => exists lv', at_path p r = Some (Node lv') /\ map fst lv' = map fst lv
              | _ => at_path p r = None
              end) (fun i => bgetitem (Node l) (IInt (Z.of_nat i))) n 0) as (rows & Er & Hl & Hp).
    - intros i Hi. destruct (C19_getitem_lemma (Node l) n (IInt (Z.of_nat i)) [i] l eq_refl Hne Hd Hal (selected_int n i ltac:(lia))) as (r & Er & Hr).
      exists r. split; [exact Er|]. split; [lia|]. intros p. specialize (Hr p).
      destruct (at_path p (Node l)) as [[k a|lv|]|] eqn:Ep; [| |exfalso; exact (Hno p Ep)|exact Hr].
      + destruct (Hal p k a Ep) as (rs & la & -> & Hla). rewrite Hr. reflexivity.
      + exact Hr.
    - exists rows. split; [exact Er|]. split; [exact Hl|]. intros i r Hi. exact (Hp i r Hi). }
  destruct Hiter as (rows & Eit & Hlen & Hrows).
  assert (Leafs : forall i r p k a, nth_error rows i = Some r -> at_path p r = Some (Leaf k a) ->
            exists rs la, at_path p (Node l) = Some (Leaf k (Ar rs la)) /\ a = nth i la (Sc CNan) /\ i < length la).
  { intros i r p k a Hi Hp. destruct (Hrows i r Hi) as (Hin & H). specialize (H p).
    destruct (at_path p (Node l)) as [[k' a'|lv|]|] eqn:Ep; [| |congruence|congruence].
    - destruct (Hal p k' a' Ep) as (rs & la & -> & Hla). rewrite H in Hp. injection Hp as <- <-.
      exists rs, la. split; [reflexivity|]. split; [reflexivity|lia].
    - destruct H as (lv' & H & _). congruence. }
  assert (Rty : forall i r p k a, nth_error rows i = Some r -> at_path p r = Some (Leaf k a) -> k = fst (ty p) /\ typed k (snd (ty p)) a).
  { intros i r p k a Hi Hp. destruct (Leafs i r p k a Hi Hp) as (rs & la & Ep & -> & Hla).
    destruct (Hty p k _ Ep) as (Hk & T). split; [exact Hk|]. cbn in T. destruct T as (_ & _ & F).
    rewrite Forall_forall in F. apply F. apply nth_In. exact Hla. }
  assert (Rdist : forall i r, nth_error rows i = Some r -> distinct r).
  { intros i r Hi p lv Hp. destruct (Hrows i r Hi) as (_ & H). specialize (H p).
    destruct (at_path p (Node l)) as [[k a|lv0|]|] eqn:Ep; [| |congruence|congruence].
    - destruct a; congruence.
    - destruct H as (lv' & H & E). rewrite H in Hp. injection Hp as ->. rewrite E. exact (Hd p lv0 Ep). }
  assert (Rnone : forall i r p, nth_error rows i = Some r -> at_path p r <> Some NoneV).
  { intros i r p Hi Hp. destruct (Hrows i r Hi) as (_ & H). specialize (H p).
    destruct (at_path p (Node l)) as [[k a|lv0|]|] eqn:Ep; [| |congruence|congruence].
    - destruct a; congruence.
    - destruct H as (lv' & H & E). congruence. }
  assert (Rnode : forall i r, nth_error rows i = Some r -> exists lv, r = Node lv /\ lv <> []).
  { intros i r Hi. destruct (Hrows i r Hi) as (_ & H). destruct (H []) as (lv' & E & E'). cbn in E.
    injection E as ->. exists lv'. split; [reflexivity|]. intros ->. cbn in E'. destruct l; [congruence|discriminate]. }
  assert (Hin : forall r, In r rows -> exists i, nth_error rows i = Some r) by (intros r Hr; apply In_nth_error; exact Hr).
  assert (Hst : stack_typed ty rows).
  { intros r Hr. destruct (Hin r Hr) as (i & Hi). split; [exact (Rdist i r Hi)|]. split; [intros p; exact (Rnone i r p Hi)|].
    split; [intros p k a; exact (Rty i r p k a Hi)|].
    intros p k a r' lv Hr' Hp Hp'. exfalso. destruct (Hin r' Hr') as (i' & Hi').
    destruct (Leafs i r p k a Hi Hp) as (rs & la & Ep & _ & _).
    destruct (Hrows i' r' Hi') as (_ & H). specialize (H p). rewrite Ep in H. congruence. }
  assert (Hlay : forall r r' p, In r rows -> In r' rows -> layout (at_path p r) (at_path p r')).
  { intros r r' p Hr Hr'. destruct (Hin r Hr) as (i & Hi). destruct (Hin r' Hr') as (i' & Hi').
    destruct (Hrows i r Hi) as (_ & H). specialize (H p). destruct (Hrows i' r' Hi') as (_ & H'). specialize (H' p).
    destruct (at_path p (Node l)) as [[k a|lv0|]|] eqn:Ep.
    - destruct a; rewrite H, H'; exact Logic.I.
    - destruct H as (lv & -> & E). destruct H' as (lv' & -> & E'). cbn. intros s. rewrite E, E'. reflexivity.
    - rewrite H, H'. exact Logic.I.
    - rewrite H, H'. exact Logic.I. }
  destruct (C19_stack_lemma ty rows) as (r & Er & Hmd & Hm); [destruct rows; [cbn in Hlen; lia|discriminate]|exact Hst|exact Hlay| |].
  { intros b Hb. destruct (Hin b Hb) as (i & Hi). exact (Rnode i b Hi). }
  exists (map to_dict rows), r. unfold dict_of_arr_to_arr_of_dicts. rewrite Hinit. cbn [bind]. unfold to_list_of_dicts.
  rewrite Eit. cbn [bind]. split; [reflexivity|]. split; [rewrite map_length; exact Hlen|].
  assert (Hdict : forall x, In x (map to_dict rows) -> dict_or_batch x).
  { intros x Hx. apply in_map_iff in Hx as (b & <- & Hb). destruct (Hin b Hb) as (i & Hi).
    destruct (Rnode i b Hi) as (lv & -> & _). exact Logic.I. }
  split; [exact Hdict|]. split.
  - rewrite (parse_set id_of strnum (POArr (map to_dict rows)) (map to_dict rows)); [|right; reflexivity|exact Hdict].
    assert (Em : mapM (parse id_of strnum) (map to_dict rows) = Ok rows).
    { assert (F : forall b, In b rows -> parse id_of strnum (to_dict b) = Ok b).
      { intros b Hb. destruct (Hin b Hb) as (i & Hi). apply parse_to_dict; [|exact (Rdist i b Hi)].
        intros p rs Hp. destruct (Leafs i b p KObj _ Hi Hp) as (rs' & la & Ep & _ & _).
        destruct (Rty i b p KObj _ Hi Hp) as (_ & T). apply (Hobj p KObj _ Ep eq_refl).
        destruct (snd (ty p)) as [|m sh]; cbn in T; [contradiction|]. destruct T as (_ & <- & _). reflexivity. }
      clear - F. induction rows as [|b rows IH]; [reflexivity|]. cbn [map mapM]. rewrite F by (left; reflexivity). cbn [bind].
      rewrite IH; [reflexivity|]. intros c Hc. apply F. right. exact Hc. }
    rewrite Em. exact Er.
  - intros p k a Hp. destruct (Hm p) as (H1 & _ & _).
    destruct (Hal p k a Hp) as (rs & la & -> & Hla). destruct (Hty p k _ Hp) as (Hk & T). cbn in T. destruct T as (-> & _ & F).
    assert (Hex : some_leaf p rows).
    { destruct rows as [|r0 rows']; [cbn in Hlen; lia|]. exists r0, k, (nth 0 la (Sc CNan)). split; [left; reflexivity|].
      destruct (Hrows 0 r0 eq_refl) as (_ & H). specialize (H p). rewrite Hp in H. exact H. }
    rewrite (H1 Hex), <- Hk. do 3 f_equal.
    apply (nth_ext _ _ (Sc CNan) (Sc CNan)).
    + unfold stack_rows. rewrite map_length. congruence.
    + intros j Hj. unfold stack_rows in *. rewrite map_length in Hj.
      destruct (nth_error rows j) as [r0|] eqn:Ej; [|apply nth_error_None in Ej; lia].
      apply nth_error_nth with (d := Sc CNan).
      rewrite nth_error_map, Ej. cbn. destruct (Hrows j r0 Ej) as (_ & H). specialize (H p). rewrite Hp in H. rewrite H. reflexivity.
Qed.

(** C278. None of a dict of arrays becomes an object array of None. *)
Lemma C278_none_refuted_lemma : forall (id_of : py -> nat) (strnum : akind -> cell -> nat),
  exists d l ds r, init id_of strnum (Some d) [] = Ok l /\ field l "b"%string = Some NoneV /\
    dict_of_arr_to_arr_of_dicts id_of strnum d = Ok (POArr ds) /\ parse id_of strnum (POArr ds) = Ok r /\
    at_path ["b"%string] r = Some (Leaf KObj (Ar [] [Sc (CO None); Sc (CO None)])).
Proof.
  intros id_of strnum.
  exists (PDict [(SKey "a", PArr KInt (Ar [] [Sc (CN 1%Qc); Sc (CN 1%Qc)])); (SKey "b", PNone)]).
  eexists _, _, _. split; [reflexivity|]. split; [reflexivity|]. split; [vm_compute; reflexivity|]. split; [vm_compute; reflexivity|].
  vm_compute. reflexivity.
Qed.
