From Verif Require Import ConvSpec PyLemmas.
Open Scope nat_scope.
Open Scope list_scope.

Section Ind.
  Variable P : value -> Prop.
  Hypothesis leaf : forall v, (forall l, v <> VDict l) -> (forall l, v <> VBatch l) -> P v.
  Hypothesis dict : forall l, Forall (fun kv => P (snd kv)) l -> P (VDict l).
  Hypothesis batch : forall l, Forall (fun kv => P (snd kv)) l -> P (VBatch l).
  Fixpoint value_induction (v : value) : P v :=
    let go := fix go (l : list (string * value)) : Forall (fun kv => P (snd kv)) l :=
      match l with
      | [] => Forall_nil _
      | kv :: l => Forall_cons kv (value_induction (snd kv)) (go l)
      end in
    match v with
    | VDict l => dict l (go l)
    | VBatch l => batch l (go l)
    | VTensor _ _ _ _ | VArr _ _ _ | VObjArr _ | VObj0 _ | VNum _ _ | VNone | VNums _ | VTensors _ | VOther _ =>
        ltac:(apply leaf; intros; congruence)
    end.
End Ind.

Ltac leafcase v N1 N2 :=
  destruct v; try (exfalso; first [eapply N1; reflexivity | eapply N2; reflexivity]).

(** ** Inner loops as lists *)
Fixpoint lift_items (R : value -> value -> Prop) (l l' : list (string * value)) : Prop :=
  match l, l' with
  | [], [] => True
  | (k, v) :: l, (k', w) :: l' => k = k' /\ lift R v w /\ lift_items R l l'
  | _, _ => False
  end.
Lemma lift_batch R l w : lift R (VBatch l) w <-> exists l', w = VBatch l' /\ lift_items R l l'.
Proof.
  assert (E : forall l l', (fix go (l l' : list (string * value)) {struct l} : Prop :=
    match l, l' with
    | [], [] => True
    | (k, v) :: l, (k', w) :: l' => k = k' /\ lift R v w /\ go l l'
    | _, _ => False
    end) l l' <-> lift_items R l l').
  { induction l0 as [|[k v] l0 IH]; intros [|[k' w'] l']; cbn; try tauto. rewrite IH. tauto. }
  cbn. destruct w; (split; [|intros (l' & W & H); try discriminate W]); try tauto.
  - intro H. apply E in H. eauto.
  - injection W as ->. apply E, H.
Qed.
Lemma lift_dict R l w : lift R (VDict l) w <-> exists l', w = VBatch l' /\ lift_items R l l'.
Proof. exact (lift_batch R l w). Qed.

Fixpoint stored_items (l : list (string * value)) : Prop :=
  match l with [] => True | (_, v) :: l => stored v /\ stored_items l end.
Lemma stored_batch l : stored (VBatch l) <-> stored_items l.
Proof. cbn. induction l as [|[k v] l IH]; cbn; [tauto|]. rewrite <- IH. tauto. Qed.
Fixpoint plain_items (l : list (string * value)) : Prop :=
  match l with [] => True | (_, v) :: l => plain_in v /\ plain_items l end.
Lemma plain_dict l : plain_in (VDict l) <-> plain_items l.
Proof. cbn. induction l as [|[k v] l IH]; cbn; [tauto|]. rewrite <- IH. tauto. Qed.
Lemma transform_batch f l : transform f (VBatch l) = let* l := transform_items f l in Ok (VBatch l).
Proof.
  cbn. match goal with |- bind (?F l) _ = _ => assert (E : F l = transform_items f l) end.
  { induction l as [|[k v] l IH]; cbn; [reflexivity|]. rewrite IH. reflexivity. }
  rewrite E. reflexivity.
Qed.
Lemma parse_dict l : parse_value (VDict l) = let* l := parse_items l in Ok (VBatch l).
Proof.
  cbn. match goal with |- bind (?F l) _ = _ => assert (E : F l = parse_items l) end.
  { induction l as [|[k v] l IH]; cbn; [reflexivity|]. rewrite IH. reflexivity. }
  rewrite E. reflexivity.
Qed.
Fixpoint tin_items (l : list (string * value)) : bool :=
  match l with [] => true | (_, v) :: l => torchable_in v && tin_items l end.
Lemma tin_batch l : torchable_in (VBatch l) = tin_items l.
Proof. cbn. induction l as [|[k v] l IH]; cbn; [reflexivity|]. rewrite <- IH. reflexivity. Qed.
Fixpoint t_items (l : list (string * value)) : bool :=
  match l with [] => true | (_, v) :: l => torchable v && t_items l end.
Lemma t_dict l : torchable (VDict l) = t_items l.
Proof. cbn. induction l as [|[k v] l IH]; cbn; [reflexivity|]. rewrite <- IH. reflexivity. Qed.
Fixpoint block_items (l : list (string * value)) : list mem :=
  match l with [] => [] | (_, v) :: l => blocks v ++ block_items l end.
Lemma blocks_batch l : blocks (VBatch l) = block_items l.
Proof. cbn. induction l as [|[k v] l IH]; cbn; [reflexivity|]. rewrite <- IH. reflexivity. Qed.

(** ** transform and parse as relations *)
Lemma transform_lift (f : value -> res value) (R : value -> value -> Prop) :
  (forall x, stored x -> (forall l, x <> VBatch l) -> exists w, (let* y := f x in parse_value y) = Ok w /\ R x w) ->
  forall v, stored v -> exists w, transform f v = Ok w /\ lift R v w.
Proof.
  intro H. induction v as [v N1 N2 | l IH | l IH] using value_induction; intro S.
  - destruct (H v S N2) as (w & E & Rw).
    exists w. leafcase v N1 N2; exact (conj E Rw).
  - destruct S.
  - rewrite transform_batch. apply stored_batch in S.
    assert (G : exists l', transform_items f l = Ok l' /\ lift_items R l l').
    { clear - IH S. induction IH as [|[k v] l Hv _ IHl]; cbn; [eexists; split; [reflexivity | exact Logic.I]|].
      destruct S as [S1 S2]. destruct (Hv S1) as (w & Ew & Lw), (IHl S2) as (l' & El & Ll).
      cbn [snd] in *. rewrite Ew. cbn. rewrite El. cbn. eexists. split; [reflexivity|]. cbn. auto. }
    destruct G as (l' & E & L). rewrite E. cbn [bind]. eexists. split; [reflexivity|]. apply lift_batch. eauto.
Qed.
(** The converse, when [f] may fail. *)
Lemma transform_ok (f : value -> res value) (R : value -> value -> Prop) :
  (forall x w, stored x -> (forall l, x <> VBatch l) -> (let* y := f x in parse_value y) = Ok w -> R x w) ->
  forall v w, stored v -> transform f v = Ok w -> lift R v w.
Proof.
  intro H. induction v as [v N1 N2 | l IH | l IH] using value_induction; intros w S E.
  - assert (E' : (let* y := f v in parse_value y) = Ok w) by (leafcase v N1 N2; exact E).
    pose proof (H v w S N2 E') as Rw. leafcase v N1 N2; exact Rw.
  - destruct S.
  - rewrite transform_batch in E. apply stored_batch in S.
    destruct (transform_items f l) as [l'|] eqn:El; [|discriminate E]. cbn in E. injection E as <-.
    apply lift_batch. exists l'. split; [reflexivity|].
    clear - IH S El. revert l' El. induction IH as [|[k v] l Hv _ IHl]; cbn; intros l' El.
    { injection El as <-. exact Logic.I. }
    destruct S as [S1 S2]. destruct (transform f v) as [w|] eqn:Ew; [|discriminate El]. cbn in El.
    destruct (transform_items f l) as [l0|] eqn:E0; [|discriminate El]. cbn in El. injection El as <-.
    cbn. auto.
Qed.

Definition parsed_leaf (v w : value) : Prop := match v with VNum d q => w = num_array d q | _ => w = v end.
Lemma lift_refl (R : value -> value -> Prop) v : stored v -> (forall x, stored x -> (forall l, x <> VBatch l) -> R x x) -> lift R v v.
Proof.
  intros S H. revert S. induction v as [v N1 N2 | l IH | l IH] using value_induction; intro S.
  - pose proof (H v S N2). leafcase v N1 N2; assumption.
  - destruct S.
  - apply stored_batch in S. apply lift_batch. exists l. split; [reflexivity|].
    induction IH as [|[k v] l Hv _ IHl]; cbn; [exact Logic.I|]. destruct S as [S1 S2]. auto.
Qed.
(** Parsing keeps a number of a Batch, and turns one of a dict into an array. *)
Definition parse_leaf (v w : value) : Prop := match v with VNum d q => w = v \/ w = num_array d q | _ => w = v end.
Lemma parse_lift v : plain_in v -> exists w, parse_value v = Ok w /\ stored w /\ lift parse_leaf v w.
Proof.
  induction v as [v N1 N2 | l IH | l IH] using value_induction; intro S.
  - leafcase v N1 N2; try destruct S; try (eexists; split; [reflexivity | split; [exact Logic.I | cbn; auto]]).
  - rewrite parse_dict. apply plain_dict in S.
    assert (G : exists l', parse_items l = Ok l' /\ stored_items l' /\ lift_items parse_leaf l l').
    { clear - IH S. induction IH as [|[k v] l Hv _ IHl]; cbn; [eexists; split; [reflexivity | split; exact Logic.I]|].
      destruct S as [S1 S2]. destruct (Hv S1) as (w & Ew & Sw & Lw), (IHl S2) as (l' & El & Sl & Ll).
      cbn [snd] in *. rewrite Ew. cbn. rewrite El. cbn. eexists. split; [reflexivity|]. cbn. auto. }
    destruct G as (l' & E & Sl & L). rewrite E. cbn [bind]. eexists. split; [reflexivity|].
    split; [apply stored_batch, Sl|]. apply lift_dict. eauto.
  - exists (VBatch l). split; [reflexivity|]. change (stored (VBatch l)) in S. split; [exact S|].
    apply lift_refl; [exact S|]. intros x _ _. destruct x; cbn; auto.
Qed.
Lemma lift_comp (R1 R2 R : value -> value -> Prop) :
  (forall x y z, (forall l, x <> VBatch l) -> (forall l, x <> VDict l) -> R1 x y -> R2 y z -> R x z) ->
  (forall x y, (forall l, x <> VBatch l) -> (forall l, x <> VDict l) -> R1 x y -> (forall l, y <> VBatch l) /\ (forall l, y <> VDict l)) ->
  forall v w x, lift R1 v w -> lift R2 w x -> lift R v x.
Proof.
  intros C N. induction v as [v N1 N2 | l IH | l IH] using value_induction; intros w x L1 L2.
  - assert (A : R1 v w) by (leafcase v N1 N2; exact L1).
    destruct (N v w N2 N1 A) as [M1 M2].
    assert (B : R2 w x) by (leafcase w M2 M1; exact L2).
    pose proof (C v w x N2 N1 A B). leafcase v N1 N2; assumption.
  - apply lift_dict in L1 as (l1 & -> & L1). apply lift_batch in L2 as (l2 & -> & L2).
    apply lift_dict. exists l2. split; [reflexivity|]. revert l1 l2 L1 L2.
    induction IH as [|[k v] l Hv _ IHl]; intros [|[k1 v1] l1] [|[k2 v2] l2]; cbn; try tauto.
    intros (-> & A & B) (-> & A' & B'). cbn [snd] in Hv. eauto.
  - apply lift_batch in L1 as (l1 & -> & L1). apply lift_batch in L2 as (l2 & -> & L2).
    apply lift_batch. exists l2. split; [reflexivity|]. revert l1 l2 L1 L2.
    induction IH as [|[k v] l Hv _ IHl]; intros [|[k1 v1] l1] [|[k2 v2] l2]; cbn; try tauto.
    intros (-> & A & B) (-> & A' & B'). cbn [snd] in Hv. eauto.
Qed.
Lemma stored_plain v : stored v -> plain_in v.
Proof. destruct v; intro S; first [destruct S; fail | exact S | exact Logic.I]. Qed.
Lemma lift_impl (R1 R2 : value -> value -> Prop) :
  (forall x y, plain_in x -> (forall l, x <> VBatch l) -> (forall l, x <> VDict l) -> R1 x y -> R2 x y) ->
  forall v w, plain_in v -> lift R1 v w -> lift R2 v w.
Proof.
  intros C. induction v as [v N1 N2 | l IH | l IH] using value_induction; intros w S L1.
  - assert (A : R1 v w) by (leafcase v N1 N2; exact L1). pose proof (C v w S N2 N1 A). leafcase v N1 N2; assumption.
  - apply plain_dict in S. apply lift_dict in L1 as (l1 & -> & L1). apply lift_dict. exists l1. split; [reflexivity|]. revert l1 L1.
    induction IH as [|[k v] l Hv _ IHl]; intros [|[k1 v1] l1]; cbn; try tauto. intros (-> & A & B). cbn [snd] in Hv.
    destruct S. auto.
  - change (stored (VBatch l)) in S. apply stored_batch in S. apply lift_batch in L1 as (l1 & -> & L1). apply lift_batch. exists l1. split; [reflexivity|]. revert l1 L1.
    induction IH as [|[k v] l Hv _ IHl]; intros [|[k1 v1] l1]; cbn; try tauto. intros (-> & A & B). cbn [snd] in Hv.
    destruct S as [S1 S2]. apply stored_plain in S1. auto.
Qed.

(** ** Copies *)
Lemma copy_batch l : deepcopy (VBatch l) = VBatch (copy_items l). Proof. reflexivity. Qed.
Lemma copy_dict l : deepcopy (VDict l) = VDict (copy_items l). Proof. reflexivity. Qed.
Lemma copy_stored v : stored v -> stored (deepcopy v).
Proof.
  induction v as [v N1 N2 | l IH | l IH] using value_induction; intro S.
  - leafcase v N1 N2; exact S.
  - destruct S.
  - rewrite copy_batch. apply stored_batch. apply stored_batch in S.
    induction IH as [|[k v] l Hv _ IHl]; cbn; [exact Logic.I|]. destruct S. auto.
Qed.
Lemma copy_plain v : plain_in v -> plain_in (deepcopy v).
Proof.
  induction v as [v N1 N2 | l IH | l IH] using value_induction; intro S.
  - leafcase v N1 N2; exact S.
  - rewrite copy_dict. apply plain_dict. apply plain_dict in S.
    induction IH as [|[k v] l Hv _ IHl]; cbn; [exact Logic.I|]. destruct S. auto.
  - exact (copy_stored (VBatch l) S).
Qed.
Lemma copy_lift R v : forall w, lift R (deepcopy v) w <-> lift (fun x y => R (deepcopy x) y) v w.
Proof.
  induction v as [v N1 N2 | l IH | l IH] using value_induction; intro w.
  - leafcase v N1 N2; cbn; tauto.
  - rewrite copy_dict, !lift_dict.
    assert (G : forall l', lift_items R (copy_items l) l' <-> lift_items (fun x y => R (deepcopy x) y) l l').
    { induction IH as [|[k v] l Hv _ IHl]; intros [|[k' w'] l']; cbn; try tauto. cbn [snd] in Hv. rewrite Hv, IHl. tauto. }
    split; intros (l' & -> & L); exists l'; (split; [reflexivity | apply G, L]).
  - rewrite copy_batch, !lift_batch.
    assert (G : forall l', lift_items R (copy_items l) l' <-> lift_items (fun x y => R (deepcopy x) y) l l').
    { induction IH as [|[k v] l Hv _ IHl]; intros [|[k' w'] l']; cbn; try tauto. cbn [snd] in Hv. rewrite Hv, IHl. tauto. }
    split; intros (l' & -> & L); exists l'; (split; [reflexivity | apply G, L]).
Qed.
Lemma copy_content v : content (deepcopy v) = content v.
Proof. destruct v; reflexivity. Qed.

(** ** to_numpy *)
Definition np_leaf_in (v w : value) : Prop :=
  numpy_leaf v w /\ (content v = None -> w = v) /\ shared_leaf v w.
Lemma to_numpy_in v : stored v -> exists w, transform arr_to_numpy v = Ok w /\ lift np_leaf_in v w.
Proof.
  apply transform_lift. intros x S N. destruct x; try destruct S; cbn; eexists; (split; [reflexivity|]).
  all: try (destruct (N l); reflexivity).
  all: repeat split; cbn; auto; try discriminate.
  destruct dev; reflexivity.
Qed.

(** A leaf is turned into one that is no container. *)
Lemma parse_leaf_N x y : (forall l, x <> VBatch l) -> (forall l, x <> VDict l) -> parse_leaf x y -> (forall l, y <> VBatch l) /\ (forall l, y <> VDict l).
Proof. intros N1 N2 P. destruct x; cbn in P; subst; try (split; intros; congruence). destruct P; subst; split; intros; discriminate. Qed.
Lemma to_numpy_dict l : plain_in (VDict l) ->
  exists w, to_numpy (VDict l) = Ok w /\ lift (fun v w => numpy_leaf v w /\ (content v = None -> w = v) /\ shared_leaf v w) (VDict l) w.
Proof.
  intro P. destruct (parse_lift _ P) as (w & E & S & L). rewrite parse_dict in E. unfold to_numpy, to_numpy_arr.
  destruct (parse_items l) as [l'|]; [|discriminate E]. cbn in E. injection E as <-.
  destruct (to_numpy_in _ S) as (x & E & L'). rewrite transform_batch in E. cbn [bind]. unfold batch_to_numpy_.
  destruct (transform_items arr_to_numpy l') as [l2|]; [|discriminate E]. cbn in E. injection E as <-. cbn [bind].
  eexists. split; [reflexivity|]. revert L L'. apply lift_comp; [|exact parse_leaf_N].
  intros a b c N1 N2 P1 (Q1 & Q2 & Q3). destruct a; cbn in P1; subst; auto.
  destruct P1; subst; cbn in *; repeat split; auto; discriminate.
Qed.
Lemma to_numpy_batch l : stored (VBatch l) ->
  exists w, to_numpy (VBatch l) = Ok w /\ lift (fun v w => numpy_leaf v w /\ (content v = None -> w = v) /\ shared_leaf (deepcopy v) w) (VBatch l) w.
Proof.
  intro S. unfold to_numpy, to_numpy_arr. destruct (to_numpy_in _ (copy_stored _ S)) as (x & E & L').
  apply copy_lift in L'. rewrite copy_batch, transform_batch in E. unfold batch_to_numpy_.
  destruct (transform_items arr_to_numpy (copy_items l)) as [l2|]; [|discriminate E]. cbn in E. injection E as <-. cbn [bind].
  eexists. split; [reflexivity|]. revert L'. apply lift_impl; [|exact S]. intros a b Pa N1 N2 (Q1 & Q2 & Q3).
  split; [|split; [|exact Q3]].
  - unfold numpy_leaf in *. rewrite copy_content in Q1. destruct (content a) eqn:Ca; [exact Q1|].
    left. rewrite Q2 by (rewrite copy_content; exact Ca). destruct a; try discriminate Ca; try reflexivity; try destruct Pa.
    all: exfalso; first [eapply N1; reflexivity | eapply N2; reflexivity].
  - intro Ca. rewrite Q2 by (rewrite copy_content; exact Ca). destruct a; try discriminate Ca; try reflexivity; try destruct Pa.
    all: exfalso; first [eapply N1; reflexivity | eapply N2; reflexivity].
Qed.

(** C212. to_numpy: for every value without lists the result has the same keys at every level, and in
    place of every tensor, array and number an array with the same type, shape and numbers; no tensor
    is left. *)
Lemma C212_to_numpy_lemma : forall v : value, plain v ->
  exists w, to_numpy v = Ok w /\ lift numpy_leaf v w.
Proof.
  intros v P. destruct v.
  all: try (destruct P; fail).
  all: try (cbn; eexists; split; [reflexivity|]; cbn; auto; fail).
  - destruct (to_numpy_dict _ P) as (w & E & L). exists w. split; [exact E|]. revert L. apply lift_impl; [|exact P]. tauto.
  - destruct (to_numpy_batch _ P) as (w & E & L). exists w. split; [exact E|]. revert L. apply lift_impl; [|exact P]. tauto.
  - cbn. eexists. split; [reflexivity|]. right. right. eauto.
Qed.

Lemma fold_njoin_mono l : forall d e, njoin d e = d \/ In e l -> njoin (fold_left njoin l d) e = fold_left njoin l d.
Proof.
  induction l as [|x l IH]; intros d e H; cbn; [destruct H as [H|[]]; exact H|].
  apply IH. destruct H as [H | [-> | H]]; [left | left | right; exact H].
  - destruct d, x, e; cbn in *; congruence.
  - destruct d, e; reflexivity.
Qed.
Lemma fold_njoin_const l d : (forall e, In e l -> e = d) -> fold_left njoin l d = d.
Proof.
  induction l as [|x l IH]; intro H; [reflexivity|]. cbn. rewrite (H x) by (left; reflexivity).
  replace (njoin d d) with d by (destruct d; reflexivity). apply IH. intros e I. apply H. right. exact I.
Qed.
(** C212. A list of numbers becomes the array of these numbers, of a type that contains the types of all
    of them and is theirs if they agree; a list of tensors of one shape on one device becomes the array
    of their numbers in order, and any other list of tensors is refused with TypeError. *)
Lemma C212_lists_lemma :
  (forall l, exists d m, to_numpy (VNums l) = Ok (VArr d m ([length l], map snd l)) /\
     (forall e q, In (e, q) l -> njoin d e = d) /\
     (forall e, l <> [] -> (forall e' q, In (e', q) l -> e' = e) -> d = e)) /\
  (forall sh dev ts, ts <> [] -> exists d m,
     to_numpy (VTensors (map (fun t : dtype * mem * list Qc => (fst (fst t), dev, snd (fst t), (sh, snd t))) ts)) =
       Ok (VArr d m (length ts :: sh, flat_map snd ts))) /\
  (forall t t' ts, In t (t' :: ts) -> fst (snd t) <> fst (snd t') -> to_numpy (VTensors (t' :: ts)) = Err TypeError).
Proof.
  split; [|split].
  - intros [|[d q] l].
    + exists DF64, fresh. split; [reflexivity|]. split; [intros e q []|]. intros e H. destruct H. reflexivity.
    + exists (fold_left njoin (map fst ((d, q) :: l)) d), fresh. split; [reflexivity|]. split.
      * intros e x H. apply fold_njoin_mono. right. apply (in_map fst) in H. exact H.
      * intros e _ H. assert (Ed : d = e) by (apply (H d q); left; reflexivity). subst d. apply fold_njoin_const.
        intros e' I. apply in_map_iff in I as ([e2 q2] & <- & I). exact (H _ _ I).
  - intros sh dev [|t0 ts] N; [destruct N; reflexivity|]. clear N.
    set (g := fun t : dtype * mem * list Qc => (fst (fst t), dev, snd (fst t), (sh, snd t))).
    unfold to_numpy. cbn [map parse_value]. unfold torch_stack, bind, to_numpy_arr. unfold g at 1. cbv beta iota.
match goal with |- context [forallb ?F ?L] => replace (forallb F L) with true end.
    + unfold numpy_of. eexists _, _. f_equal. f_equal. f_equal.
      { cbn [length fst]. rewrite map_length. reflexivity. }
      change (g t0 :: map g ts) with (map g (t0 :: ts)). rewrite flat_map_concat_map, map_map, <- flat_map_concat_map. reflexivity.
    + symmetry. apply forallb_forall. intros x I. change (g t0 :: map g ts) with (map g (t0 :: ts)) in I.
      apply in_map_iff in I as (t & <- & _). unfold g. cbn [fst snd].
      destruct (list_eq_dec Nat.eq_dec sh sh) as [_|D]; [|destruct D; reflexivity]. rewrite Nat.eqb_refl. reflexivity.
  - intros t t' ts I N. unfold to_numpy. cbn [parse_value]. unfold torch_stack. destruct t' as [[[d dev] m] a].
    match goal with |- context [forallb ?F ?L] => destruct (forallb F L) eqn:E end; [|reflexivity].
    rewrite forallb_forall in E. specialize (E t I). destruct t as [[[d1 dev1] m1] a1]. cbn [fst snd] in N.
    destruct (list_eq_dec Nat.eq_dec (fst a1) (fst a)) as [EQ|]; [contradiction|discriminate E].
Qed.

(** ** Forgetting memory *)
Lemma forget_batch l : forget (VBatch l) = VBatch (map (fun kv => (fst kv, forget (snd kv))) l). Proof. reflexivity. Qed.
(** Two results that are determined by the same value up to memory. *)
Lemma lift_fun (R R' : value -> value -> Prop) :
  (forall x y z, plain_in x -> (forall l, x <> VBatch l) -> (forall l, x <> VDict l) -> R x y -> R' x z -> forget y = forget z) ->
  forall v w w', plain_in v -> lift R v w -> lift R' v w' -> forget w = forget w'.
Proof.
  intros F. induction v as [v N1 N2 | l IH | l IH] using value_induction; intros w w' S L L'.
  - apply (F v w w' S N2 N1); leafcase v N1 N2; assumption.
  - apply plain_dict in S. apply lift_dict in L as (l1 & -> & L). apply lift_dict in L' as (l2 & -> & L').
    rewrite !forget_batch. f_equal. revert l1 l2 L L'.
    induction IH as [|[k v] l Hv _ IHl]; intros [|[k1 v1] l1] [|[k2 v2] l2]; cbn; try tauto.
    intros (<- & A & B) (<- & A' & B'). cbn [snd] in Hv. destruct S as [S1 S2].
    f_equal; [f_equal; apply Hv; assumption | apply IHl; assumption].
  - change (stored (VBatch l)) in S. apply stored_batch in S. apply lift_batch in L as (l1 & -> & L). apply lift_batch in L' as (l2 & -> & L').
    rewrite !forget_batch. f_equal. revert l1 l2 L L'.
    induction IH as [|[k v] l Hv _ IHl]; intros [|[k1 v1] l1] [|[k2 v2] l2]; cbn; try tauto.
    intros (<- & A & B) (<- & A' & B'). cbn [snd] in Hv. destruct S as [S1 S2]. apply stored_plain in S1.
    f_equal; [f_equal; apply Hv; assumption | apply IHl; assumption].
Qed.
(** Every value related to a stored or plain one by a lift of a relation to stored leaves is stored. *)
Lemma lift_stored (R : value -> value -> Prop) :
  (forall x y, plain_in x -> (forall l, x <> VBatch l) -> (forall l, x <> VDict l) -> R x y -> stored y) ->
  forall v w, plain_in v -> lift R v w -> stored w.
Proof.
  intros F. induction v as [v N1 N2 | l IH | l IH] using value_induction; intros w S L.
  - apply (F v w S N2 N1); leafcase v N1 N2; assumption.
  - apply plain_dict in S. apply lift_dict in L as (l1 & -> & L). apply stored_batch. revert l1 L.
    induction IH as [|[k v] l Hv _ IHl]; intros [|[k1 v1] l1]; cbn; try tauto.
    intros (<- & A & B). cbn [snd] in Hv. destruct S as [S1 S2]. auto.
  - change (stored (VBatch l)) in S. apply stored_batch in S. apply lift_batch in L as (l1 & -> & L). apply stored_batch. revert l1 L.
    induction IH as [|[k v] l Hv _ IHl]; intros [|[k1 v1] l1]; cbn; try tauto.
    intros (<- & A & B). cbn [snd] in Hv. destruct S as [S1 S2]. apply stored_plain in S1. auto.
Qed.

(** ** to_torch *)
Lemma tensor_eqb a b : dtype_eqb a b = true <-> a = b.
Proof. destruct a, b; cbn; split; intro H; try reflexivity; discriminate H. Qed.
Definition to_leaf (dt : option dtype) (dev : device) (v w : value) : Prop :=
  match v with
  | VTensor d0 dev0 m a => w = tensor_as dt dev d0 dev0 m a
  | VArr d m a => w = VTensor d dev (to_ dev cpu m) a
  | _ => False
  end.
Lemma arr_to_torch_leaf dt dev x : stored x -> (forall l, x <> VBatch l) ->
  if torchable_in x then exists w, (let* y := arr_to_torch dt dev x in parse_value y) = Ok w /\ to_leaf dt dev x w
  else exists e, (let* y := arr_to_torch dt dev x in parse_value y) = Err e.
Proof.
  intros S N. destruct x; try destruct S; cbn [torchable_in]; try (eexists; reflexivity).
  - cbn [arr_to_torch]. destruct (_ || _) eqn:C; cbn [bind].
    + exists (tensor_as dt dev d dev0 m a). split; [unfold tensor_as; destruct (type_ dt d m a) as [[? ?] ?]; reflexivity | reflexivity].
    + eexists. split; [reflexivity|]. cbn. apply orb_false_iff in C as [C1 C2].
      apply negb_false_iff, Nat.eqb_eq in C2. subst dev0. unfold tensor_as, type_, to_.
      destruct dt as [d'|]; [apply negb_false_iff in C1; rewrite C1|]; rewrite Nat.eqb_refl; reflexivity.
  - cbn. eexists. split; reflexivity.
  - destruct (N l). reflexivity.
Qed.
Lemma to_torch_in dt dev v : stored v ->
  if torchable_in v then exists w, transform (arr_to_torch dt dev) v = Ok w /\ lift (to_leaf dt dev) v w
  else exists e, transform (arr_to_torch dt dev) v = Err e.
Proof.
  induction v as [v N1 N2 | l IH | l IH] using value_induction; intro S.
  - pose proof (arr_to_torch_leaf dt dev v S N2) as H. leafcase v N1 N2; exact H.
  - destruct S.
  - rewrite tin_batch, transform_batch. apply stored_batch in S.
    assert (G : if tin_items l then exists l', transform_items (arr_to_torch dt dev) l = Ok l' /\ lift_items (to_leaf dt dev) l l'
                else exists e, transform_items (arr_to_torch dt dev) l = Err e).
    { induction IH as [|[k v] l Hv _ IHl]; cbn; [eexists; split; [reflexivity | exact Logic.I]|].
      destruct S as [S1 S2]. specialize (Hv S1). specialize (IHl S2). cbn [snd] in *.
      destruct (torchable_in v); cbn.
      - destruct Hv as (w & E & L). rewrite E. cbn. destruct (tin_items l).
        + destruct IHl as (l' & E' & L'). rewrite E'. cbn. eexists. split; [reflexivity|]. cbn. auto.
        + destruct IHl as (e & E'). rewrite E'. cbn. eauto.
      - destruct Hv as (e & E). rewrite E. cbn. eauto. }
    destruct (tin_items l).
    + destruct G as (l' & E & L). rewrite E. cbn [bind]. eexists. split; [reflexivity|]. apply lift_batch. eauto.
    + destruct G as (e & E). rewrite E. cbn. eauto.
Qed.
Lemma copy_tin v : torchable_in (deepcopy v) = torchable_in v.
Proof.
  induction v as [v N1 N2 | l IH | l IH] using value_induction.
  - leafcase v N1 N2; reflexivity.
  - reflexivity.
  - rewrite copy_batch, !tin_batch. induction IH as [|[k v] l Hv _ IHl]; cbn; [reflexivity|]. cbn [snd] in Hv. f_equal; [exact Hv | exact IHl].
Qed.
Lemma copy_t v : torchable (deepcopy v) = torchable v.
Proof.
  induction v as [v N1 N2 | l IH | l IH] using value_induction.
  - leafcase v N1 N2; reflexivity.
  - rewrite copy_dict, !t_dict. induction IH as [|[k v] l Hv _ IHl]; cbn; [reflexivity|]. cbn [snd] in Hv. f_equal; [exact Hv | exact IHl].
  - exact (copy_tin (VBatch l)).
Qed.
Lemma parse_t v : plain_in v -> forall w, parse_value v = Ok w -> torchable_in w = torchable v.
Proof.
  induction v as [v N1 N2 | l IH | l IH] using value_induction; intros S w E.
  - leafcase v N1 N2; try destruct S; cbn in E; injection E as <-; reflexivity.
  - rewrite parse_dict in E. rewrite t_dict. apply plain_dict in S.
    destruct (parse_items l) as [l'|] eqn:El; [|discriminate E]. cbn in E. injection E as <-. rewrite tin_batch.
    revert l' El. induction IH as [|[k v] l Hv _ IHl]; cbn; intros l' El; [injection El as <-; reflexivity|].
    destruct S as [S1 S2]. destruct (parse_value v) as [w|] eqn:Ew; [|discriminate El]. cbn in El.
    destruct (parse_items l) as [l0|] eqn:E0; [|discriminate El]. cbn in El. injection El as <-. cbn.
    rewrite (Hv S1 w Ew), (IHl S2 l0 eq_refl). reflexivity.
  - cbn in E. injection E as <-. reflexivity.
Qed.
(** What a leaf of a dict or Batch becomes, with its memory. *)
Definition torch_in (dt : option dtype) (dev : device) (v w : value) : Prop :=
  match v with
  | VTensor d0 dev0 m a => w = tensor_as dt dev d0 dev0 (Copied m) a
  | VArr d m a => w = VTensor d dev (to_ dev cpu (Copied m)) a
  | VNum d q => w = VTensor d dev (to_ dev cpu fresh) ([], [q])
  | _ => False
  end.
Lemma to_torch_container dt dev v : plain_in v -> (exists l, v = VDict l \/ v = VBatch l) ->
  if torchable v then exists w, to_torch dt dev v = Ok w /\ lift (torch_in dt dev) v w
  else exists e, to_torch dt dev v = Err e.
Proof.
  intros P (l & [-> | ->]).
  - destruct (parse_lift _ (copy_plain _ P)) as (w & E & S & L). pose proof (parse_t _ (copy_plain _ P) _ E) as T.
    rewrite copy_t in T. rewrite <- T. rewrite copy_dict, parse_dict in E. unfold to_torch, to_torch_arr.
    destruct (parse_items (copy_items l)) as [l'|]; [|discriminate E]. cbn in E. injection E as <-. cbn [bind].
    pose proof (to_torch_in dt dev _ S) as H. rewrite transform_batch in H. unfold batch_to_torch_.
    destruct (torchable_in (VBatch l')).
    + destruct H as (x & E & L'). destruct (transform_items (arr_to_torch dt dev) l') as [l2|]; [|discriminate E].
      cbn in E. injection E as <-. cbn [bind]. eexists. split; [reflexivity|]. apply copy_lift in L.
      revert L L'. apply lift_comp.
      * intros a b c N1 N2 P1 Q. destruct a; cbn in P1; subst; try exact Q; try (destruct Q; fail).
        destruct P1; subst; [destruct Q | exact Q].
      * intros a b N1 N2 P1. apply parse_leaf_N in P1; [exact P1 | |]; destruct a; cbn; intros; congruence.
    + destruct H as (e & E). destruct (transform_items (arr_to_torch dt dev) l') as [l2|]; [discriminate E|].
      cbn. eauto.
  - change (stored (VBatch l)) in P. pose proof (to_torch_in dt dev _ (copy_stored _ P)) as H.
    rewrite copy_tin in H. change (torchable (VBatch l)) with (torchable_in (VBatch l)).
    rewrite copy_batch, transform_batch in H. unfold to_torch, to_torch_arr, batch_to_torch_.
    destruct (torchable_in (VBatch l)).
    + destruct H as (x & E & L'). destruct (transform_items (arr_to_torch dt dev) (copy_items l)) as [l2|]; [|discriminate E].
      cbn in E. injection E as <-. cbn [bind]. eexists. split; [reflexivity|]. rewrite <- copy_batch in L'. apply copy_lift in L'.
      revert L'. apply lift_impl; [|exact P]. intros a b Pa N1 N2 Q. destruct a; cbn in *; try exact Q; try (destruct Q; fail).
    + destruct H as (e & E). destruct (transform_items (arr_to_torch dt dev) (copy_items l)) as [l2|]; [discriminate E|].
      cbn. eauto.
Qed.
Lemma torch_in_batch dt dev v w : torch_in dt dev v w -> batch_leaf dt dev v w.
Proof.
  destruct v; cbn; try tauto; intros ->.
  - destruct dt as [d'|]; cbn; [|unfold tensor_as, type_; cbn; auto].
    unfold cast_leaf, tensor_as, type_. cbn. destruct (dtype_eqb d' d) eqn:E; [apply tensor_eqb in E; subst|]; cbn; auto.
  - destruct dt; cbn; auto.
  - destruct dt; cbn; auto.
Qed.

(** C213. to_torch succeeds exactly for arrays, tensors and numbers, and for dicts and Batches of these,
    except that a number must not be a value of a Batch; every value of the result is then a tensor on
    the requested device, at the same keys. *)
Lemma C213_to_torch_lemma : forall (dt : option dtype) (dev : device) (v : value), plain v ->
  ((exists w, to_torch dt dev v = Ok w) <-> torchable v = true) /\
  forall w, to_torch dt dev v = Ok w -> lift (fun _ y => exists d m a, y = VTensor d dev m a) v w.
Proof.
  intros dt dev v P.
  assert (D : (exists l, v = VDict l \/ v = VBatch l) \/ (forall l, v <> VDict l) /\ (forall l, v <> VBatch l)).
  { destruct v; try (left; eexists; auto; fail); right; split; intros; discriminate. }
  destruct D as [D | [N1 N2]].
  - assert (P' : plain_in v) by (destruct D as (l & [-> | ->]); exact P).
    pose proof (to_torch_container dt dev v P' D) as H. destruct (torchable v).
    + destruct H as (w & E & L). split; [split; eauto|]. intros w' E'. rewrite E in E'. injection E' as <-.
      revert L. apply lift_impl; [|exact P']. intros a b _ _ _ Q. destruct a; cbn in Q; try (destruct Q; fail); subst; try (eexists _, _, _; reflexivity).
      unfold tensor_as. destruct (type_ dt d (Copied m) a) as [[? ?] ?]. eexists _, _, _. reflexivity.
    + destruct H as (e & E). split; [split; [intros (w & E'); congruence | discriminate]|]. intros w E'. congruence.
  - leafcase v N1 N2; try destruct P; (split; [split|]); cbn; try (intros; discriminate); try (intros (? & ?); discriminate); eauto.
    all: unfold tensor_as; destruct (type_ _ _ _ _) as [[? ?] ?]; intros ? [= <-]; eexists _, _, _; reflexivity.
Qed.
(** C213. What cannot be converted is not always reported as a TypeError: for a Batch whose first value
    is None, a number or another object the error is an AttributeError. *)
Lemma C213_error_refuted_lemma : forall (dt : option dtype) (dev : device) (k : string) (v : value) l,
  v = VNone \/ (exists d q, v = VNum d q) \/ (exists n, v = VOther n) ->
  to_torch dt dev (VBatch ((k, v) :: l)) = Err AttributeError.
Proof. intros dt dev k v l [-> | [(d & q & ->) | (n & ->)]]; reflexivity. Qed.
(** C213. A number can be converted, but no Batch that has one as a value: one row [b[i]] of a Batch of
    one-dimensional arrays is refused. *)
Lemma C213_row_refuted_lemma : forall (dt : option dtype) (dev : device) (k : string) (d : dtype) (q : Qc),
  is_ok (to_torch dt dev (VNum d q)) = true /\
  forall l w, In (k, VNum d q) l -> to_torch dt dev (VBatch l) <> Ok w.
Proof.
  intros. split; [reflexivity|]. intros l w I E. unfold to_torch, to_torch_arr, batch_to_torch_ in E.
  destruct (transform_items (arr_to_torch dt dev) (copy_items l)) as [l'|] eqn:El; [|discriminate E]. clear E.
  revert l' El. induction l as [|[k' v'] l IH]; [destruct I|]. intros l' El.
  change (copy_items ((k', v') :: l)) with ((k', deepcopy v') :: copy_items l) in El. cbn [transform_items] in El.
  destruct I as [[= -> ->] | I]; [cbn in El; discriminate El|].
  destruct (transform (arr_to_torch dt dev) (deepcopy v')) as [w'|]; [|discriminate El]. cbn [bind] in El.
  destruct (transform_items (arr_to_torch dt dev) (copy_items l)) as [l0|]; [|discriminate El]. exact (IH I l0 eq_refl).
Qed.

(** C214. to_torch with a type: outside a dict or Batch the result has this type and the numbers converted
    to it; inside, tensors do, and arrays and numbers keep the type they have.  to_torch_as passes the
    type and device of the tensor. *)
Lemma C214_dtype_lemma : forall (d : dtype) (dev : device) (v w : value), plain v -> to_torch (Some d) dev v = Ok w ->
  ((forall l, v <> VDict l /\ v <> VBatch l) -> cast_leaf d dev v w) /\
  ((exists l, v = VDict l \/ v = VBatch l) -> lift (batch_leaf (Some d) dev) v w) /\
  (forall m a, to_torch_as v (VTensor d dev m a) = Ok w).
Proof.
  intros d dev v w P E. split; [|split; [|intros; exact E]].
  - intros N. destruct v; cbn in E; try discriminate E; try (destruct P; fail).
    all: try (destruct (N l) as [? ?]; congruence).
    all: injection E as <-; unfold tensor_as, type_, cast_leaf; cbn.
    all: match goal with |- context [dtype_eqb ?a ?b] => destruct (dtype_eqb a b) eqn:Ed end; cbn; auto.
    all: apply tensor_eqb in Ed; subst; auto.
  - intros D. assert (P' : plain_in v) by (destruct D as (l & [-> | ->]); exact P).
    pose proof (to_torch_container (Some d) dev v P' D) as H. destruct (torchable v); [|destruct H; congruence].
    destruct H as (w' & E' & L). rewrite E in E'. injection E' as <-. revert L. apply lift_impl; [|exact P'].
    intros a b _ _ _ Q. apply torch_in_batch, Q.
Qed.
Lemma lift_torchable v : forall w, plain_in v -> (exists l, v = VDict l \/ v = VBatch l) ->
  lift (fun x y => exists d dev m a, y = VTensor d dev m a) v w -> torchable_in w = true.
Proof.
  assert (G : forall v w, plain_in v -> lift (fun x y => exists d dev m a, y = VTensor d dev m a) v w -> torchable_in w = true).
  { clear. induction v as [v N1 N2 | l IH | l IH] using value_induction; intros w S L.
    - assert (exists d dev m a, w = VTensor d dev m a) as (? & ? & ? & ? & ->) by (leafcase v N1 N2; exact L). reflexivity.
    - apply plain_dict in S. apply lift_dict in L as (l1 & -> & L). rewrite tin_batch. revert l1 L.
      induction IH as [|[k v] l Hv _ IHl]; intros [|[k1 v1] l1]; cbn; try tauto. intros (_ & A & B). cbn [snd] in Hv.
      destruct S as [S1 S2]. rewrite (Hv v1 S1 A), (IHl S2 l1 B). reflexivity.
    - change (stored (VBatch l)) in S. apply stored_batch in S. apply lift_batch in L as (l1 & -> & L). rewrite tin_batch. revert l1 L.
      induction IH as [|[k v] l Hv _ IHl]; intros [|[k1 v1] l1]; cbn; try tauto. intros (_ & A & B). cbn [snd] in Hv.
      destruct S as [S1 S2]. apply stored_plain in S1. rewrite (Hv v1 S1 A), (IHl S2 l1 B). reflexivity. }
  intros w P _ L. exact (G v w P L).
Qed.
Lemma lift_diag (R : value -> value -> Prop) (Q : value -> Prop) : (forall x y, R x y -> Q y /\ (forall l, y <> VBatch l) /\ (forall l, y <> VDict l)) ->
  forall v w, plain_in v -> lift R v w -> lift (fun y y' => y' = y /\ Q y) w w.
Proof.
  intros F. induction v as [v N1 N2 | l IH | l IH] using value_induction; intros w S L.
  - assert (A : R v w) by (leafcase v N1 N2; exact L). destruct (F v w A) as (q & M2 & M1).
    leafcase w M1 M2; split; auto.
  - apply plain_dict in S. apply lift_dict in L as (l1 & -> & L). apply lift_batch. exists l1. split; [reflexivity|]. revert l1 L.
    induction IH as [|[k v] l Hv _ IHl]; intros [|[k1 v1] l1]; cbn; try tauto. intros (_ & A & B). cbn [snd] in Hv. destruct S. auto.
  - change (stored (VBatch l)) in S. apply stored_batch in S. apply lift_batch in L as (l1 & -> & L). apply lift_batch. exists l1. split; [reflexivity|]. revert l1 L.
    induction IH as [|[k v] l Hv _ IHl]; intros [|[k1 v1] l1]; cbn; try tauto. intros (_ & A & B). cbn [snd] in Hv. destruct S as [S1 S2]. apply stored_plain in S1. auto.
Qed.
(** C214. Converting the result again gives every value the requested type, and a third conversion changes
    nothing more. *)
Lemma C214_twice_lemma : forall (d : dtype) (dev : device) (v w : value), plain v ->
  (exists l, v = VDict l \/ v = VBatch l) -> to_torch (Some d) dev v = Ok w ->
  exists w2 w3, to_torch (Some d) dev w = Ok w2 /\ to_torch (Some d) dev w2 = Ok w3 /\
    lift (cast_leaf d dev) v w2 /\ forget w3 = forget w2.
Proof.
  intros d dev v w P D E. assert (P' : plain_in v) by (destruct D as (l & [-> | ->]); exact P).
  pose proof (to_torch_container (Some d) dev v P' D) as H. destruct (torchable v); [|destruct H; congruence].
  destruct H as (w' & E' & L). rewrite E in E'. injection E' as <-.
  assert (T : forall d0 x y, torch_in (Some d0) dev x y -> exists d dev m a, y = VTensor d dev m a).
  { intros d0 x y Q. destruct x; cbn in Q; try (destruct Q; fail); subst; try (do 4 eexists; reflexivity).
    unfold tensor_as. destruct (type_ _ _ _ _) as [[? ?] ?]. do 4 eexists. reflexivity. }
  assert (W : forall v w, plain_in v -> (exists l, v = VDict l \/ v = VBatch l) -> lift (torch_in (Some d) dev) v w ->
    exists l, w = VBatch l /\ plain_in w /\ torchable w = true).
  { clear - T. intros v w P D L.
    assert (L2 : lift (fun x y => exists d dev m a, y = VTensor d dev m a) v w) by (revert L; apply lift_impl; [|exact P]; intros; eapply T; eauto).
    pose proof (lift_torchable v w P D L2) as Tw.
    assert (S : stored w) by (revert L2; apply lift_stored; [|exact P]; intros a b _ _ _ (? & ? & ? & ? & ->); exact Logic.I).
    destruct D as (l & [-> | ->]); [apply lift_dict in L as (l' & -> & _) | apply lift_batch in L as (l' & -> & _)]; exists l'; auto. }
  destruct (W v w P' D L) as (lw & Ew & Pw & Tw).
  pose proof (to_torch_container (Some d) dev w Pw (ex_intro _ lw (or_intror Ew))) as H. rewrite Tw in H.
  destruct H as (w2 & E2 & L2).
  destruct (W w w2 Pw (ex_intro _ lw (or_intror Ew)) L2) as (l2 & Ew2 & Pw2 & Tw2).
  pose proof (to_torch_container (Some d) dev w2 Pw2 (ex_intro _ l2 (or_intror Ew2))) as H. rewrite Tw2 in H.
  destruct H as (w3 & E3 & L3).
  assert (N : forall x y, (forall l, x <> VBatch l) -> (forall l, x <> VDict l) -> torch_in (Some d) dev x y -> (forall l, y <> VBatch l) /\ (forall l, y <> VDict l)).
  { intros x y _ _ Q. apply T in Q as (? & ? & ? & ? & ->). split; intros; discriminate. }
  assert (L02 : lift (cast_leaf d dev) v w2).
  { revert L L2. apply lift_comp; [|exact N]. intros x y z N1 N2 Q1 Q2. destruct x; cbn in Q1; try (destruct Q1; fail); subst.
    + unfold tensor_as, type_ in Q2. destruct (dtype_eqb d d0) eqn:Ed.
      * cbn in Q2. unfold tensor_as, type_ in Q2. rewrite Ed in Q2. subst. apply tensor_eqb in Ed. subst d0. cbn. rewrite (proj2 (tensor_eqb d d) eq_refl). auto.
      * cbn in Q2. unfold tensor_as, type_ in Q2. rewrite (proj2 (tensor_eqb d d) eq_refl) in Q2. subst. cbn. rewrite Ed. auto.
    + cbn in Q2. unfold tensor_as, type_ in Q2. destruct (dtype_eqb d d0) eqn:Ed; subst; cbn; rewrite Ed; auto.
      apply tensor_eqb in Ed. auto.
    + cbn in Q2. unfold tensor_as, type_ in Q2. destruct (dtype_eqb d d0) eqn:Ed; subst; cbn; rewrite Ed; auto.
      apply tensor_eqb in Ed. auto. }
  exists w2, w3. split; [exact E2|]. split; [exact E3|]. split; [exact L02|].
  symmetry. refine (lift_fun _ _ _ w2 w2 w3 Pw2 (lift_diag _ (fun y => exists m a, y = VTensor d dev m a) _ v w2 P' L02) L3).
  - intros x y z _ _ _ (-> & m & a & ->) Q. cbn in Q. unfold tensor_as, type_ in Q. rewrite (proj2 (tensor_eqb d d) eq_refl) in Q.
      subst. reflexivity.
  - intros x y Q. unfold cast_leaf in Q. destruct y; try destruct Q. destruct (content x) as [[? ?]|]; [|destruct Q].
      destruct Q as (-> & -> & _). split; [eauto | split; intros; discriminate].
Qed.
(** C214. So the requested type is ignored for every array that is a value of a Batch: the tensor has the type
    of the array, and a second conversion changes it. *)
Lemma C214_batch_array_refuted_lemma : forall (d d0 : dtype) (dev : device) (k : string) (m : mem) (a : elems), d <> d0 ->
  exists m1 m2 a2,
    to_torch (Some d) dev (VBatch [(k, VArr d0 m a)]) = Ok (VBatch [(k, VTensor d0 dev m1 a)]) /\
    to_torch (Some d) dev (VBatch [(k, VTensor d0 dev m1 a)]) = Ok (VBatch [(k, VTensor d dev m2 a2)]).
Proof.
  intros d d0 dev k m a N. eexists _, _, _. split; [reflexivity|]. cbn.
  destruct (dtype_eqb d d0) eqn:E; [apply tensor_eqb in E; contradiction|]. cbn. unfold tensor_as, type_. rewrite E. cbn. reflexivity.
Qed.

(** C212. Converting the result of to_numpy again changes nothing (but the memory). *)
Lemma C212_idempotent_lemma : forall v w : value, plain v -> to_numpy v = Ok w ->
  exists w', to_numpy w = Ok w' /\ forget w' = forget w.
Proof.
  intros v w P E. destruct (C212_to_numpy_lemma v P) as (w0 & E0 & L). rewrite E in E0. injection E0 as <-.
  assert (D : (exists l, v = VDict l \/ v = VBatch l) \/ (forall l, v <> VDict l) /\ (forall l, v <> VBatch l)).
  { destruct v; try (left; eexists; auto; fail); right; split; intros; discriminate. }
  destruct D as [D | [N1 N2]].
  - assert (P' : plain_in v) by (destruct D as (l & [-> | ->]); exact P).
    assert (L' : lift (fun x y => numpy_leaf x y /\ (content x = None -> y = x)) v w).
    { destruct D as (l & [-> | ->]).
      - destruct (to_numpy_dict l P') as (w1 & E1 & L1). rewrite E in E1. injection E1 as <-. revert L1. apply lift_impl; [|exact P']. tauto.
      - destruct (to_numpy_batch l P') as (w1 & E1 & L1). rewrite E in E1. injection E1 as <-. revert L1. apply lift_impl; [|exact P']. tauto. }
    assert (S : stored w).
    { revert L'. apply lift_stored; [|exact P']. intros x y Px M1 M2 [Q1 Q2]. unfold numpy_leaf in Q1.
      destruct (content x) eqn:C; [destruct y; try destruct Q1; exact Logic.I|]. rewrite (Q2 eq_refl).
      destruct x; try (destruct Px; fail); try exact Logic.I; exfalso; first [eapply M1; reflexivity | eapply M2; reflexivity]. }
    assert (W : exists l, w = VBatch l).
    { destruct D as (l & [-> | ->]); [apply lift_dict in L as (l' & -> & _) | apply lift_batch in L as (l' & -> & _)]; eauto. }
    destruct W as (lw & ->). destruct (to_numpy_batch lw S) as (w2 & E2 & L2). exists w2. split; [exact E2|]. symmetry.
    assert (L3 : lift (fun y y' => y' = y /\ (content y = None \/ exists d m a, y = VArr d m a)) (VBatch lw) (VBatch lw)).
    { revert L'. clear - P'. assert (G : lift (fun x y => numpy_leaf x y /\ (content x = None -> y = x)) v (VBatch lw) ->
        lift (fun x y => (content y = None \/ exists d m a, y = VArr d m a) /\ (forall l, y <> VBatch l) /\ (forall l, y <> VDict l)) v (VBatch lw)).
      { apply lift_impl; [|exact P']. intros x y Px M1 M2 [Q1 Q2]. unfold numpy_leaf in Q1. destruct (content x) eqn:C.
        - destruct y; try (destruct Q1; fail). split; [eauto|split; intros; discriminate].
        - rewrite (Q2 eq_refl). auto. }
      intro H. apply G in H. revert H. apply lift_diag; [|exact P']. tauto. }
    revert L3 L2. apply lift_fun; [|exact S]. intros x y z Px M1 M2 (-> & Q) (Q1 & Q2 & _).
    destruct Q as [C | (d & m & a & ->)]; [rewrite (Q2 C); reflexivity|].
    cbn in Q1. destruct z; try (destruct Q1; fail). cbn in Q1. injection Q1 as -> ->. reflexivity.
  - leafcase v N1 N2; try (destruct P; fail); cbn in E; injection E as <-; eexists; (split; [reflexivity|]); reflexivity.
Qed.

(** C215. Converting to torch and back gives what to_numpy gives, up to the memory used. *)
Lemma C215_torch_numpy_lemma : forall (dev : device) (v w : value), plain v -> to_torch None dev v = Ok w ->
  exists x y, to_numpy w = Ok x /\ to_numpy v = Ok y /\ forget x = forget y.
Proof.
  intros dev v w P E. destruct (C212_to_numpy_lemma v P) as (y & Ey & Ly).
  assert (D : (exists l, v = VDict l \/ v = VBatch l) \/ (forall l, v <> VDict l) /\ (forall l, v <> VBatch l)).
  { destruct v; try (left; eexists; auto; fail); right; split; intros; discriminate. }
  destruct D as [D | [N1 N2]].
  - assert (P' : plain_in v) by (destruct D as (l & [-> | ->]); exact P).
    pose proof (to_torch_container None dev v P' D) as H. destruct (torchable v); [|destruct H; congruence].
    destruct H as (w' & E' & L). rewrite E in E'. injection E' as <-.
    assert (T : forall x y, torch_in None dev x y -> torch_leaf dev x y).
    { intros x z Q. apply torch_in_batch in Q. destruct x; exact Q. }
    assert (S : stored w).
    { revert L. apply lift_stored; [|exact P']. intros x z _ _ _ Q. apply T in Q. destruct z; try (destruct Q; fail); exact Logic.I. }
    assert (W : exists l, w = VBatch l).
    { destruct D as (l & [-> | ->]); [apply lift_dict in L as (l' & -> & _) | apply lift_batch in L as (l' & -> & _)]; eauto. }
    destruct W as (lw & ->). destruct (to_numpy_batch lw S) as (x & Ex & Lx). exists x, y. split; [exact Ex|]. split; [exact Ey|].
    assert (L2 : lift (fun a b => content a <> None /\ numpy_leaf a b) v x).
    { revert L Lx. apply lift_comp.
      - intros a b c _ _ Q (Q1 & _). apply T in Q. destruct b; try (destruct Q; fail). destruct Q as [_ Q].
        unfold numpy_leaf in *. cbn in Q1, Q. rewrite Q. split; [discriminate|]. exact Q1.
      - intros a b _ _ Q. apply T in Q. destruct b; try (destruct Q; fail). split; intros; discriminate. }
    revert L2 Ly. apply lift_fun; [|exact P']. intros a b c _ _ _ [C Q] Q'. unfold numpy_leaf in *.
    destruct (content a); [|contradiction]. destruct b; try (destruct Q; fail). destruct c; try (destruct Q'; fail).
    cbn in Q, Q'. rewrite <- Q in Q'. injection Q' as -> ->. reflexivity.
  - leafcase v N1 N2; try (destruct P; fail); cbn in E; try discriminate E; injection E as <-; eexists _, _; repeat split; reflexivity.
Qed.
(** C215. Conversely a tensor, or a Batch of tensors on one device, is recovered from its numpy form. *)
Lemma C215_numpy_torch_lemma : forall (dev : device) (v w : value), plain v -> (forall l, v <> VDict l) ->
  lift (fun x y => y = x /\ exists d m a, x = VTensor d dev m a) v v -> to_numpy v = Ok w ->
  exists v', to_torch None dev w = Ok v' /\ forget v' = forget v.
Proof.
  intros dev v w P ND T E.
  assert (D : (exists l, v = VBatch l) \/ (forall l, v <> VDict l) /\ (forall l, v <> VBatch l)).
  { destruct v; try (left; eexists; auto; fail); right; split; intros; try discriminate. apply ND. }
  destruct D as [D | [N1 N2]].
  - destruct D as (l & ->). assert (P' : plain_in (VBatch l)) by exact P.
    destruct (to_numpy_batch l P') as (w1 & E1 & L1). rewrite E in E1. injection E1 as <-.
    assert (L : lift (fun x y => exists d m m' a, x = VTensor d dev m a /\ y = VArr d m' a) (VBatch l) w).
    { revert T L1. apply lift_comp.
      - intros x y z _ _ (-> & d & m & a & ->) (Q & _). cbn in Q. destruct z; try (destruct Q; fail). cbn in Q.
        injection Q as -> ->. eexists _, _, _, _. split; reflexivity.
      - intros x y M1 M2 (-> & _). auto. }
    assert (S : stored w). { revert L. apply lift_stored; [|exact P']. intros x y _ _ _ (d & m & m' & a & -> & ->). exact Logic.I. }
    pose proof L as L0. apply lift_batch in L0 as (l' & -> & _).
    assert (Tw : torchable (VBatch l') = true).
    { change (torchable_in (VBatch l') = true). clear - L P'. change (stored (VBatch l)) in P'. revert L.
      assert (G : forall v w, stored v -> lift (fun x y => exists d m m' a, x = VTensor d dev m a /\ y = VArr d m' a) v w -> torchable_in w = true).
      { clear. induction v as [v N1 N2 | l IH | l IH] using value_induction; intros w S L.
        - assert (exists d m a, w = VArr d m a) as (? & ? & ? & ->) by (leafcase v N1 N2; destruct L as (? & ? & ? & ? & _ & ->); eauto).
          reflexivity.
        - destruct S.
        - apply stored_batch in S. apply lift_batch in L as (l1 & -> & L). rewrite tin_batch. revert l1 L.
          induction IH as [|[k v] l Hv _ IHl]; intros [|[k1 v1] l1]; cbn; try tauto. intros (_ & A & B). cbn [snd] in Hv.
          destruct S as [S1 S2]. rewrite (Hv v1 S1 A), (IHl S2 l1 B). reflexivity. }
      apply G, P'. }
    pose proof (to_torch_container None dev (VBatch l') S (ex_intro _ l' (or_intror eq_refl))) as H. rewrite Tw in H.
    destruct H as (v' & Ev & Lv). exists v'. split; [exact Ev|].
    assert (LL : lift (fun x z => exists d m m' a, x = VTensor d dev m a /\ z = VTensor d dev m' a) (VBatch l) v').
    { revert L Lv. apply lift_comp.
      - intros x y z _ _ (d & m & m' & a & -> & ->) Q. cbn in Q. subst. eexists _, _, _, _. split; reflexivity.
      - intros x y _ _ (d & m & m' & a & -> & ->). split; intros; discriminate. }
    revert LL T. apply lift_fun; [|exact P']. intros x y z _ _ _ (d & m & m' & a & -> & ->) (-> & _). reflexivity.
  - assert (exists d m a, v = VTensor d dev m a) as (d & m & a & ->) by (leafcase v N1 N2; destruct T as [_ T]; exact T).
    cbn in E. injection E as <-. eexists. split; reflexivity.
Qed.

(** ** Memory *)
Lemma lift_blocks (R : value -> value -> Prop) (Q : mem -> Prop) :
  (forall x y m, R x y -> In m (blocks y) -> Q m) ->
  forall v w m, lift R v w -> In m (blocks w) -> Q m.
Proof.
  intros F. induction v as [v N1 N2 | l IH | l IH] using value_induction; intros w m L I.
  - apply (F v w m); [leafcase v N1 N2; exact L | exact I].
  - apply lift_dict in L as (l1 & -> & L). rewrite blocks_batch in I. revert l1 L I.
    induction IH as [|[k v] l Hv _ IHl]; intros [|[k1 v1] l1]; cbn; try tauto. intros (_ & A & B) I. cbn [snd] in Hv.
    apply in_app_iff in I as [I | I]; eauto.
  - apply lift_batch in L as (l1 & -> & L). rewrite blocks_batch in I. revert l1 L I.
    induction IH as [|[k v] l Hv _ IHl]; intros [|[k1 v1] l1]; cbn; try tauto. intros (_ & A & B) I. cbn [snd] in Hv.
    apply in_app_iff in I as [I | I]; eauto.
Qed.
Lemma to_new dev dev' m : new_block m -> new_block (to_ dev dev' m).
Proof. intro H. unfold to_. destruct (dev =? dev'); [exact H | eexists; reflexivity]. Qed.
(** C216. The tensors that to_torch returns for a dict or a Batch, and the arrays that to_numpy returns for a
    Batch, all use new memory; writing to them cannot change the argument. *)
Lemma C216_fresh_lemma : forall (dt : option dtype) (dev : device) (v w : value), plain_in v ->
  ((exists l, v = VDict l \/ v = VBatch l) -> to_torch dt dev v = Ok w -> forall m, In m (blocks w) -> new_block m) /\
  ((exists l, v = VBatch l) -> to_numpy v = Ok w -> forall m, In m (blocks w) -> new_block m).
Proof.
  intros dt dev v w P. split.
  - intros D E m. pose proof (to_torch_container dt dev v P D) as H. destruct (torchable v); [|destruct H; congruence].
    destruct H as (w' & E' & L). rewrite E in E'. injection E' as <-. revert L. apply lift_blocks.
    intros x y m' Q I. destruct x; cbn in Q; try (destruct Q; fail); subst; cbn in I.
    + unfold tensor_as, type_ in I.
      assert (N : forall m0, new_block m0 -> new_block (to_ dev dev0 m0)) by (intros; apply to_new; assumption).
      destruct dt as [d'|]; [destruct (dtype_eqb d' d)|]; cbn in I; destruct I as [<- | []]; apply N; eexists; reflexivity.
    + destruct I as [<- | []]. apply to_new. eexists. reflexivity.
    + destruct I as [<- | []]. apply to_new. eexists. reflexivity.
  - intros (l & ->) E m. destruct (to_numpy_batch l P) as (w' & E' & L). rewrite E in E'. injection E' as <-.
    assert (L' : lift (fun x y => forall m, In m (blocks y) -> new_block m) (VBatch l) w); [|revert L'; apply lift_blocks; eauto].
    revert L. apply lift_impl; [|exact P]. intros x y Px N1 N2 (Q1 & Q2 & Q3) m' I.
    destruct x; try (destruct Px; fail); cbn in Q1, Q2, Q3;
      try (rewrite (Q2 eq_refl) in I; first [destruct I; fail | exfalso; first [eapply N1; reflexivity | eapply N2; reflexivity]]).
    all: destruct y; try (destruct Q1; fail); destruct I as [<- | []].
    + destruct dev0; subst; eexists; reflexivity.
    + subst. eexists. reflexivity.
    + subst. eexists. reflexivity.
Qed.
(** C216. Outside containers the result shares the memory of the argument whenever no number has to be
    converted or moved. *)
Lemma C216_shared_lemma : forall (d : dtype) (dev : device) (m : mem) (a : elems) (dt : option dtype),
  dt = None \/ dt = Some d ->
  to_torch dt cpu (VArr d m a) = Ok (VTensor d cpu m a) /\
  to_torch dt dev (VTensor d dev m a) = Ok (VTensor d dev m a) /\
  to_numpy (VTensor d cpu m a) = Ok (VArr d m a) /\ to_numpy (VArr d m a) = Ok (VArr d m a).
Proof.
  intros d dev m a dt H. cbn. unfold tensor_as, type_, to_, numpy_of, to_.
  assert (E : dtype_eqb d d = true) by (apply tensor_eqb; reflexivity).
  destruct H as [-> | ->]; rewrite ?E, !Nat.eqb_refl; auto.
Qed.
(** C216. The arrays that to_numpy returns for a dict are not new: every array and every tensor on the cpu in
    the dict, at any level, shares its memory with the result. *)
Lemma C216_dict_refuted_lemma : forall l : list (string * value), plain_in (VDict l) ->
  exists w, to_numpy (VDict l) = Ok w /\ lift shared_leaf (VDict l) w.
Proof.
  intros l P. destruct (to_numpy_dict l P) as (w & E & L). exists w. split; [exact E|].
  revert L. apply lift_impl; [|exact P]. tauto.
Qed.

(** ** Conversion of numbers *)
Lemma trunc_spec (n : Z) (d : positive) : let z := Z.quot n (Zpos d) in
  (0 <= n -> z * Zpos d <= n < (z + 1) * Zpos d)%Z /\ (n <= 0 -> (z - 1) * Zpos d < n <= z * Zpos d)%Z.
Proof.
  cbv zeta. pose proof (Z.quot_rem' n (Zpos d)) as E. set (z := Z.quot n (Zpos d)) in *. set (r := Z.rem n (Zpos d)) in *.
  assert (P : (0 <= n -> 0 <= r < Zpos d)%Z) by (intros H; apply Z.rem_bound_pos; lia).
  assert (N : (n <= 0 -> - Zpos d < r <= 0)%Z).
  { intros H. unfold r. replace n with (- (- n))%Z by lia. rewrite Z.rem_opp_l by lia. pose proof (Z.rem_bound_pos (- n) (Zpos d)). lia. }
  clearbody z r. split; intros H; [specialize (P H) | specialize (N H)]; nia.
Qed.
Lemma cast1_converted d q : converted d q (cast1 d q).
Proof.
  destruct d; cbn [converted cast1]; try reflexivity.
  - destruct (Qc_eq_dec q 0); [left | right]; split; auto.
  - exists (Z.quot (Qnum q) (Zpos (Qden q))). split; [reflexivity|].
    destruct (trunc_spec (Qnum q) (Qden q)) as [P N]. set (z := Z.quot _ _) in *. clearbody z.
    unfold Qle, Qlt. cbn [Qnum Qden inject_Z]. split; intros H.
    + assert (H' : (0 <= Qnum q)%Z) by (cbn in H; lia). specialize (P H'). lia.
    + assert (H' : (Qnum q <= 0)%Z) by (cbn in H; lia). specialize (N H'). lia.
Qed.
(** C214. An array or a tensor of another type becomes a tensor of the requested type in new memory, every number converted. *)
Lemma C214_conversion_lemma : forall (d d0 : dtype) (dev dev0 : device) (m : mem) (sh : list nat) (l : list Qc), d <> d0 ->
  exists m1 m2 l', to_torch (Some d) dev (VArr d0 m (sh, l)) = Ok (VTensor d dev m1 (sh, l'))
    /\ to_torch (Some d) dev (VTensor d0 dev0 m (sh, l)) = Ok (VTensor d dev m2 (sh, l'))
    /\ Forall2 (converted d) l l' /\ new_block m1 /\ new_block m2.
Proof.
  intros d d0 dev dev0 m sh l N. assert (F : dtype_eqb d d0 = false).
  { destruct (dtype_eqb d d0) eqn:E; [|reflexivity]. apply tensor_eqb in E. contradiction. }
  assert (NB : forall x y, new_block (to_ x y (Copied m))) by (intros x y; unfold to_; destruct (_ =? _); eexists; reflexivity).
  exists (to_ dev cpu (Copied m)), (to_ dev dev0 (Copied m)), (map (cast1 d) l). unfold to_torch, to_torch_arr, tensor_as, type_. rewrite F. unfold cast. cbn [fst snd].
  split; [reflexivity|]. split; [reflexivity|]. split; [|split; apply NB].
  clear. induction l as [|q l IH]; constructor; [apply cast1_converted | exact IH].
Qed.
Lemma tjoin_rank a b : tjoin a b = a /\ torch_rank b <= torch_rank a \/ tjoin a b = b /\ torch_rank a <= torch_rank b.
Proof. destruct a, b; cbn; auto with arith. Qed.
Lemma fold_tjoin l : forall d, (fold_left tjoin l d = d \/ In (fold_left tjoin l d) l) /\ torch_rank d <= torch_rank (fold_left tjoin l d) /\
  forall e, In e l -> torch_rank e <= torch_rank (fold_left tjoin l d).
Proof.
  induction l as [|x l IH]; intros d; cbn [fold_left]; [split; [left; reflexivity|]; split; [lia | intros e []]|].
  destruct (IH (tjoin d x)) as (A & B & C). destruct (tjoin_rank d x) as [[E L] | [E L]]; rewrite E in *.
  - split; [destruct A as [A | A]; [left; exact A | right; right; exact A]|]. split; [exact B|]. intros e [<- | I]; [lia | apply C, I].
  - split; [right; destruct A as [A | A]; [left; symmetry; exact A | right; exact A]|]. split; [lia|]. intros e [<- | I]; [exact B | apply C, I].
Qed.
(** C212. The array made of a list of tensors has the greatest type of the tensors; None and other objects become arrays of shape (). *)
Lemma C212_types_lemma : (forall sh dev ts, ts <> [] -> exists d m a,
     to_numpy (VTensors (map (fun t : dtype * mem * list Qc => (fst (fst t), dev, snd (fst t), (sh, snd t))) ts)) = Ok (VArr d m a)
     /\ (exists t, In t ts /\ fst (fst t) = d) /\ forall t, In t ts -> torch_rank (fst (fst t)) <= torch_rank d)
  /\ to_numpy VNone = Ok (VObj0 None) /\ forall n, to_numpy (VOther n) = Ok (VObj0 (Some n)).
Proof.
  split; [|split; reflexivity]. intros sh dev ts N. destruct ts as [|t0 ts]; [contradiction|]. clear N.
  set (g := fun t : dtype * mem * list Qc => (fst (fst t), dev, snd (fst t), (sh, snd t))).
  unfold to_numpy. cbn [map parse_value]. unfold torch_stack, bind, to_numpy_arr. unfold g at 1. cbv beta iota.
  match goal with |- context [forallb ?F ?L] => replace (forallb F L) with true end.
  - change (g t0 :: map g ts) with (map g (t0 :: ts)). unfold numpy_of.
    match goal with |- context [fold_left tjoin ?L ?D] => destruct (fold_tjoin L D) as (A & B & C); set (d := fold_left tjoin L D) in * end.
    rewrite map_map in A, C. unfold g in A, C. cbn [fst] in A, C.
    exists d. eexists _, _. split; [reflexivity|]. split.
    + destruct A as [A | A]; [exists t0; split; [left; reflexivity | symmetry; exact A]|]. apply in_map_iff in A as (t & E & I). exists t. split; [exact I | exact E].
    + intros t I. apply C. apply in_map_iff. exists t. split; [reflexivity | exact I].
  - symmetry. apply forallb_forall. intros x I. change (g t0 :: map g ts) with (map g (t0 :: ts)) in I.
    apply in_map_iff in I as (t & <- & _). unfold g. cbn [fst snd].
    destruct (list_eq_dec Nat.eq_dec sh sh) as [_|D]; [|destruct D; reflexivity]. rewrite Nat.eqb_refl. reflexivity.
Qed.
(** C216. A tensor or an array of another element type is not shared: the converted tensor has memory of its own and the converted
    elements, and the original is left alone. *)
Lemma C216_cast_lemma : forall (d d' : dtype) (dev : device) (m : mem) (a : elems), d' <> d ->
  exists m1 m2, to_torch (Some d') dev (VTensor d dev m a) = Ok (VTensor d' dev m1 (cast d' a)) /\
    to_torch (Some d') cpu (VArr d m a) = Ok (VTensor d' cpu m2 (cast d' a)) /\ m1 <> m /\ m2 <> m /\ new_block m1 /\ new_block m2.
Proof.
  intros d d' dev m a H. assert (E : dtype_eqb d' d = false).
  { destruct (dtype_eqb d' d) eqn:E; [|reflexivity]. now apply tensor_eqb in E. }
  assert (N : Copied m <> m) by (clear; induction m as [k|m IH]; congruence).
  exists (Copied m), (Copied m). cbn. unfold tensor_as, type_, to_. rewrite E, !Nat.eqb_refl.
  repeat match goal with |- _ /\ _ => split end; try reflexivity; try exact N; exists m; reflexivity.
Qed.
