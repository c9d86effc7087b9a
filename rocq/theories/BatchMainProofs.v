(** * Further laws of the batch operations, and findings *)
From Verif Require Import PyLemmas BatchModel BatchSpec BatchProofs BatchCatProofs BatchStackProofs.
Open Scope nat_scope.
Open Scope list_scope.

(** ** Stack *)
(** Stacking batches of the same layout. *)
Lemma uniform_of_layout bs :
  (forall b b' p, In b bs -> In b' bs -> layout (at_path p b) (at_path p b')) -> uniform_partial bs.
Proof.
  intros H p b0 b b' q H0 Hb Hb' He Hne Hne'. exfalso. apply Hne.
  specialize (H b0 b p H0 Hb). destruct He as [E|E]; rewrite E in H; destruct (at_path p b) as [[|l|]|]; cbn in H; try contradiction.
  - now left.
  - right. destruct l as [|[s x] l]; [reflexivity|]. exfalso. apply (proj2 (H s)). now left.
Qed.
Lemma C19_stack_lemma : forall (ty : list string -> akind * list nat) (bs : list bval),
  bs <> [] -> stack_typed ty bs ->
  (forall b b' p, In b bs -> In b' bs -> layout (at_path p b) (at_path p b')) ->
  (forall b, In b bs -> exists l, b = Node l /\ l <> []) ->
  exists r, bstack bs = Ok r /\ merged ty (fun p => stack_rows ty p bs) bs r.
Proof.
  intros ty bs Hne Ht Hl Hn. apply C19_stack_partial_lemma; try assumption. now apply uniform_of_layout.
Qed.
Lemma merged_root ty rows bs r : bs <> [] -> (forall b, In b bs -> exists l, b = Node l /\ l <> []) -> merged ty rows bs r ->
  exists l, r = Node l /\ l <> [].
Proof.
  intros Hne Hn [_ Hm]. destruct (Hm []) as (_ & M2 & _). destruct bs as [|b bs]; [congruence|].
  destruct (Hn b (or_introl eq_refl)) as (lb & Eb & Hlb). destruct M2 as (l' & E & Hk).
  - intros (c & k & a & Hc & Hp). destruct (Hn c Hc) as (l & -> & _). discriminate.
  - exists b, lb. split; [now left|]. now rewrite Eb.
  - cbn in E. injection E as ->. exists l'. split; [reflexivity|]. intros ->. destruct lb as [|[s x] lb]; [congruence|].
    apply (proj2 (Hk s)). exists b, ((s, x) :: lb). split; [now left|]. rewrite Eb. split; [reflexivity|now left].
Qed.
(** Row i of the stack holds the arrays of batch i. *)
Lemma C19_stack_row_lemma : forall (ty : list string -> akind * list nat) (bs : list bval) (i : nat) (b : bval),
  stack_typed ty bs ->
  (forall b b' p, In b bs -> In b' bs -> layout (at_path p b) (at_path p b')) ->
  (forall b, In b bs -> exists l, b = Node l /\ l <> []) ->
  nth_error bs i = Some b ->
  exists r s, bstack bs = Ok r /\ bgetitem r (IInt (Z.of_nat i)) = Ok s /\
    forall p k a, at_path p b = Some (Leaf k a) -> at_path p s = Some (Leaf k a).
Proof.
  intros ty bs i b Ht Hl Hn Hi. pose proof (nth_error_In _ _ Hi) as Hb.
  assert (Hne : bs <> []) by (destruct bs; [contradiction|discriminate]).
  destruct (C19_stack_lemma ty bs Hne Ht Hl Hn) as (r & Hr & Hm).
  assert (Hal : aligned (length bs) r).
  { intros p k a Hp. assert (Hno : forall c, In c bs -> at_path p c <> Some NoneV).
    { intros c Hc. destruct (Ht c Hc) as (_ & H & _). apply H. }
    destruct (merged_leaf _ _ _ _ p k a Hno Hm Hp) as [-> ->]. eexists _, _. split; [reflexivity|]. unfold stack_rows. apply map_length. }
  destruct (merged_root _ _ _ _ Hne Hn Hm) as (l0 & El & Hl0).
  assert (Hlt : i < length bs) by (apply nth_error_Some; congruence).
  assert (Hsel : selected (length bs) (IInt (Z.of_nat i)) = Some [i]) by (cbn [selected]; rewrite pick_nat by exact Hlt; reflexivity).
  destruct (C19_getitem_lemma r _ _ _ l0 El Hl0 (proj1 Hm) Hal Hsel) as (s & Hg & Hp).
  exists r, s. split; [exact Hr|]. split; [exact Hg|]. intros p k a Ha.
  destruct (proj2 Hm p) as (M1 & _ & _). assert (Hra := M1 ltac:(exists b, k, a; auto)).
  specialize (Hp p). rewrite Hra in Hp. rewrite Hp.
  destruct (Ht b Hb) as (_ & _ & T3 & _). destruct (T3 p k a Ha) as [-> _].
  do 2 f_equal. unfold picked. cbn [map nth]. unfold stack_rows.
  rewrite (nth_indep _ _ (match at_path p b with Some (Leaf _ a) => a | _ => padding (fst (ty p)) (snd (ty p)) end)) by (now rewrite map_length).
  rewrite (map_nth (fun b => match at_path p b with Some (Leaf _ a) => a | _ => padding (fst (ty p)) (snd (ty p)) end)).
  apply nth_error_nth with (d := b) in Hi. rewrite Hi, Ha. reflexivity.
Qed.

(** ** Item assignment *)
(** b[ix] = b[ix] changes nothing, for batches without None. *)
Lemma write_at_self ix n ps (l : list nd) r x : selected n ix = Some ps -> length l = n ->
  write_at ps (match ix with IInt _ => [nth (hd 0 ps) l (Sc CNan)] | _ => map (fun i => nth i l (Sc CNan)) ps end) r = Some x -> nth_error l r = Some x.
Proof.
  intros Hs Hl. assert (E : match ix with IInt _ => [nth (hd 0 ps) l (Sc CNan)] | _ => map (fun i => nth i l (Sc CNan)) ps end = map (fun i => nth i l (Sc CNan)) ps).
  { destruct ix as [i| |]; try reflexivity. cbn in Hs. destruct (pick_one n i); [|discriminate]. injection Hs as <-. reflexivity. }
  rewrite E. clear E. unfold write_at. destruct (find _ _) as [[i y]|] eqn:F; [|discriminate]. cbn. intros [= <-].
  apply find_some in F. destruct F as [Hin Hi]. cbn in Hi. apply Nat.eqb_eq in Hi. subst i.
  apply in_rev in Hin. pose proof (selected_lt _ _ _ Hs) as Hlt. clear Hs ix.
  induction ps as [|j ps IH]; [contradiction|]. inversion Hlt; subst. cbn in Hin. destruct Hin as [[= -> <-]|Hin]; [|auto].
  now apply nth_error_nth'.
Qed.
Lemma typed_nth k sh (l : list nd) i : Forall (typed k sh) l -> i < length l -> typed k sh (nth i l (Sc CNan)).
Proof. intros H Hi. rewrite Forall_forall in H. apply H. now apply nth_In. Qed.
Lemma C94_self_assign_partial_lemma : forall (ty : list string -> akind * list nat) (b : bval) (n : nat) (ix : index) (ps : list nat) (l0 : list (string * bval)),
  b = Node l0 -> l0 <> [] -> distinct b -> no_none b ->
  (forall p k a, at_path p b = Some (Leaf k a) -> typed k (n :: snd (ty p)) a) ->
  selected n ix = Some ps ->
  exists v b', bgetitem b ix = Ok v /\ bset b ix v = (b', None) /\
    forall p k a, at_path p b = Some (Leaf k a) -> at_path p b' = Some (Leaf k a).
Proof.
  intros ty b n ix ps l0 Eb Hl0 Hd Hno Ht Hs.
  assert (Ha : aligned n b).
  { intros p k a Hp. apply Ht in Hp. destruct a as [|rs l]; cbn in Hp; [contradiction|]. exists rs, l. tauto. }
  destruct (C19_getitem_lemma b n ix ps l0 Eb Hl0 Hd Ha Hs) as (v & Hv & Hg).
  destruct (C20_setitem_lemma b v n ix ps Hd Hs) as (b' & Hb' & Hset).
  { intro p. specialize (Hg p). destruct (at_path p b) as [[k a|l|]|] eqn:E.
    - destruct (Ha p k a E) as (rs & l & -> & Hl). rewrite Hg. exists rs, l. split; [reflexivity|]. split; [exact Hl|].
      apply Ht in E. cbn in E. destruct E as (-> & _ & E). pose proof (selected_lt _ _ _ Hs) as Hlt.
      unfold picked, value_shape. destruct ix as [i|z|a0 b0].
      + cbn in Hs. destruct (pick_one n i); [|discriminate]. injection Hs as <-. inversion Hlt; subst. cbn [map nth]. now apply typed_nth.
      + cbn [typed]. split; [reflexivity|]. split; [apply map_length|]. apply Forall_forall. intros x Hx. apply in_map_iff in Hx.
        destruct Hx as (i & <- & Hi). rewrite Forall_forall in Hlt. apply typed_nth; [exact E|]. rewrite Hl. now apply Hlt.
      + cbn [typed]. split; [reflexivity|]. split; [apply map_length|]. apply Forall_forall. intros x Hx. apply in_map_iff in Hx.
        destruct Hx as (i & <- & Hi). rewrite Forall_forall in Hlt. apply typed_nth; [exact E|]. rewrite Hl. now apply Hlt.
    - destruct Hg as (l' & -> & Hk). rewrite Hk. apply incl_refl.
    - now apply Hno in E.
    - exact Logic.I. }
  exists v, b'. split; [exact Hv|]. split; [exact Hb'|]. intros p k a E. specialize (Hset p). specialize (Hg p). rewrite E in Hset, Hg.
  destruct (Ha p k a E) as (rs & l & -> & Hl). destruct Hset as (l' & -> & Hlen & Hrow). do 3 f_equal.
  apply nth_error_ext. intro r. destruct (Nat.lt_ge_cases r (length l)) as [Hr|Hr].
  - rewrite Hrow by exact Hr. rewrite Hg. cbn [new_rows].
    destruct (write_at _ _ _) as [x|] eqn:W; [|reflexivity]. symmetry. apply (write_at_self ix n ps l r x Hs Hl). rewrite <- W. f_equal.
    unfold picked. destruct ix as [i|z|a0 b0]; [|reflexivity|reflexivity].
    cbn in Hs. destruct (pick_one n i); [|discriminate]. injection Hs as <-. reflexivity.
  - rewrite (proj2 (nth_error_None l r)) by lia. apply nth_error_None. lia.
Qed.

(** ** In-place variants *)
Lemma present_iff k b : present k b = None <-> empty_or_missing (at_path [k] b).
Proof.
  split; [apply absent_at|]. intro H. destruct (present k b) eqn:E; [|reflexivity]. now apply present_not_empty in E.
Qed.
Lemma no_partial_cases k bs : bs <> [] -> no_partial bs ->
  (exists vs, all_some (map (present k) bs) = Some vs) \/
  (all_some (map (present k) bs) = None /\ forallb (fun v : option bval => match v with None => true | Some _ => false end) (map (present k) bs) = true).
Proof.
  intros Hne H. pose proof (all_some_spec (map (present k) bs)) as Has. destruct (all_some _) as [vs|]; [left; eauto|right].
  split; [reflexivity|]. apply in_map_iff in Has. destruct Has as (b0 & E0 & H0).
  apply forallb_forall. intros x Hx. apply in_map_iff in Hx. destruct Hx as (b & <- & Hb).
  apply present_iff in E0. apply (H k b0 b H0 Hb), present_iff in E0. now rewrite E0.
Qed.
Lemma mapM_ext_in {X Y} (f g : X -> res Y) l : (forall x, In x l -> f x = g x) -> mapM f l = mapM g l.
Proof.
  induction l as [|x l IH]; intro H; [reflexivity|]. cbn. rewrite (H x (or_introl eq_refl)), IH; [reflexivity|]. intros. apply H. now right.
Qed.
Lemma cat_keys_self fuel self0 bs lens : bs <> [] -> no_partial bs -> cat_keys fuel self0 bs lens = cat_keys fuel [] bs lens.
Proof.
  intros Hne H. destruct fuel as [|fuel]; [reflexivity|]. cbn [cat_keys]. apply mapM_ext_in. intros k _.
  destruct (no_partial_cases k bs Hne H) as [(vs & ->)|[-> ->]]; reflexivity.
Qed.
Lemma stack_keys_self fuel self0 bs : bs <> [] -> no_partial bs -> stack_keys fuel self0 bs = stack_keys fuel [] bs.
Proof.
  intros Hne H. destruct fuel as [|fuel]; [reflexivity|]. cbn [stack_keys]. apply mapM_ext_in. intros k _.
  destruct (no_partial_cases k bs Hne H) as [(vs & ->)|[-> ->]]; reflexivity.
Qed.
(** cat_ on a non-empty batch is the concatenation with it in front, when no key is empty in some
    of the batches only. *)
Lemma C91_cat_inplace_partial_lemma : forall (ty : list string -> akind * list nat) (self : bval) (n : nat) (bns : list (bval * nat)),
  bns <> [] ->
  (forall bn, In bn ((self, n) :: bns) -> well_typed ty (snd bn) (fst bn)) ->
  (forall bn bn', In bn ((self, n) :: bns) -> In bn' ((self, n) :: bns) -> same_structure (fst bn) (fst bn')) ->
  (forall bn, In bn ((self, n) :: bns) -> exists l, fst bn = Node l /\ l <> []) ->
  no_partial (self :: map fst bns) ->
  bcat_ self (map fst bns) = bcat (self :: map fst bns).
Proof.
  intros ty self n bns Hne Ht Hs Hn Hp.
  assert (Hnb : forall b, In b (self :: map fst bns) -> exists l, b = Node l /\ l <> []).
  { change (self :: map fst bns) with (map fst ((self, n) :: bns)). intros b Hb. apply in_map_iff in Hb. destruct Hb as (bn & <- & Hb). now apply Hn. }
  assert (Hfi : forall bs, incl bs (self :: map fst bns) -> filter (fun b => negb (is_reserved b)) bs = bs).
  { intros bs Hi. apply filter_all. intros b Hb. destruct (Hnb b (Hi b Hb)) as (l & -> & Hl). destruct l; [congruence|reflexivity]. }
  assert (Hno : forall bs, incl bs (self :: map fst bns) -> forallb is_node bs = true).
  { intros bs Hi. apply forallb_forall. intros b Hb. destruct (Hnb b (Hi b Hb)) as (l & -> & _). reflexivity. }
  assert (Hd : forall b, In b (self :: map fst bns) -> distinct b).
  { change (self :: map fst bns) with (map fst ((self, n) :: bns)). intros b Hb. apply in_map_iff in Hb. destruct Hb as (bn & <- & Hb). apply (Ht bn Hb). }
  assert (Hst : forall b b', In b (self :: map fst bns) -> In b' (self :: map fst bns) -> same_skel (skeleton b) (skeleton b') = true).
  { intros b b' Hb Hb'. apply same_skel_spec; [now apply Hd|now apply Hd|].
    change (self :: map fst bns) with (map fst ((self, n) :: bns)) in Hb, Hb'. apply in_map_iff in Hb. destruct Hb as (bn & <- & Hb).
    apply in_map_iff in Hb'. destruct Hb' as (bn' & <- & Hb'). now apply Hs. }
  assert (Hsk : forall b bs, In b (self :: map fst bns) -> incl bs (self :: map fst bns) -> forallb (fun c => same_skel (skeleton b) (skeleton c)) bs = true).
  { intros b bs Hb Hi. apply forallb_forall. intros c Hc. apply Hst; [exact Hb|now apply Hi]. }
  assert (Hlen : mapM blen (map fst bns) = Ok (map snd bns)).
  { assert (Ht' : forall bn, In bn bns -> well_typed ty (snd bn) (fst bn)) by (intros; apply Ht; now right). clear -Ht'.
    induction bns as [|bn l IH]; [reflexivity|]. cbn. rewrite (blen_typed ty (snd bn)) by (apply Ht'; now left). cbn. rewrite IH; [reflexivity|]. intros. apply Ht'. now right. }
  assert (Hln : blen self = Ok n) by (apply (blen_typed ty), (Ht (self, n)); now left).
  destruct (Hnb self (or_introl eq_refl)) as (ls & Es & Hls).
  assert (Hres : is_reserved self = false) by (rewrite Es; destruct ls; [congruence|reflexivity]).
  assert (Hi1 : incl (map fst bns) (self :: map fst bns)) by (intros x Hx; now right).
  unfold bcat. unfold bcat_ at 2. cbn [blen bind]. change (0 <? 0) with false. cbv iota.
  rewrite (Hfi _ (incl_refl _)), (Hno _ (incl_refl _)). cbn [negb].
  rewrite (Hsk self _ (or_introl eq_refl) (incl_refl _)). cbn [negb mapM]. rewrite Hln, Hlen. cbn [bind is_reserved items].
  unfold bcat_. rewrite Hln. cbn [bind]. rewrite (Hfi _ Hi1), (Hno _ Hi1), Hlen, Hres. cbn [negb bind].
  assert (HN : map fst bns <> []) by (destruct bns; [congruence|discriminate]).
  rewrite (cat_keys_self _ (items self)) by (try discriminate; exact Hp).
  destruct (map fst bns) as [|b1 bt] eqn:Eb; [congruence|].
  assert (Hb1 : In b1 (self :: b1 :: bt)) by (right; now left).
  destruct (0 <? n); [rewrite (Hsk self _ (or_introl eq_refl) Hi1)|rewrite (Hsk b1 _ Hb1 Hi1)]; reflexivity.
Qed.
Lemma C91_stack_inplace_partial_lemma : forall (self : bval) (bs : list bval),
  bs <> [] -> (forall b, In b (self :: bs) -> exists l, b = Node l /\ l <> []) ->
  no_partial (self :: bs) ->
  bstack_ self bs = bstack (self :: bs).
Proof.
  intros self bs Hne Hn Hp.
  assert (Hfi : forall cs, incl cs (self :: bs) -> filter (fun b => negb (is_reserved b)) cs = cs).
  { intros cs Hi. apply filter_all. intros b Hb. destruct (Hn b (Hi b Hb)) as (l & -> & Hl). destruct l; [congruence|reflexivity]. }
  assert (Hno : forall cs, incl cs (self :: bs) -> forallb is_node cs = true).
  { intros cs Hi. apply forallb_forall. intros b Hb. destruct (Hn b (Hi b Hb)) as (l & -> & _). reflexivity. }
  destruct (Hn self (or_introl eq_refl)) as (ls & Es & Hls).
  assert (Hres : is_reserved self = false) by (rewrite Es; destruct ls; [congruence|reflexivity]).
  assert (Hi1 : incl bs (self :: bs)) by (intros x Hx; now right).
  unfold bstack, bstack_. rewrite (Hfi _ (incl_refl _)), (Hno _ (incl_refl _)), (Hfi _ Hi1), (Hno _ Hi1), Hres. cbn [negb is_reserved items].
  rewrite (stack_keys_self _ (items self)) by (try discriminate; exact Hp).
  destruct bs; [congruence|reflexivity].
Qed.

(** ** dropnull *)
Lemma at_atleast p b : at_path p (atleast_1d b) = match at_path p b with
  | Some (Node l) => Some (atleast_1d (Node l)) | Some x => Some (atleast_1d x) | None => None end.
Proof.
  revert b. induction p as [|k p IH]; intro b; [destruct b; reflexivity|].
  destruct b as [kd [|]|l|]; try reflexivity. cbn [atleast_1d]. rewrite !at_cons.
  rewrite (assoc_map (fun _ => atleast_1d) k l). destruct (assoc k l); [apply IH|reflexivity].
Qed.
Lemma has_null_spec b : distinct b -> no_none b ->
  (has_null b = true <-> exists p k a, at_path p b = Some (Leaf k a) /\ null_nd a = true).
Proof.
  induction b as [k a|l IH|] using bval_ind'; intros Hd Hno.
  - cbn. split; [intro H; exists [], k, a; auto|]. intros ([|] & k' & a' & Hp & H); [|discriminate]. injection Hp as <- <-. exact H.
  - cbn. rewrite existsb_exists. rewrite Forall_forall in IH. split.
    + intros ([k x] & Hin & H). pose proof (In_assoc k x l (Hd [] l eq_refl) Hin) as Ex. cbn in H.
      apply (IH (k, x) Hin) in H.
      * destruct H as (p & k' & a & Hp & H). exists (k :: p), k', a. rewrite at_cons, Ex. auto.
      * now apply (distinct_child (Node l) k x l).
      * intros p Hp. apply (Hno (k :: p)). now rewrite at_cons, Ex.
    + intros ([|k p] & k' & a & Hp & H); [discriminate|]. rewrite at_cons in Hp. destruct (assoc k l) as [x|] eqn:Ex; [|discriminate].
      exists (k, x). pose proof (assoc_In _ _ _ Ex) as Hin. split; [exact Hin|]. apply (IH (k, x) Hin).
      * now apply (distinct_child (Node l) k x l).
      * intros q Hq. apply (Hno (k :: q)). now rewrite at_cons, Ex.
      * exists p, k', a. auto.
  - exfalso. now apply (Hno []).
Qed.
Lemma null_nd_spec a : null_nd a = true <-> exists q, cell_at q a = Some CNan \/ cell_at q a = Some (CO None).
Proof.
  induction a as [c|rs l IH] using nd_ind'.
  - cbn. split.
    + intro H. exists []. destruct c as [| |[|]]; cbn in *; try discriminate; auto.
    + intros ([|] & [H|H]); cbn in H; try discriminate; now injection H as ->.
  - cbn [null_nd]. rewrite existsb_exists. rewrite Forall_forall in IH. split.
    + intros (x & Hin & H). apply (IH x Hin) in H as (q & H). destruct (In_nth_error _ _ Hin) as [i Hi]. exists (i :: q). cbn. now rewrite Hi.
    + intros ([|i q] & H); [destruct H; discriminate|]. cbn in H. destruct (nth_error l i) as [x|] eqn:Ei; [|destruct H; discriminate].
      exists x. apply nth_error_In in Ei. split; [exact Ei|]. apply (IH x Ei). eauto.
Qed.
(** hasnull: some value is None, or some array contains NaN or None. *)
Lemma C95_hasnull_lemma : forall (b : bval), distinct b ->
  (has_null b = true <-> exists p, at_path p b = Some NoneV \/
     exists k a q, at_path p b = Some (Leaf k a) /\ (cell_at q a = Some CNan \/ cell_at q a = Some (CO None))).
Proof.
  intro b. induction b as [k a|l IH|] using bval_ind'; intros Hd.
  - cbn. rewrite null_nd_spec. split; [intros (q & H); exists []; right; exists k, a, q; auto|].
    intros ([|] & [H|(k' & a' & q & Hp & H)]); try discriminate. injection Hp as <- <-. eauto.
  - cbn. rewrite existsb_exists. rewrite Forall_forall in IH. split.
    + intros ([k x] & Hin & H). pose proof (In_assoc k x l (Hd [] l eq_refl) Hin) as Ex. cbn in H.
      apply (IH (k, x) Hin) in H; [|now apply (distinct_child (Node l) k x l)]. destruct H as (p & H). exists (k :: p). rewrite at_cons, Ex. exact H.
    + intros ([|k p] & H); [destruct H as [H|(? & ? & ? & H & _)]; discriminate|]. rewrite at_cons in H.
      destruct (assoc k l) as [x|] eqn:Ex; [|destruct H as [H|(? & ? & ? & H & _)]; discriminate].
      exists (k, x). pose proof (assoc_In _ _ _ Ex) as Hin. split; [exact Hin|]. apply (IH (k, x) Hin); [now apply (distinct_child (Node l) k x l)|]. eauto.
  - cbn. split; [intros _; exists []; now left|reflexivity].
Qed.
Lemma mapM_Forall2 {X Y} (f : X -> res Y) (R : X -> Y -> Prop) l : (forall x, In x l -> exists y, f x = Ok y /\ R x y) ->
  exists ys, mapM f l = Ok ys /\ Forall2 R l ys.
Proof.
  induction l as [|x l IH]; intro H; [exists []; split; [reflexivity|constructor]|].
  destruct (H x (or_introl eq_refl)) as (y & Hy & Hr). destruct IH as (ys & Hys & HR); [intros; apply H; now right|].
  exists (y :: ys). cbn. rewrite Hy. cbn. rewrite Hys. split; [reflexivity|now constructor].
Qed.
Lemma filter_Forall2 {X Y} (f : X -> bool) (g : Y -> bool) (R : X -> Y -> Prop) l ys :
  Forall2 R l ys -> (forall x y, In x l -> R x y -> f x = g y) -> Forall2 R (filter f l) (filter g ys).
Proof.
  induction 1 as [|x y l ys Hr _ IH]; intro H; [constructor|]. cbn. rewrite (H x y (or_introl eq_refl) Hr).
  destruct (g y); [constructor; [exact Hr|]|]; apply IH; intros; apply H; auto; now right.
Qed.
(** On batches of one-dimensional arrays of equal length dropnull keeps exactly the rows without a
    null, provided there is one. *)
Lemma C95_dropnull_partial_lemma : forall (b : bval) (n : nat) (l0 : list (string * bval)) (P : nat -> bool),
  b = Node l0 -> distinct b -> no_none b ->
  (exists p k a, at_path p b = Some (Leaf k a)) ->
  (forall p k a, at_path p b = Some (Leaf k a) -> typed k [n] a) ->
  (forall i, i < n -> (P i = true <-> forall p k rs l c, at_path p b = Some (Leaf k (Ar rs l)) -> nth_error l i = Some (Sc c) -> c <> CNan /\ c <> CO None)) ->
  filter P (seq 0 n) <> [] ->
  exists r, dropnull b = Ok r /\
    forall p k rs l, at_path p b = Some (Leaf k (Ar rs l)) ->
      at_path p r = Some (Leaf k (Ar [] (map (fun i => nth i l (Sc CNan)) (filter P (seq 0 n))))).
Proof.
  intros b n l0 P Eb Hd Hno Hex Ht HP Hkept.
  assert (Hl0 : l0 <> []).
  { intros ->. destruct Hex as ([|] & k & a & Hp); rewrite Eb in Hp; discriminate. }
  assert (Ha : aligned n b).
  { intros p k a Hp. apply Ht in Hp. destruct a as [|rs l]; cbn in Hp; [contradiction|]. exists rs, l. tauto. }
  assert (Hlen : blen b = Ok n).
  { rewrite (blen_spec n b Hd Ha). destruct (leafy b) eqn:El; [reflexivity|]. exfalso. destruct Hex as (p & k & a & Hp).
    pose proof (blen_typed (fun p => match at_path p b with Some (Leaf k _) => (k, []) | _ => (KInt, []) end) n b) as H.
    rewrite (blen_spec n b Hd Ha), El in H. assert (Hn0 : Ok 0 = Ok n).
    { apply H. split; [|split; [exact Hno|split; [exact Hd|]]].
      - intros q k' a' Hq. rewrite Hq. cbn. split; [reflexivity|]. now apply Ht in Hq.
      - intro Hc. exfalso. exact (Hc _ _ _ Hp). }
    injection Hn0 as <-. now apply Hkept. }
  set (ty := fun p => match at_path p b with Some (Leaf k _) => (k, @nil nat) | _ => (KInt, []) end).
  set (R := fun (i : nat) (r : bval) => getitem_spec b r (IInt (Z.of_nat i)) [i]).
  destruct (mapM_Forall2 (fun i => bgetitem b (IInt (Z.of_nat i))) R (seq 0 n)) as (ys & Hys & HR).
  { intros i Hi. apply in_seq in Hi. 
    destruct (C19_getitem_lemma b n (IInt (Z.of_nat i)) [i] l0 Eb Hl0 Hd Ha) as (r & Hr & Hg).
    { cbn [selected]. rewrite pick_nat by lia. reflexivity. }
    exists r. split; [exact Hr|exact Hg]. }
  unfold dropnull. rewrite Hlen, Eb. rewrite Eb in Hys. destruct l0 as [|kx l0]; [congruence|]. cbn [bind]. rewrite Hys. cbn [bind].
  rewrite <- Eb in *. clear Hys.
  (* structure of a row *)
  assert (Rno : forall i r, R i r -> no_none r).
  { intros i r Hr p Hp. specialize (Hr p). destruct (at_path p b) as [[k [|rs l]|l|]|] eqn:E; try congruence.
    - apply Ht in E. contradiction.
    - destruct Hr as (l' & E' & _). congruence. }
  assert (Rd : forall i r, R i r -> distinct r).
  { intros i r Hr p l Hp. specialize (Hr p). destruct (at_path p b) as [[k [|rs l1]|l1|]|] eqn:E; try congruence.
    - apply Ht in E. contradiction.
    - destruct Hr as (l' & E' & Hf). rewrite Hp in E'. injection E' as <-. rewrite Hf. eapply Hd, E. }
  assert (Rleaf : forall i r p k a, R i r -> at_path p r = Some (Leaf k a) -> exists rs l, at_path p b = Some (Leaf k (Ar rs l)) /\ a = nth i l (Sc CNan)).
  { intros i r p k a Hr Hp. specialize (Hr p). destruct (at_path p b) as [[k1 [|rs l1]|l1|]|] eqn:E; try congruence.
    - apply Ht in E. contradiction.
    - rewrite Hp in Hr. injection Hr as -> ->. exists rs, l1. split; reflexivity.
    - destruct Hr as (l' & E' & _). congruence. }
  assert (Rnull : forall i r, In i (seq 0 n) -> R i r -> P i = negb (has_null r)).
  { intros i r Hi Hr. apply in_seq in Hi. pose proof (has_null_spec r (Rd i r Hr) (Rno i r Hr)) as Hn.
    destruct (has_null r) eqn:En; cbn [negb].
    - destruct (P i) eqn:EP; [|reflexivity]. exfalso. destruct (proj1 Hn eq_refl) as (p & k & a & Hp & Hnull).
      destruct (Rleaf i r p k a Hr Hp) as (rs & l & Hb & ->). pose proof (Ht _ _ _ Hb) as Hty. cbn in Hty. destruct Hty as (_ & Hl & Hf).
      assert (Hc : exists c, nth i l (Sc CNan) = Sc c).
      { rewrite Forall_forall in Hf. assert (Hin : In (nth i l (Sc CNan)) l) by (apply nth_In; lia). apply Hf in Hin.
        destruct (nth i l (Sc CNan)); [eauto|contradiction]. }
      destruct Hc as [c Ec]. assert (EP' := proj1 (HP i ltac:(lia)) EP). clear EP. rename EP' into EP. destruct (EP p k rs l c Hb) as [E1 E2].
      { rewrite <- Ec. apply nth_error_nth'. lia. }
      rewrite Ec in Hnull. destruct c as [| |[|]]; cbn in Hnull; congruence.
    - apply (proj2 (HP i ltac:(lia))). intros p k rs l c Hb Hc.
      assert (Hnn : null_cell c = false).
      { destruct (null_cell c) eqn:E; [|reflexivity]. exfalso. assert (false = true); [|discriminate]. apply Hn.
        exists p, k, (Sc c). specialize (Hr p). rewrite Hb in Hr. rewrite Hr. unfold picked. cbn [map nth].
        rewrite (nth_error_nth _ _ _ Hc). auto. }
      destruct c as [| |[|]]; try discriminate; split; discriminate. }
  pose proof (filter_Forall2 P (fun r => negb (has_null r)) R _ _ HR Rnull) as HF.
  set (kept := filter P (seq 0 n)) in *. set (rows' := filter (fun r => negb (has_null r)) ys) in *.
  assert (Hk : forall i, In i kept -> i < n) by (intros i Hi; apply filter_In in Hi; destruct Hi as [Hi _]; apply in_seq in Hi; lia).
  clearbody kept rows'. clear HR Rnull HP ys.
  (* concatenating *)
  assert (Hin : forall r, In r rows' -> exists i, In i kept /\ R i r).
  { clear -HF. induction HF as [|i r ks rs Hr _ IH]; [contradiction|]. intros x [<-|Hx]; [exists i; split; [now left|exact Hr]|].
    destruct (IH x Hx) as (j & Hj & HRj). exists j. split; [now right|exact HRj]. }
  assert (Hpath : forall i r p, i < n -> R i r -> match at_path p b with
     | Some (Leaf k (Ar rs l)) => at_path p (atleast_1d r) = Some (Leaf k (Ar [] [nth i l (Sc CNan)]))
     | Some (Node l) => exists l', at_path p (atleast_1d r) = Some (Node l') /\ map fst l' = map fst l
     | Some _ => False
     | None => at_path p (atleast_1d r) = None end).
  { intros i r p Hi Hr. rewrite at_atleast. specialize (Hr p). destruct (at_path p b) as [[k [|rs l]|l|]|] eqn:E.
    - apply Ht in E. contradiction.
    - rewrite Hr. unfold picked. cbn [map nth]. apply Ht in E. cbn in E. destruct E as (_ & El & Ef).
      rewrite Forall_forall in Ef. assert (Hin' : In (nth i l (Sc CNan)) l) by (apply nth_In; lia). apply Ef in Hin'.
      destruct (nth i l (Sc CNan)); [reflexivity|contradiction].
    - destruct Hr as (l' & -> & Hf). cbn [atleast_1d]. eexists. split; [reflexivity|]. rewrite map_map. exact Hf.
    - now apply Hno in E.
    - now rewrite Hr. }
  set (bns := map (fun r => (atleast_1d r, 1)) rows').
  assert (Hmf : map fst bns = map atleast_1d rows') by (unfold bns; rewrite map_map; reflexivity).
  destruct (C19_cat_lemma ty bns) as (r & Hr & _ & Hm).
  - unfold bns. inversion HF; subst; [congruence|discriminate].
  - intros bn Hbn. apply in_map_iff in Hbn. destruct Hbn as (x & <- & Hx). destruct (Hin x Hx) as (i & Hi & HRi). apply Hk in Hi. cbn [fst snd].
    split; [|split; [|split]].
    + intros p k a Hp. pose proof (Hpath i x p Hi HRi) as H. unfold ty. destruct (at_path p b) as [[k1 [|rs l]|l|]|] eqn:E; try contradiction.
      * rewrite Hp in H. injection H as -> ->. cbn. split; [reflexivity|]. split; [reflexivity|]. split; [reflexivity|].
        apply Ht in E. cbn in E. destruct E as (_ & El & Ef). constructor; [|constructor]. apply (typed_nth k1 []); [exact Ef|lia].
      * destruct H as (l' & H & _). congruence.
      * congruence.
    + intros p Hp. pose proof (Hpath i x p Hi HRi) as H. destruct (at_path p b) as [[k1 [|rs l]|l|]|] eqn:E; try contradiction; try congruence.
      destruct H as (l' & H & _). congruence.
    + intros p l Hp. pose proof (Hpath i x p Hi HRi) as H. destruct (at_path p b) as [[k1 [|rs l1]|l1|]|] eqn:E; try contradiction; try congruence.
      destruct H as (l' & H & Hf). rewrite Hp in H. injection H as <-. rewrite Hf. eapply Hd, E.
    + intro Hc. exfalso. destruct Hex as (p & k & a & Hp). pose proof (Hpath i x p Hi HRi) as H. rewrite Hp in H.
      destruct (Ha p k a Hp) as (rs & l & -> & _). exact (Hc _ _ _ H).
  - intros bn bn' Hbn Hbn' p. apply in_map_iff in Hbn. destruct Hbn as (x & <- & Hx). destruct (Hin x Hx) as (i & Hi & HRi). apply Hk in Hi.
    apply in_map_iff in Hbn'. destruct Hbn' as (x' & <- & Hx'). destruct (Hin x' Hx') as (i' & Hi' & HRi'). apply Hk in Hi'. cbn [fst].
    pose proof (Hpath i x p Hi HRi) as H. pose proof (Hpath i' x' p Hi' HRi') as H'.
    destruct (at_path p b) as [[k1 [|rs l]|l|]|] eqn:E; try contradiction.
    + rewrite H, H'. exact Logic.I.
    + destruct H as (l1 & -> & H1). destruct H' as (l2 & -> & H2). destruct l1 as [|y1 l1], l2 as [|y2 l2]; cbn [structured].
      * exact Logic.I.
      * rewrite <- H2 in H1. discriminate.
      * rewrite <- H1 in H2. discriminate.
      * intro s. rewrite H1, H2. reflexivity.
    + rewrite H, H'. exact Logic.I.
  - intros bn Hbn. apply in_map_iff in Hbn. destruct Hbn as (x & <- & Hx). destruct (Hin x Hx) as (i & Hi & HRi). apply Hk in Hi. cbn [fst].
    pose proof (Hpath i x [] Hi HRi) as H. rewrite Eb in H. cbn [at_path] in H. destruct H as (l' & H & Hf). injection H as ->. exists l'. split; [reflexivity|].
    intros ->. discriminate.
  - rewrite Hmf in *. rewrite Hr. exists r. split; [reflexivity|]. intros p k rs l Hp. destruct (Hm p) as (M1 & _ & _).
    rewrite M1.
    + unfold ty at 1 2. rewrite Hp. cbn [fst snd]. do 3 f_equal. unfold cat_rows, bns, ty. rewrite Hp. cbn [fst snd].
      clear -HF Hk Hpath Hp. induction HF as [|i x ks xs Hx _ IH]; [reflexivity|]. cbn [map flat_map fst snd].
      pose proof (Hpath i x p (Hk i (or_introl eq_refl)) Hx) as H. rewrite Hp in H. rewrite H. cbn [contributed app]. f_equal.
      apply IH. intros j Hj. apply Hk. now right.
    + inversion HF as [|i x ks xs Hx HF' E1 E2]; [exfalso; now apply Hkept|]. exists (atleast_1d x), k, (Ar [] [nth i l (Sc CNan)]).
      split; [now left|]. pose proof (Hpath i x p) as H. rewrite Hp in H. apply H; [|exact Hx]. apply Hk. rewrite <- E1. now left.
Qed.

(** ** Findings *)
Definition cnum (z : Z) : nd := Sc (CN (Q2Qc (inject_Z z))).
Definition ints (l : list Z) : bval := Leaf KInt (Ar [] (map cnum l)).
Definition floats (l : list Q) : bval := Leaf KFloat (Ar [] (map (fun q => Sc (CN (Q2Qc q))) l)).
From Coq Require Import String.
Import List BatchModel.
Local Open Scope string_scope.
Local Open Scope list_scope.
Local Open Scope nat_scope.

(** With a key that is empty in one of the batches, cat_ raises, or leaves the arrays with
    different lengths, where Batch.cat pads. *)
Lemma C91_cat_inplace_refuted_lemma :
  (exists self o r, bcat_ self [o] = Err ValueError /\ bcat [self; o] = Ok r) /\
  (exists self o r r', bcat_ self [o] = Ok r /\ bcat [self; o] = Ok r' /\
     at_path ["a"] r = at_path ["a"] r' /\ at_path ["b"] r <> at_path ["b"] r' /\
     exists rs l, at_path ["b"] r = Some (Leaf KInt (Ar rs l)) /\ length l = 1 /\ blen o = Ok 2).
Proof.
  split.
  - exists (Node [("a", ints [1%Z]); ("b", Node [])]), (Node [("a", ints [2%Z; 3%Z]); ("b", ints [4%Z; 5%Z])]). eexists.
    split; vm_compute; reflexivity.
  - exists (Node [("a", ints [1%Z]); ("b", ints [9%Z])]), (Node [("a", ints [2%Z; 3%Z]); ("b", Node [])]). eexists. eexists.
    split; [vm_compute; reflexivity|]. split; [vm_compute; reflexivity|]. split; [vm_compute; reflexivity|].
    split; [vm_compute; discriminate|]. eexists. eexists. split; [vm_compute; reflexivity|]. split; vm_compute; reflexivity.
Qed.

(** A key that is empty in one batch, integer in the first batch that has it and float in a later
    one: the later values are truncated. *)
Lemma C92_cat_values_refuted_lemma :
  exists b0 b1 b2 r s, bcat [b0; b1; b2] = Ok r /\ bgetitem r (ISlice 2 3) = Ok s /\
    at_path ["a"] b2 = Some (floats [(1#2)%Q]) /\ at_path ["a"] s = Some (ints [0%Z]).
Proof.
  exists (Node [("a", Node []); ("c", ints [1%Z])]), (Node [("a", ints [7%Z]); ("c", ints [1%Z])]), (Node [("a", floats [(1#2)%Q]); ("c", ints [1%Z])]).
  eexists. eexists. split; [vm_compute; reflexivity|]. split; [vm_compute; reflexivity|]. split; vm_compute; reflexivity.
Qed.
(** The same kinds without the empty batch: the values are kept. *)
Lemma C92_cat_values_partial_lemma : forall (ty : list string -> akind * list nat) (bns : list (bval * nat)) (i : nat) (b : bval) (n : nat),
  (forall bn, In bn bns -> well_typed ty (snd bn) (fst bn)) ->
  (forall bn bn', In bn bns -> In bn' bns -> same_structure (fst bn) (fst bn')) ->
  (forall bn, In bn bns -> exists l, fst bn = Node l /\ l <> []) ->
  nth_error bns i = Some (b, n) ->
  exists r s, bcat (map fst bns) = Ok r /\
    bgetitem r (ISlice (offset bns i) (offset bns i + n)) = Ok s /\
    forall p k a, at_path p b = Some (Leaf k a) -> at_path p s = Some (Leaf k a).
Proof. exact C19_cat_slice_lemma. Qed.

(** Stacking nested batches with different keys works, but not when a batch without them is added. *)
Lemma C93_stack_more_refuted_lemma :
  exists b1 b2 b3 r, bstack [b1; b2] = Ok r /\ bstack [b1; b2; b3] = Err ValueError /\ 
    at_path ["a"] b3 = None /\ at_path ["c"] b3 = at_path ["c"] b1.
Proof.
  exists (Node [("a", Node [("x", ints [1%Z])]); ("c", ints [1%Z])]), (Node [("a", Node [("y", ints [1%Z])]); ("c", ints [1%Z])]), (Node [("c", ints [1%Z])]).
  eexists. split; [vm_compute; reflexivity|]. split; [vm_compute; reflexivity|]. split; vm_compute; reflexivity.
Qed.
Lemma C93_stack_more_partial_lemma : forall (ty : list string -> akind * list nat) (bs : list bval),
  bs <> [] -> stack_typed ty bs -> uniform_partial bs ->
  (forall b, In b bs -> exists l, b = Node l /\ l <> []) ->
  exists r, bstack bs = Ok r /\ merged ty (fun p => stack_rows ty p bs) bs r.
Proof. exact C19_stack_partial_lemma. Qed.

(** An unknown key in a nested value raises ValueError after other keys have been written. *)
Lemma C20_nested_unknown_refuted_lemma :
  exists b v b', bset b (IInt 0) v = (b', Some ValueError) /\ at_path ["a"] b' <> at_path ["a"] b /\
    at_path ["n"; "z"] v <> None /\ at_path ["n"; "z"] b = None.
Proof.
  exists (Node [("a", ints [1%Z; 2%Z]); ("n", Node [("x", ints [3%Z; 4%Z])])]),
         (Node [("a", Leaf KInt (cnum 5)); ("n", Node [("x", Leaf KInt (cnum 6)); ("z", Leaf KInt (cnum 7))])]).
  eexists. split; [vm_compute; reflexivity|]. split; [vm_compute; discriminate|]. split; [vm_compute; discriminate|vm_compute; reflexivity].
Qed.

(** A batch holding None cannot be assigned its own row. *)
Lemma C94_self_assign_refuted_lemma :
  exists b v b', bgetitem b (IInt 0) = Ok v /\ bset b (IInt 0) v = (b', Some TypeError).
Proof.
  exists (Node [("a", ints [1%Z; 2%Z]); ("c", NoneV)]). eexists. eexists. split; vm_compute; reflexivity.
Qed.

(** dropnull of a batch without any null: arrays of rows of dimension one or more are flattened. *)
Lemma C95_dropnull_refuted_lemma :
  (exists b r, has_null b = false /\ blen b = Ok 2 /\ dropnull b = Ok r /\ at_path ["b"] r <> at_path ["b"] b /\
     exists l, at_path ["b"] r = Some (Leaf KInt (Ar [] l)) /\ length l = 4) /\
  (exists b, blen b = Ok 1 /\ has_null b = true /\ dropnull b = Ok (Node [])).
Proof.
  split.
  - exists (Node [("a", ints [1%Z; 2%Z]);
                  ("b", Leaf KInt (Ar [2] [Ar [] [cnum 1; cnum 2]; Ar [] [cnum 3; cnum 4]]))]). eexists.
    split; [vm_compute; reflexivity|]. split; [vm_compute; reflexivity|]. split; [vm_compute; reflexivity|].
    split; [vm_compute; discriminate|]. eexists. split; [vm_compute; reflexivity|]. vm_compute. reflexivity.
  - exists (Node [("a", Leaf KFloat (Ar [] [Sc CNan]))]). split; [vm_compute; reflexivity|]. split; vm_compute; reflexivity.
Qed.
