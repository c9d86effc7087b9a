(** * Lemmas about [Batch.cat] *)
From Verif Require Import PyLemmas BatchModel BatchSpec BatchProofs.
Open Scope nat_scope.
Open Scope list_scope.

(** ** Keys *)
Lemma dedup_In k l : In k (dedup l) <-> In k l.
Proof.
  induction l as [|x l IH]; cbn; [tauto|]. rewrite filter_In, IH.
  destruct (String.eqb x k) eqn:E; cbn.
  - apply String.eqb_eq in E. split; [intros [H|[_ H]]; [auto|discriminate]|auto].
  - apply String.eqb_neq in E. tauto.
Qed.
Lemma dedup_NoDup l : NoDup (dedup l).
Proof.
  induction l as [|x l IH]; cbn; constructor.
  - rewrite filter_In, String.eqb_refl. intros [_ H]. discriminate.
  - now apply NoDup_filter.
Qed.
Lemma all_keys_In k bs : In k (all_keys bs) <-> exists b, In b bs /\ In k (map fst (items b)).
Proof. unfold all_keys. rewrite dedup_In, in_flat_map. reflexivity. Qed.
Lemma mapM_keys {X} (f : string -> res (string * X)) (Q : string -> X -> Prop) ks :
  (forall k, In k ks -> exists x, f k = Ok (k, x) /\ Q k x) -> 
  exists l, mapM f ks = Ok l /\ map fst l = ks /\ forall k, In k ks -> exists x, assoc k l = Some x /\ Q k x.
Proof.
  induction ks as [|k ks IH]; intro H.
  - exists []. cbn. repeat split. contradiction.
  - destruct (H k) as (x & Hx & Hq); [now left|].
    destruct IH as (l & Hl & Hk & Hc); [intros; apply H; now right|].
    exists ((k, x) :: l). cbn. rewrite Hx. cbn. rewrite Hl. cbn. split; [reflexivity|]. split; [now rewrite Hk|].
    intros k' [->|Hin]; [rewrite String.eqb_refl; eauto|].
    destruct (String.eqb k' k) eqn:E; [apply String.eqb_eq in E; subst; eauto|auto].
Qed.

(** ** Putting keys together *)
Definition merged_below (ty : list string -> akind * list nat) (rows : list string -> list nd) (bs : list bval) (k : string) (x : bval) : Prop :=
  distinct x /\
  forall p,
    (some_leaf (k :: p) bs -> at_path p x = Some (Leaf (fst (ty (k :: p))) (Ar (snd (ty (k :: p))) (rows (k :: p))))) /\
    (~ some_leaf (k :: p) bs -> (exists b l, In b bs /\ at_path (k :: p) b = Some (Node l)) ->
       exists l', at_path p x = Some (Node l') /\
         forall s, In s (map fst l') <-> exists b l, In b bs /\ at_path (k :: p) b = Some (Node l) /\ In s (map fst l)) /\
    ((forall b, In b bs -> at_path (k :: p) b = None) -> at_path p x = None).
Lemma merged_items ty rows bs l : bs <> [] -> Forall (fun b => is_node b = true) bs ->
  map fst l = all_keys bs ->
  (forall k, In k (all_keys bs) -> exists x, assoc k l = Some x /\ merged_below ty rows bs k x) ->
  merged ty rows bs (Node l).
Proof.
  intros Hbs Hn Hk Hc. rewrite Forall_forall in Hn. split.
  - intros [|k p] l' Hp.
    + cbn in Hp. injection Hp as <-. rewrite Hk. apply dedup_NoDup.
    + rewrite at_cons in Hp. destruct (assoc k l) as [x|] eqn:E; [|discriminate].
      destruct (Hc k) as (x' & Hx & Hd & _).
      { rewrite <- Hk. apply assoc_Some_key. eauto. }
      rewrite E in Hx. injection Hx as <-. eapply Hd, Hp.
  - intros [|k p].
    + split; [|split].
      * intros (b & k & a & Hb & Hp). cbn in Hp. injection Hp as ->. apply Hn in Hb. discriminate.
      * intros _ _. exists l. split; [reflexivity|]. intro s. rewrite Hk, all_keys_In. split.
        -- intros (b & Hb & Hs). exists b, (items b). split; [exact Hb|]. split; [|exact Hs].
           pose proof (Hn _ Hb). destruct b; try discriminate. reflexivity.
        -- intros (b & lb & Hb & Hp & Hs). exists b. split; [exact Hb|]. cbn in Hp. injection Hp as ->. exact Hs.
      * intro H. destruct bs as [|b bs]; [congruence|]. specialize (H b (or_introl eq_refl)). discriminate.
    + rewrite at_cons. destruct (assoc k l) as [x|] eqn:E.
      * destruct (Hc k) as (x' & Hx & Hd & Hp).
        { rewrite <- Hk. apply assoc_Some_key. eauto. }
        rewrite E in Hx. injection Hx as <-. apply Hp.
      * assert (Hno : forall b, In b bs -> at_path (k :: p) b = None).
        { intros b Hb. pose proof (Hn _ Hb) as Hnb. destruct b as [|lb|]; try discriminate. rewrite at_cons.
          destruct (assoc k lb) eqn:Eb; [|reflexivity]. exfalso.
          apply assoc_None in E. apply E. rewrite Hk. apply all_keys_In. exists (Node lb). split; [exact Hb|].
          apply assoc_Some_key. eauto. }
        split; [|split].
        -- intros (b & k' & a & Hb & Hp). rewrite Hno in Hp by exact Hb. discriminate.
        -- intros _ (b & l' & Hb & Hp). rewrite Hno in Hp by exact Hb. discriminate.
        -- reflexivity.
Qed.

(** ** Values without structure: arrays and empty batches *)
Definition flat (k : akind) (rs : list nat) (xn : bval * nat) : Prop :=
  (exists l, fst xn = Leaf k (Ar rs l) /\ typed k (snd xn :: rs) (Ar rs l)) \/ fst xn = Node [].
Definition pres (x : bval) : option bval := if is_reserved x then None else Some x.
Definition contrib (k : akind) (rs : list nat) (xn : bval * nat) : list nd := contributed k rs (snd xn) (Some (fst xn)).
Lemma contrib_typed k rs xn : flat k rs xn -> Forall (typed k rs) (contrib k rs xn) /\ length (contrib k rs xn) = snd xn.
Proof.
  unfold contrib. intros [(l & -> & H)| ->]; cbn.
  - cbn in H. tauto.
  - rewrite repeat_length. split; [|reflexivity]. apply Forall_forall. intros x Hx. apply repeat_spec in Hx. subst.
    apply typed_padding.
Qed.
Definition is_leaf (x : bval) : bool := match x with Leaf _ _ => true | _ => false end.
Lemma flat_shared k rs xns : xns <> [] -> Forall (flat k rs) xns -> forallb (fun xn => is_leaf (fst xn)) xns = true ->
  all_some (map (fun xn => pres (fst xn)) xns) = Some (map fst xns) /\
  forallb is_node (map fst xns) = false /\
  exists ls, leaves (map fst xns) = Some ls /\ kjoins ls = k /\
    nconcat (map snd ls) = Ok (rs, flat_map (contrib k rs) xns) /\
    nmaps k (flat_map (contrib k rs) xns) = Ok (flat_map (contrib k rs) xns).
Proof.
  intros Hne Hf Hl. split; [|split].
  - clear Hne. induction Hf as [|[x n] xns Hx Hf IH]; [reflexivity|]. cbn in *. apply andb_prop in Hl. destruct Hl as [H1 H2].
    destruct x; try discriminate. cbn. now rewrite IH.
  - destruct xns as [|[x n] xns]; [congruence|]. cbn in *. apply andb_prop in Hl. destruct Hl as [H1 H2].
    destruct x; try discriminate. reflexivity.
  - assert (H : exists ls, leaves (map fst xns) = Some ls /\ Forall (fun y => fst y = k) ls /\ length ls = length xns /\
      (xns <> [] -> nconcat (map snd ls) = Ok (rs, flat_map (contrib k rs) xns)) /\
      Forall (typed k rs) (flat_map (contrib k rs) xns)).
    { clear Hne. induction Hf as [|[x n] xns Hx Hf IH].
      - exists []. cbn. repeat split; try constructor. congruence.
      - pose proof (contrib_typed _ _ _ Hx) as [Ht _]. cbn in Hl. apply andb_prop in Hl. destruct Hl as [H1 H2].
        destruct (IH H2) as (ls & Els & Hk & Hlen & Hc & Hty).
        destruct Hx as [(l & E & Hx)|E]; cbn in E; subst x; [|discriminate].
        exists ((k, Ar rs l) :: ls). unfold leaves in *. cbn [map fst all_some]. rewrite Els. cbn [option_map].
        split; [reflexivity|]. split; [constructor; auto|]. split; [cbn; now rewrite Hlen|]. split.
        + intros _. cbn [map snd]. destruct xns as [|xn' xns].
          * destruct ls; [|discriminate]. cbn. now rewrite app_nil_r.
          * destruct ls as [|y ls]; [discriminate|]. specialize (Hc ltac:(congruence)). cbn [map] in *.
            cbn [nconcat]. cbn [nconcat] in Hc. rewrite Hc. cbn [bind fst snd].
            destruct (list_eq_dec Nat.eq_dec rs rs); [|congruence]. reflexivity.
        + cbn [flat_map]. apply Forall_app. split; assumption. }
    destruct H as (ls & Els & Hk & Hlen & Hc & Hty). exists ls. split; [exact Els|]. split.
    { destruct ls as [|y ls]; [destruct xns; [congruence|discriminate]|]. inversion Hk; subst. cbn.
      clear -H2. induction H2 as [|z ls Hz _ IH]; [reflexivity|]. cbn. rewrite Hz.
      replace (kjoin (fst y) (fst y)) with (fst y) by (now destruct (fst y)). exact IH. }
    split; [auto|]. unfold nmaps. apply mapM_id. eapply Forall_impl; [|exact Hty]. intros a Ha. eapply typed_nmap, Ha.
Qed.
Lemma written_seq (d m l t : list nd) : length m = length l -> written (seq (length d) (length l)) l (d ++ m ++ t) = d ++ l ++ t.
Proof.
  unfold written. revert d m. induction l as [|x l IH]; intros d [|y m] H; try discriminate; [reflexivity|].
  cbn [length seq combine fold_left fst snd].
  replace (upd (d ++ (y :: m) ++ t) (length d) x) with ((d ++ [x]) ++ m ++ t).
  - replace (S (length d)) with (length (d ++ [x])) by (rewrite app_length; cbn; lia).
    rewrite IH by (cbn in H; lia). rewrite <- app_assoc. reflexivity.
  - rewrite <- app_assoc. induction d as [|z d IHd]; cbn; [reflexivity|]. f_equal. exact IHd.
Qed.
Lemma selected_slice a b n : a <= b -> b <= n -> selected n (ISlice a b) = Some (seq a (b - a)).
Proof. intros. cbn [selected]. rewrite filter_range. cbn [Nat.add]. f_equal. f_equal; lia. Qed.
Lemma set_slice k rs d l m : typed k (length l :: rs) (Ar rs l) ->
  bset (Leaf k (Ar rs (d ++ repeat (padding k rs) (length l + m)))) (ISlice (length d) (length d + length l)) (Leaf k (Ar rs l)) =
  (Leaf k (Ar rs (d ++ l ++ repeat (padding k rs) m)), None).
Proof.
  intro Ht. cbn [bset].
  rewrite (nset_value k rs _ _ (seq (length d) (length l))).
  - cbn [new_rows]. rewrite repeat_app, written_seq by (now rewrite repeat_length). reflexivity.
  - rewrite selected_slice by (rewrite ?app_length, ?repeat_length; lia). f_equal. f_equal. lia.
  - cbn [value_shape]. rewrite seq_length. exact Ht.
Qed.
Definition sum (l : list nat) : nat := fold_right Nat.add 0 l.
Lemma fill_flat_some k rs total xns : Forall (flat k rs) xns -> forall d,
  fill_partial false total (Some (Leaf k (Ar rs (d ++ repeat (padding k rs) (sum (map snd xns))))))
    (combine (slices (length d) (map snd xns)) (map (fun xn => pres (fst xn)) xns)) =
  Ok (Some (Leaf k (Ar rs (d ++ flat_map (contrib k rs) xns)))).
Proof.
  induction 1 as [|[x n] xns Hx Hf IH]; intro d; [reflexivity|].
  cbn [map snd fst slices combine sum fold_right flat_map]. fold (sum (map snd xns)).
  pose proof (contrib_typed _ _ _ Hx) as [_ Hlen]. cbn in Hlen.
  destruct Hx as [(l & E & Hx)|E]; cbn in E; subst x.
  - change (pres (Leaf k (Ar rs l))) with (Some (Leaf k (Ar rs l))).
    assert (El : length l = n) by (cbn in Hx; tauto). subst n.
    cbn [fill_partial bind]. rewrite set_slice by exact Hx.
    rewrite <- app_length, app_assoc, IH. rewrite <- app_assoc. reflexivity.
  - change (pres (Node [])) with (@None bval). cbn [fill_partial].
    change (contrib k rs (Node [], n)) with (repeat (padding k rs) n).
    rewrite repeat_app, app_assoc.
    replace (length d + n) with (length (d ++ repeat (padding k rs) n)) by (now rewrite app_length, repeat_length).
    rewrite IH, <- app_assoc. reflexivity.
Qed.
Lemma fill_flat_none k rs xns : Forall (flat k rs) xns -> existsb (fun xn => is_leaf (fst xn)) xns = true -> forall off,
  fill_partial false (off + sum (map snd xns)) None
    (combine (slices off (map snd xns)) (map (fun xn => pres (fst xn)) xns)) =
  Ok (Some (Leaf k (Ar rs (repeat (padding k rs) off ++ flat_map (contrib k rs) xns)))).
Proof.
  induction 1 as [|[x n] xns Hx Hf IH]; intros Hex off; [discriminate|].
  cbn [map snd fst slices combine flat_map].
  pose proof Hx as Hx'. destruct Hx as [(l & E & Hx)|E]; cbn in E; subst x.
  - pose proof (fill_flat_some k rs (off + sum (n :: map snd xns)) ((Leaf k (Ar rs l), n) :: xns)
      ltac:(constructor; assumption) (repeat (padding k rs) off)) as H.
    rewrite repeat_length in H. cbn [map snd fst slices combine flat_map] in H. rewrite <- H.
    change (pres (Leaf k (Ar rs l))) with (Some (Leaf k (Ar rs l))). cbn [fill_partial create_value bind].
    rewrite nfull_padding. cbn [padding]. rewrite repeat_app. reflexivity.
  - change (pres (Node [])) with (@None bval). cbn [fill_partial].
    change (contrib k rs (Node [], n)) with (repeat (padding k rs) n).
    cbn [sum fold_right]. fold (sum (map snd xns)). rewrite Nat.add_assoc.
    rewrite IH by exact Hex. rewrite repeat_app, <- app_assoc. reflexivity.
Qed.

(** ** The recursion of [cat] *)
Definition child (k : string) (b : bval) : bval := match assoc k (items b) with Some x => x | None => NoneV end.
Definition loosely_typed (ty : list string -> akind * list nat) (n : nat) (b : bval) : Prop :=
  (forall p k a, at_path p b = Some (Leaf k a) -> k = fst (ty p) /\ typed k (n :: snd (ty p)) a) /\
  (forall p, at_path p b <> Some NoneV) /\
  distinct b.
Lemma depth_child k x l : assoc k l = Some x -> depth x < depth (Node l).
Proof.
  intro H. apply assoc_In in H. cbn [depth]. induction l as [|[k' y] l IH]; [contradiction|].
  cbn in *. destruct H as [[= -> ->]|H]; [lia|]. apply IH in H. lia.
Qed.
Lemma structured_node l : l <> [] -> structured (Some (Node l)) = Some (Some l).
Proof. destruct l; [congruence|reflexivity]. Qed.
Lemma some_leaf_iff p (bns : list (bval * nat)) :
  some_leaf p (map fst bns) <-> existsb (fun bn => match at_path p (fst bn) with Some x => is_leaf x | None => false end) bns = true.
Proof.
  rewrite existsb_exists. split.
  - intros (b & k & a & Hb & Hp). apply in_map_iff in Hb. destruct Hb as (bn & <- & Hb).
    exists bn. split; [exact Hb|]. now rewrite Hp.
  - intros (bn & Hb & H). destruct (at_path p (fst bn)) as [[k a| |]|] eqn:E; try discriminate.
    exists (fst bn), k, a. split; [now apply in_map|exact E].
Qed.
Lemma cat_keys_ok fuel : forall ty bns, bns <> [] ->
  (forall bn, In bn bns -> loosely_typed ty (snd bn) (fst bn)) ->
  (forall bn bn', In bn bns -> In bn' bns -> same_structure (fst bn) (fst bn')) ->
  (forall bn, In bn bns -> exists l, fst bn = Node l /\ l <> []) ->
  (forall bn, In bn bns -> depth (fst bn) <= fuel) ->
  exists l, cat_keys fuel [] (map fst bns) (map snd bns) = Ok l /\
    merged ty (fun p => cat_rows ty p bns) (map fst bns) (Node l).
Proof.
  induction fuel as [|fuel IH]; intros ty bns Hne Ht Hs Hn Hd.
  { destruct bns as [|bn bns]; [congruence|]. destruct (Hn bn (or_introl eq_refl)) as (l & E & Hl).
    specialize (Hd bn (or_introl eq_refl)). rewrite E in Hd. cbn in Hd. lia. }
  cbn [cat_keys].
  match goal with |- context [mapM ?f (all_keys _)] => set (F := f) end.
  destruct (mapM_keys F (merged_below ty (fun p => cat_rows ty p bns) (map fst bns)) (all_keys (map fst bns))) as (l & Hl & Hk & Hc).
  2: { rewrite Hl. exists l. split; [reflexivity|]. apply merged_items; try assumption.
       - destruct bns; [congruence|discriminate].
       - apply Forall_forall. intros b Hb. apply in_map_iff in Hb. destruct Hb as (bn & <- & Hb).
         destruct (Hn bn Hb) as (l' & -> & _). reflexivity. }
  intros k Hk. apply all_keys_In in Hk. destruct Hk as (b1 & Hb1 & Hk1).
  apply in_map_iff in Hb1. destruct Hb1 as (bn1 & <- & Hb1).
  (* every batch has the key *)
  assert (Hall : forall bn, In bn bns -> assoc k (items (fst bn)) = Some (child k (fst bn))).
  { intros bn Hb. destruct (Hn bn Hb) as (l & E & Hl). destruct (Hn bn1 Hb1) as (l1 & E1 & Hl1).
    pose proof (Hs bn bn1 Hb Hb1 []) as H. cbn [at_path] in H. rewrite E, E1, !structured_node in H by assumption.
    rewrite E1 in Hk1. cbn [items] in Hk1. apply H in Hk1. unfold child. rewrite E. cbn [items].
    apply assoc_Some_key in Hk1. destruct Hk1 as [x Hx]. now rewrite Hx. }
  assert (Hat : forall p bn, In bn bns -> at_path (k :: p) (fst bn) = at_path p (child k (fst bn))).
  { intros p bn Hb. destruct (Hn bn Hb) as (l & E & Hl). pose proof (Hall bn Hb) as H. rewrite E in H |- *.
    cbn [items] in H. rewrite at_cons. unfold child. cbn [items]. now rewrite H. }
  set (xns := map (fun bn => (child k (fst bn), snd bn)) bns).
  assert (Hpres : map (present k) (map fst bns) = map (fun xn => pres (fst xn)) xns).
  { unfold xns. rewrite !map_map. apply map_ext_in. intros bn Hb. unfold present. rewrite (Hall bn Hb). reflexivity. }
  assert (Hsnd : map snd xns = map snd bns) by (unfold xns; rewrite map_map; reflexivity).
  assert (Hxne : xns <> []) by (unfold xns; destruct bns; [congruence|discriminate]).
  unfold F. rewrite Hpres. clear F.
  destruct (structured (Some (child k (fst bn1)))) as [[l1|]|] eqn:E1; [| |exfalso; destruct (child k (fst bn1)) as [|[|]|]; discriminate].
  - (* nested batches *)
    assert (Hnode : forall xn, In xn xns -> exists l, fst xn = Node l /\ l <> []).
    { intros xn Hx. apply in_map_iff in Hx. destruct Hx as (bn & <- & Hb). cbn [fst].
      pose proof (Hs bn bn1 Hb Hb1 [k]) as H. rewrite !Hat in H by assumption. cbn [at_path] in H. rewrite E1 in H.
      destruct (child k (fst bn)) as [|[|y l]|]; cbn in H; try contradiction. eexists; split; [reflexivity|discriminate]. }
    assert (Ha : all_some (map (fun xn => pres (fst xn)) xns) = Some (map fst xns)).
    { clear -Hnode. induction xns as [|xn xns IHx]; [reflexivity|]. cbn [map all_some].
      destruct (Hnode xn (or_introl eq_refl)) as (l & E & Hl). rewrite E. destruct l; [congruence|]. cbn [pres is_reserved].
      rewrite IHx by (intros; apply Hnode; now right). reflexivity. }
    rewrite Ha.
    replace (forallb is_node (map fst xns)) with true.
    2: { symmetry. apply forallb_forall. intros x Hx. apply in_map_iff in Hx. destruct Hx as (xn & <- & Hx).
         destruct (Hnode xn Hx) as (l & -> & _). reflexivity. }
    rewrite <- Hsnd.
    destruct (IH (fun p => ty (k :: p)) xns Hxne) as (l & Hl & Hdi & Hm).
    + intros xn Hx. apply in_map_iff in Hx. destruct Hx as (bn & <- & Hb). cbn [fst snd].
      destruct (Ht bn Hb) as (T1 & T2 & T3). split; [|split].
      * intros p k' a Hp. rewrite <- Hat in Hp by exact Hb. now apply T1.
      * intros p. rewrite <- Hat by exact Hb. apply T2.
      * intros p l Hp. rewrite <- Hat in Hp by exact Hb. eapply T3, Hp.
    + intros xn xn' Hx Hx'. apply in_map_iff in Hx. destruct Hx as (bn & <- & Hb).
      apply in_map_iff in Hx'. destruct Hx' as (bn' & <- & Hb'). cbn [fst].
      intro p. rewrite <- !Hat by assumption. apply Hs; assumption.
    + exact Hnode.
    + intros xn Hx. apply in_map_iff in Hx. destruct Hx as (bn & <- & Hb). cbn [fst].
      pose proof (Hd bn Hb). pose proof (Hall bn Hb) as H'. destruct (Hn bn Hb) as (l & E & _). rewrite E in *.
      cbn [items] in H'. apply depth_child in H'. lia.
    + rewrite Hl. exists (Node l). split; [reflexivity|].
      split; [exact Hdi|]. intro p. specialize (Hm p). destruct Hm as (M1 & M2 & M3).
      assert (Hsl : some_leaf (k :: p) (map fst bns) <-> some_leaf p (map fst xns)).
      { unfold some_leaf. split.
        - intros (b & k' & a & Hb & Hp). apply in_map_iff in Hb. destruct Hb as (bn & <- & Hb).
          rewrite Hat in Hp by exact Hb. exists (child k (fst bn)), k', a. split; [|exact Hp].
          unfold xns. rewrite map_map. apply in_map_iff. exists bn. auto.
        - intros (b & k' & a & Hb & Hp). unfold xns in Hb. rewrite map_map in Hb. apply in_map_iff in Hb. destruct Hb as (bn & <- & Hb).
          cbn [fst] in Hp. rewrite <- Hat in Hp by exact Hb. exists (fst bn), k', a. split; [|exact Hp]. now apply in_map. }
      assert (Hnd : forall P : list (string * bval) -> Prop, (exists b l, In b (map fst bns) /\ at_path (k :: p) b = Some (Node l) /\ P l) <->
                     (exists b l, In b (map fst xns) /\ at_path p b = Some (Node l) /\ P l)).
      { intro P. split.
        - intros (b & l' & Hb & Hp & HP). apply in_map_iff in Hb. destruct Hb as (bn & <- & Hb).
          rewrite Hat in Hp by exact Hb. exists (child k (fst bn)), l'. split; [|split; assumption].
          unfold xns. rewrite map_map. apply in_map_iff. exists bn. auto.
        - intros (b & l' & Hb & Hp & HP). unfold xns in Hb. rewrite map_map in Hb. apply in_map_iff in Hb. destruct Hb as (bn & <- & Hb).
          cbn [fst] in Hp. rewrite <- Hat in Hp by exact Hb. exists (fst bn), l'. split; [now apply in_map|split; assumption]. }
      split; [|split].
      * intro H. rewrite M1 by (now apply Hsl). do 3 f_equal. unfold cat_rows, xns. rewrite flat_map_concat_map, map_map.
        rewrite flat_map_concat_map. f_equal. apply map_ext_in. intros bn Hb. cbn [fst snd]. now rewrite Hat.
      * intros H1 H2. destruct M2 as (l' & E' & Hl').
        -- intro H. apply H1. now apply Hsl.
        -- destruct H2 as (b & lb & Hb & Hp). destruct (proj1 (Hnd (fun _ => True))) as (b' & l' & ? & ? & _); [eauto 6|eauto].
        -- exists l'. split; [exact E'|]. intro s. rewrite Hl'. symmetry. apply (Hnd (fun l => In s (map fst l))).
      * intro H. apply M3. intros x Hx. unfold xns in Hx. rewrite map_map in Hx. apply in_map_iff in Hx. destruct Hx as (bn & <- & Hb).
        cbn [fst]. rewrite <- Hat by exact Hb. apply H. now apply in_map.
  - (* arrays and empty batches *)
    set (kd := fst (ty [k])). set (rs := snd (ty [k])).
    assert (Hflat : Forall (flat kd rs) xns).
    { apply Forall_forall. intros xn Hx. apply in_map_iff in Hx. destruct Hx as (bn & <- & Hb).
      pose proof (Hs bn bn1 Hb Hb1 [k]) as H. rewrite !Hat in H by assumption. cbn [at_path] in H. rewrite E1 in H.
      destruct (Ht bn Hb) as (T1 & T2 & _). unfold flat. cbn [fst snd].
      destruct (child k (fst bn)) as [k' a|[|y l]|] eqn:Ec; cbn in H; try contradiction.
      - left. destruct (T1 [k] k' a) as [-> Ha]; [rewrite Hat by exact Hb; rewrite Ec; reflexivity|].
        pose proof Ha as Ha'. destruct a as [|rs' l]; cbn in Ha; [contradiction|]. destruct Ha as [-> _].
        exists l. split; [reflexivity|exact Ha'].
      - now right.
      - exfalso. apply (T2 [k]). rewrite Hat by exact Hb. now rewrite Ec. }
    (* what has to be shown of the value *)
    assert (Hleafb : some_leaf [k] (map fst bns) <-> existsb (fun xn => is_leaf (fst xn)) xns = true).
    { rewrite some_leaf_iff. unfold xns. rewrite !existsb_exists. split.
      - intros (bn & Hb & H). rewrite Hat in H by exact Hb. exists (child k (fst bn), snd bn). split; [|exact H].
        apply in_map_iff. exists bn. auto.
      - intros (xn & Hx & H). apply in_map_iff in Hx. destruct Hx as (bn & <- & Hb). exists bn. split; [exact Hb|].
        rewrite Hat by exact Hb. exact H. }
    assert (Hdeep : forall s p b, In b (map fst bns) -> at_path (k :: s :: p) b = None).
    { intros s p b Hb. apply in_map_iff in Hb. destruct Hb as (bn & <- & Hb). rewrite Hat by exact Hb.
      rewrite Forall_forall in Hflat. destruct (Hflat (child k (fst bn), snd bn)) as [(l & E & _)|E].
      - apply in_map_iff. exists bn. auto.
      - cbn [fst] in E. now rewrite E.
      - cbn [fst] in E. now rewrite E. }
    assert (Hrows : flat_map (contrib kd rs) xns = cat_rows ty [k] bns).
    { unfold cat_rows, xns. rewrite !flat_map_concat_map, map_map. f_equal. apply map_ext_in. intros bn Hb.
      rewrite Hat by exact Hb. reflexivity. }
    assert (GL : existsb (fun xn => is_leaf (fst xn)) xns = true ->
       merged_below ty (fun p => cat_rows ty p bns) (map fst bns) k (Leaf kd (Ar rs (flat_map (contrib kd rs) xns)))).
    { intro Hex. split; [intros [|] ? H; discriminate|]. intros [|s p].
      - split; [intros _; rewrite Hrows; reflexivity|]. split; [intro H; exfalso; apply H; now apply Hleafb|].
        intro H. apply Hleafb in Hex. destruct Hex as (b & k' & a & Hb & Hp). rewrite H in Hp by exact Hb. discriminate.
      - split; [intros (b & k' & a & Hb & Hp)|split; [intros _ (b & l & Hb & Hp)|]]; [rewrite Hdeep in Hp by exact Hb; discriminate..|].
        reflexivity. }
    destruct (forallb (fun xn => is_leaf (fst xn)) xns) eqn:Eall.
    + destruct (flat_shared kd rs xns Hxne Hflat Eall) as (H1 & H2 & ls & H3 & H4 & H5 & H6).
      rewrite H1, H2, H3, H5. cbn [bind fst snd]. rewrite H4, H6. cbn [bind].
      eexists. split; [reflexivity|]. apply GL.
      destruct xns as [|xn xns']; [congruence|]. cbn in Eall |- *. apply andb_prop in Eall. destruct Eall as [-> _]. reflexivity.
    + assert (Hno : all_some (map (fun xn => pres (fst xn)) xns) = None).
      { clear -Eall Hflat. induction Hflat as [|[x n] xns Hx Hf IHx]; [discriminate|]. cbn in *.
        destruct Hx as [(l & E & _)|E]; cbn in E; subst x; [|reflexivity].
        cbn in *. now rewrite IHx. }
      rewrite Hno. destruct (existsb (fun xn => is_leaf (fst xn)) xns) eqn:Eex.
      * replace (forallb _ (map _ xns)) with false.
        2: { symmetry. clear -Eex. induction xns as [|[x n] xns IHx]; [discriminate|]. cbn in *.
             destruct x as [|[|]|]; try reflexivity. cbn in *. auto. }
        pose proof (fill_flat_none kd rs xns Hflat Eex 0) as H. rewrite Hsnd in H. cbn [Nat.add repeat app] in H.
        unfold sum in H. cbn [assoc]. rewrite H. cbn [bind]. eexists. split; [reflexivity|]. now apply GL.
      * replace (forallb _ (map _ xns)) with true.
        2: { symmetry. clear -Eex Hflat. induction Hflat as [|[x n] xns Hx Hf IHx]; [reflexivity|]. cbn in *.
             destruct Hx as [(l & E & _)|E]; cbn in E; subst x; [discriminate|]. cbn in *. auto. }
        exists (Node []). split; [reflexivity|]. split; [intros [|] ? H; [injection H as <-; constructor|discriminate]|].
        assert (Hres : forall b, In b (map fst bns) -> at_path [k] b = Some (Node [])).
        { intros b Hb. apply in_map_iff in Hb. destruct Hb as (bn & <- & Hb). rewrite Hat by exact Hb. cbn.
          assert (Hin : In (child k (fst bn), snd bn) xns) by (apply in_map_iff; exists bn; auto).
          rewrite Forall_forall in Hflat. destruct (Hflat _ Hin) as [(l & E & _)|E]; cbn [fst] in E; [|now rewrite E].
          exfalso. assert (existsb (fun xn => is_leaf (fst xn)) xns = true); [|congruence].
          apply existsb_exists. eexists. split; [exact Hin|]. cbn [fst]. now rewrite E. }
        intros [|s p].
        -- split; [intro H; apply Hleafb in H; congruence|]. split.
           ++ intros _ _. exists []. split; [reflexivity|]. intro s. split; [intros []|].
              intros (b & l & Hb & Hp & Hin). rewrite Hres in Hp by exact Hb. injection Hp as <-. contradiction.
           ++ intro H. destruct bns as [|bn bns]; [congruence|]. specialize (H (fst bn) (or_introl eq_refl)).
              rewrite Hres in H by (now left). discriminate.
        -- split; [intros (b & k' & a & Hb & Hp)|split; [intros _ (b & l & Hb & Hp)|]]; [rewrite Hdeep in Hp by exact Hb; discriminate..|].
           reflexivity.
Qed.

(** ** The structure check *)
Lemma same_skel_node l l' : same_skel (SNode l) (SNode l') =
  (length l =? length l') && forallb (fun ks => match assoc (fst ks) l' with Some s' => same_skel (snd ks) s' | None => false end) l.
Proof.
  cbn [same_skel]. f_equal. induction l as [|[k s] l IH]; [reflexivity|]. cbn [forallb fst snd]. rewrite IH.
  destruct (assoc k l'); reflexivity.
Qed.
Lemma skeleton_node l : l <> [] -> skeleton (Node l) = SNode (map (fun kx => (fst kx, skeleton (snd kx))) l).
Proof. destruct l; [congruence|reflexivity]. Qed.
Lemma skeleton_flat b : structured (Some b) = Some None -> skeleton b = SNone.
Proof. destruct b as [|[|]|]; cbn; congruence. Qed.
Lemma same_keys_length (l l' : list (string * bval)) : NoDup (map fst l) -> NoDup (map fst l') -> same_keys l l' -> length l = length l'.
Proof.
  intros H1 H2 H. rewrite <- (map_length fst l), <- (map_length fst l').
  apply Nat.le_antisymm; apply NoDup_incl_length; try assumption; intros k Hk; now apply H.
Qed.
Lemma same_skel_spec b : forall b', distinct b -> distinct b' ->
  (same_skel (skeleton b) (skeleton b') = true <-> same_structure b b').
Proof.
  assert (Hflat : forall b b', structured (Some b) = Some None -> structured (Some b') = Some None -> same_structure b b').
  { intros c c' H H' [|k p].
    - cbn [at_path]. now rewrite H, H'.
    - destruct c as [|[|]|]; try discriminate; destruct c' as [|[|]|]; try discriminate; exact Logic.I. }
  assert (Hcase : forall c, structured (Some c) = Some None \/ exists l, c = Node l /\ l <> []).
  { intros [|[|]|]; cbn; auto. right. eexists. split; [reflexivity|discriminate]. }
  induction b as [k a|l IH|] using bval_ind'; intros b' Hd Hd'.
  - destruct (Hcase b') as [H|(l & -> & Hl)].
    + rewrite (skeleton_flat _ H). cbn. split; auto.
    + rewrite skeleton_node by exact Hl. cbn. split; [discriminate|]. intro H. specialize (H []). cbn [at_path] in H.
      rewrite structured_node in H by exact Hl. contradiction.
  - destruct (Hcase (Node l)) as [Hf|(l0 & [= <-] & Hl)].
    + rewrite (skeleton_flat _ Hf). destruct (Hcase b') as [H|(l' & -> & Hl')].
      * rewrite (skeleton_flat _ H). cbn. split; auto.
      * rewrite skeleton_node by exact Hl'. cbn. split; [discriminate|]. intro H. specialize (H []). cbn [at_path] in H.
        rewrite Hf, structured_node in H by exact Hl'. contradiction.
    + rewrite (skeleton_node l) by exact Hl. destruct (Hcase b') as [H|(l' & -> & Hl')].
      * rewrite (skeleton_flat _ H). cbn. split; [discriminate|]. intro H'. specialize (H' []). cbn [at_path] in H'.
        rewrite H, structured_node in H' by exact Hl. contradiction.
      * rewrite (skeleton_node l') by exact Hl'. rewrite same_skel_node, !map_length.
        rewrite andb_true_iff, Nat.eqb_eq, forallb_forall.
        assert (HA : forall k, assoc k (map (fun kx => (fst kx, skeleton (snd kx))) l') = option_map skeleton (assoc k l')).
        { intro k. exact (assoc_map (fun _ => skeleton) k l'). }
        pose proof (Hd [] l eq_refl) as Hn. pose proof (Hd' [] l' eq_refl) as Hn'.
        rewrite Forall_forall in IH.
        split.
        -- intros [Hlen H].
           assert (Hch : forall k x, assoc k l = Some x -> exists x', assoc k l' = Some x' /\ same_structure x x').
           { intros k x Hx. pose proof (assoc_In _ _ _ Hx) as Hin.
             specialize (H (k, skeleton x)). cbn [fst snd] in H. rewrite HA in H.
             assert (H' := H ltac:(apply in_map_iff; exists (k, x); auto)). destruct (assoc k l') as [x'|] eqn:E; [|discriminate].
             cbn in H'. exists x'. split; [reflexivity|]. apply (IH (k, x) Hin); [| |exact H'].
             - now apply (distinct_child (Node l) k x l).
             - now apply (distinct_child (Node l') k x' l'). }
           assert (Hsk : same_keys l l').
           { assert (Hi : incl (map fst l) (map fst l')).
             { intros k Hk. apply assoc_Some_key in Hk. destruct Hk as [x Hx]. apply Hch in Hx. destruct Hx as (x' & Hx' & _).
               apply assoc_Some_key. eauto. }
             intro k. split; [apply Hi|]. apply (NoDup_length_incl Hn); [rewrite !map_length; lia|exact Hi]. }
           intros [|k p].
           ++ cbn [at_path]. rewrite !structured_node by assumption. exact Hsk.
           ++ rewrite !at_cons. destruct (assoc k l) as [x|] eqn:E.
              ** destruct (Hch k x E) as (x' & -> & Hs). apply Hs.
              ** destruct (assoc k l') as [x'|] eqn:E'; [|exact Logic.I].
                 exfalso. apply assoc_None in E. apply E, Hsk, assoc_Some_key. eauto.
        -- intro H. assert (Hsk : same_keys l l').
           { specialize (H []). cbn [at_path] in H. now rewrite !structured_node in H by assumption. }
           split; [now apply same_keys_length|].
           intros [k s] Hin. apply in_map_iff in Hin. destruct Hin as ([k' x] & [= <- <-] & Hin). cbn [fst snd].
           rewrite HA. pose proof (In_assoc k' x l Hn Hin) as Ex.
           destruct (assoc k' l') as [x'|] eqn:E'.
           ++ cbn [option_map]. apply (IH (k', x) Hin).
              ** now apply (distinct_child (Node l) k' x l).
              ** now apply (distinct_child (Node l') k' x' l').
              ** intro p. specialize (H (k' :: p)). rewrite !at_cons, Ex, E' in H. exact H.
           ++ exfalso. apply assoc_None in E'. apply E', Hsk, assoc_Some_key. eauto.
  - destruct (Hcase b') as [H|(l & -> & Hl)].
    + rewrite (skeleton_flat _ H). cbn. split; auto.
    + rewrite skeleton_node by exact Hl. cbn. split; [discriminate|]. intro H. specialize (H []). cbn [at_path] in H.
      rewrite structured_node in H by exact Hl. contradiction.
Qed.
Lemma same_structure_sym b b' : same_structure b b' -> same_structure b' b.
Proof.
  intros H p. specialize (H p). destruct (structured (at_path p b)) as [[l|]|], (structured (at_path p b')) as [[l'|]|]; try assumption.
  intro k. symmetry. apply H.
Qed.
Lemma same_structure_trans a b c : same_structure a b -> same_structure b c -> same_structure a c.
Proof.
  intros H1 H2 p. specialize (H1 p). specialize (H2 p).
  destruct (structured (at_path p a)) as [[la|]|], (structured (at_path p b)) as [[lb|]|], (structured (at_path p c)) as [[lc|]|];
    try assumption; try contradiction.
  intro k. rewrite (H1 k). apply H2.
Qed.

(** ** Lengths *)
Fixpoint leafy (b : bval) : bool :=
  match b with Leaf _ _ => true | Node l => existsb (fun kx => leafy (snd kx)) l | NoneV => false end.
Lemma leafy_spec b : distinct b -> leafy b = true -> exists p k a, at_path p b = Some (Leaf k a).
Proof.
  induction b as [k a|l IH|] using bval_ind'; intros Hd H; [exists [], k, a; reflexivity| |discriminate].
  cbn in H. apply existsb_exists in H. destruct H as ([k x] & Hin & H). cbn in H.
  pose proof (In_assoc k x l (Hd [] l eq_refl) Hin) as Ex.
  rewrite Forall_forall in IH. destruct (IH (k, x) Hin) as (p & k' & a & Hp).
  - now apply (distinct_child (Node l) k x l).
  - exact H.
  - exists (k :: p), k', a. now rewrite at_cons, Ex.
Qed.
Lemma blen_spec n b : distinct b -> aligned n b -> blen b = Ok (if leafy b then n else 0).
Proof.
  induction b as [k a|l IH|] using bval_ind'; intros Hd Ha; [| |reflexivity].
  - destruct (Ha [] k a eq_refl) as (rs & l & -> & Hl). cbn. now rewrite Hl.
  - cbn [blen leafy].
    match goal with |- bind ?x _ = _ => assert (HM : exists ns, x = Ok ns /\ Forall (fun m => m = n) ns /\ (if existsb (fun kx => leafy (snd kx)) l then n = 0 \/ ns <> [] else ns = [])) end.
    { assert (Hch : Forall (fun kx => blen (snd kx) = Ok (if leafy (snd kx) then n else 0)) l).
      { rewrite Forall_forall in IH |- *. intros [k x] Hin.
        pose proof (In_assoc k x l (Hd [] l eq_refl) Hin) as Ek. apply (IH (k, x) Hin).
        - now apply (distinct_child (Node l) k x l).
        - intros p k' a Hp. apply (Ha (k :: p) k' a). rewrite at_cons, Ek. exact Hp. }
      clear -Hch. induction Hch as [|[k x] l Hx _ (ns & E & Hns & He)]; [exists []; repeat split; constructor|].
      cbn [fst snd existsb] in *. destruct x as [kd a|lx|].
      - rewrite Hx, E. cbn [bind leafy orb]. exists (n :: ns). split; [reflexivity|]. split; [now constructor|]. right. discriminate.
      - rewrite Hx, E. cbn [bind]. destruct (leafy (Node lx)) eqn:El.
        + destruct (n =? 0) eqn:En; [apply Nat.eqb_eq in En|].
          * exists ns. split; [reflexivity|]. split; [exact Hns|]. cbn [orb]. now left.
          * exists (n :: ns). split; [reflexivity|]. split; [now constructor|]. cbn [orb]. right. discriminate.
        + cbn [Nat.eqb orb]. exists ns. repeat split; assumption.
      - rewrite E. cbn [leafy orb]. exists ns. repeat split; assumption. }
    destruct HM as (ns & -> & Hns & He). cbn [bind]. f_equal.
    assert (Hmin : forall ns m, Forall (fun m => m = n) ns -> m = n -> fold_left Nat.min ns m = n).
    { clear. induction ns as [|x ns IH]; intros m H Hm; [exact Hm|]. inversion H; subst. cbn. apply IH; [assumption|lia]. }
    destruct (existsb _ l).
    + destruct ns as [|m ns].
      * destruct He; congruence.
      * inversion Hns; subst. now apply Hmin.
    + subst ns. reflexivity.
Qed.
Lemma well_typed_aligned ty n b : well_typed ty n b -> aligned n b.
Proof.
  intros (H & _) p k a Hp. apply H in Hp. destruct Hp as [_ Hp]. destruct a as [|rs l]; cbn in Hp; [contradiction|].
  exists rs, l. tauto.
Qed.
Lemma blen_typed ty n b : well_typed ty n b -> blen b = Ok n.
Proof.
  intro H. pose proof H as (_ & _ & Hd & H0). rewrite (blen_spec n b Hd (well_typed_aligned _ _ _ H)).
  destruct (leafy b) eqn:E; [reflexivity|]. rewrite H0; [reflexivity|].
  intros p k a Hp. assert (leafy b = true); [|congruence].
  clear -Hp. revert p Hp. induction b as [k' a'|l IH|] using bval_ind'; intros p Hp; [reflexivity| |destruct p; discriminate].
  destruct p as [|s p]; [discriminate|]. rewrite at_cons in Hp. destruct (assoc s l) as [x|] eqn:E; [|discriminate].
  apply assoc_In in E. rewrite Forall_forall in IH. apply (IH (s, x) E) in Hp.
  cbn. apply existsb_exists. exists (s, x). auto.
Qed.

(** ** Batch.cat *)
Lemma depths_le b bs : In b bs -> depth b <= depths bs.
Proof. unfold depths. induction bs as [|c bs IH]; [contradiction|]. cbn. intros [->|H]; [lia|]. apply IH in H. lia. Qed.
Lemma filter_all {X} (f : X -> bool) l : (forall x, In x l -> f x = true) -> filter f l = l.
Proof.
  induction l as [|x l IH]; intro H; [reflexivity|]. cbn. rewrite (H x (or_introl eq_refl)). f_equal. apply IH. intros. apply H. now right.
Qed.

(** Concatenating non-empty batches of the same structure whose arrays agree in kind and row shape
    at every path: the result has, at every path, the rows of all batches in order, a batch with an
    empty batch there contributing padding rows. *)
Lemma C19_cat_lemma : forall (ty : list string -> akind * list nat) (bns : list (bval * nat)),
  bns <> [] ->
  (forall bn, In bn bns -> well_typed ty (snd bn) (fst bn)) ->
  (forall bn bn', In bn bns -> In bn' bns -> same_structure (fst bn) (fst bn')) ->
  (forall bn, In bn bns -> exists l, fst bn = Node l /\ l <> []) ->
  exists r, bcat (map fst bns) = Ok r /\ merged ty (fun p => cat_rows ty p bns) (map fst bns) r.
Proof.
  intros ty bns Hne Ht Hs Hn.
  assert (Hnb : forall b, In b (map fst bns) -> exists l, b = Node l /\ l <> []).
  { intros b Hb. apply in_map_iff in Hb. destruct Hb as (bn & <- & Hb). now apply Hn. }
  unfold bcat, bcat_. cbn [blen bind]. change (0 <? 0) with false. cbv iota.
  rewrite filter_all. 2: { intros b Hb. destruct (Hnb b Hb) as (l & -> & Hl). destruct l; [congruence|reflexivity]. }
  replace (forallb is_node (map fst bns)) with true.
  2: { symmetry. apply forallb_forall. intros b Hb. destruct (Hnb b Hb) as (l & -> & _). reflexivity. }
  cbn [negb].
  destruct bns as [|bn0 bns]; [congruence|]. cbn [map]. set (bs := fst bn0 :: map fst bns).
  replace (forallb _ bs) with true.
  2: { symmetry. apply forallb_forall. intros b Hb. change bs with (map fst (bn0 :: bns)) in Hb. apply in_map_iff in Hb.
       destruct Hb as (bn & <- & Hb). apply same_skel_spec.
       - apply (Ht bn0). now left.
       - now apply (Ht bn).
       - apply Hs; [now left|exact Hb]. }
  cbn [negb].
  assert (HL : mapM blen bs = Ok (map snd (bn0 :: bns))).
  { change bs with (map fst (bn0 :: bns)). clear -Ht. induction (bn0 :: bns) as [|bn l IH]; [reflexivity|]. cbn.
    rewrite (blen_typed ty (snd bn)) by (apply Ht; now left). cbn. rewrite IH; [reflexivity|]. intros. apply Ht. now right. }
  rewrite HL. cbn [bind is_reserved items]. cbv iota.
  destruct (cat_keys_ok (depths bs) ty (bn0 :: bns)) as (l & Hl & Hm).
  - discriminate.
  - intros bn Hb. destruct (Ht bn Hb) as (H1 & H2 & H3 & _). repeat split; try assumption; apply (H1 p k a); assumption.
  - exact Hs.
  - exact Hn.
  - intros bn Hb. apply depths_le. change bs with (map fst (bn0 :: bns)). now apply in_map.
  - change (map fst (bn0 :: bns)) with bs in Hl, Hm. rewrite Hl. cbn [bind]. unfold bs at 1. eauto.
Qed.

(** Empty batches in the list are ignored. *)
Lemma C19_cat_empty_lemma : forall (bs : list bval),
  bcat bs = bcat (filter (fun b => negb (is_reserved b)) bs).
Proof.
  intro bs. unfold bcat, bcat_. cbn [blen bind]. change (0 <? 0) with false. cbv iota.
  set (fl := filter (fun b => negb (is_reserved b)) bs).
  assert (E : filter (fun b => negb (is_reserved b)) fl = fl).
  { apply filter_all. intros x Hx. now apply filter_In in Hx. }
  rewrite E.
  assert (E2 : forallb is_node bs = forallb is_node fl).
  { unfold fl. clear. induction bs as [|b bs IH]; [reflexivity|]. cbn. rewrite IH. destruct b as [|[|]|]; reflexivity. }
  now rewrite E2.
Qed.

(** Two non-empty batches of different structure cannot be concatenated. *)
Lemma C19_cat_structure_lemma : forall (bs : list bval) (b b' : bval),
  (forall c, In c bs -> distinct c /\ exists l, c = Node l) ->
  In b bs -> In b' bs -> b <> Node [] -> b' <> Node [] -> ~ same_structure b b' ->
  bcat bs = Err ValueError.
Proof.
  intros bs b b' Hn Hb Hb' He He' Hs. unfold bcat, bcat_. cbn [blen bind]. change (0 <? 0) with false. cbv iota.
  replace (forallb is_node bs) with true.
  2: { symmetry. apply forallb_forall. intros c Hc. destruct (Hn c Hc) as (_ & l & ->). reflexivity. }
  cbn [negb]. assert (Hf : forall c, In c bs -> c <> Node [] -> In c (filter (fun b => negb (is_reserved b)) bs)).
  { intros c Hc Hne. apply filter_In. split; [exact Hc|]. destruct (Hn c Hc) as (_ & [|] & ->); [congruence|reflexivity]. }
  pose proof (Hf b Hb He) as H1. pose proof (Hf b' Hb' He') as H2.
  assert (Hd : forall c, In c (filter (fun b => negb (is_reserved b)) bs) -> distinct c).
  { intros c Hc. apply filter_In in Hc. now apply Hn. }
  destruct (filter _ bs) as [|b0 fl]; [contradiction|].
  destruct (forallb (fun b1 => same_skel (skeleton b0) (skeleton b1)) (b0 :: fl)) eqn:E; [|reflexivity].
  exfalso. apply Hs. rewrite forallb_forall in E.
  assert (Hd0 := Hd b0 (or_introl eq_refl)).
  pose proof (proj1 (same_skel_spec b0 b Hd0 (Hd b H1)) (E b H1)).
  pose proof (proj1 (same_skel_spec b0 b' Hd0 (Hd b' H2)) (E b' H2)).
  eapply same_structure_trans; [apply same_structure_sym|]; eassumption.
Qed.

(** Slicing the concatenation back. *)
Lemma merged_leaf ty rows bs r p k a : (forall b, In b bs -> at_path p b <> Some NoneV) ->
  merged ty rows bs r -> at_path p r = Some (Leaf k a) -> k = fst (ty p) /\ a = Ar (snd (ty p)) (rows p).
Proof.
  intros Hno [_ H] Hp. specialize (H p). destruct H as (H1 & H2 & H3).
  assert (Hsl : some_leaf p bs \/ ~ some_leaf p bs).
  { clear. induction bs as [|b bs [H|H]]; [right; intros (b & _ & _ & [] & _)|left; destruct H as (c & k & a & ? & ?); exists c, k, a; split; [now right|assumption]|].
    destruct (at_path p b) as [[k a| |]|] eqn:E; [left; exists b, k, a; split; [now left|exact E]|right..];
      intros (c & k & a & [<-|Hc] & Hp); try congruence; apply H; exists c, k, a; auto. }
  destruct Hsl as [Hsl|Hsl].
  - rewrite H1 in Hp by exact Hsl. injection Hp as <- <-. auto.
  - exfalso. assert (Hnd : (exists b l, In b bs /\ at_path p b = Some (Node l)) \/ forall b, In b bs -> at_path p b = None).
    { clear -Hno Hsl. induction bs as [|b bs IH]; [right; contradiction|].
      destruct (at_path p b) as [[k a|l|]|] eqn:E.
      - exfalso. apply Hsl. exists b, k, a. split; [now left|exact E].
      - left. exists b, l. split; [now left|exact E].
      - exfalso. apply (Hno b); [now left|exact E].
      - destruct IH as [(c & l & Hc & Hp)|IH].
        + intros. apply Hno. now right.
        + intros (c & k & a & Hc & Hp). apply Hsl. exists c, k, a. split; [now right|exact Hp].
        + left. exists c, l. split; [now right|exact Hp].
        + right. intros c [<-|Hc]; [exact E|auto]. }
    destruct Hnd as [Hnd|Hnd].
    + destruct (H2 Hsl Hnd) as (l' & E & _). congruence.
    + rewrite H3 in Hp by exact Hnd. discriminate.
Qed.
Lemma contributed_typed ty n b p : well_typed ty n b ->
  length (contributed (fst (ty p)) (snd (ty p)) n (at_path p b)) = n.
Proof.
  intros (H & _). unfold contributed. destruct (at_path p b) as [[k [|rs l]| |]|] eqn:E; try apply repeat_length.
  destruct (H _ _ _ E) as [_ Ht]. cbn in Ht. tauto.
Qed.
Lemma cat_rows_split ty p bns i bn : (forall bn, In bn bns -> well_typed ty (snd bn) (fst bn)) -> nth_error bns i = Some bn ->
  exists d t, cat_rows ty p bns = d ++ contributed (fst (ty p)) (snd (ty p)) (snd bn) (at_path p (fst bn)) ++ t /\ length d = offset bns i.
Proof.
  unfold offset. revert i. induction bns as [|bn0 bns IH]; intros i Ht Hi; [destruct i; discriminate|].
  destruct i as [|i]; cbn in Hi.
  - injection Hi as ->. exists [], (cat_rows ty p bns). split; reflexivity.
  - destruct (IH i) as (d & t & E & Hd); [intros; apply Ht; now right|exact Hi|].
    exists (contributed (fst (ty p)) (snd (ty p)) (snd bn0) (at_path p (fst bn0)) ++ d), t. split.
    + unfold cat_rows in *. cbn [flat_map]. rewrite E, <- app_assoc. reflexivity.
    + rewrite app_length, Hd, contributed_typed by (apply Ht; now left). cbn. reflexivity.
Qed.
Lemma cat_rows_length ty p bns : (forall bn, In bn bns -> well_typed ty (snd bn) (fst bn)) -> length (cat_rows ty p bns) = sum (map snd bns).
Proof.
  intro Ht. unfold cat_rows. induction bns as [|bn bns IH]; [reflexivity|]. cbn [flat_map]. rewrite app_length, IH by (intros; apply Ht; now right).
  rewrite contributed_typed by (apply Ht; now left). reflexivity.
Qed.
Lemma map_nth_seq {X} (d l t : list X) x0 : map (fun i => nth i (d ++ l ++ t) x0) (seq (length d) (length l)) = l.
Proof.
  revert d. induction l as [|x l IH]; intro d; [reflexivity|]. cbn [length seq map]. f_equal.
  - rewrite app_nth2, Nat.sub_diag by lia. reflexivity.
  - specialize (IH (d ++ [x])). rewrite app_length in IH. cbn in IH. rewrite Nat.add_1_r in IH.
    rewrite <- IH at 2. apply map_ext. intro i. rewrite <- app_assoc. reflexivity.
Qed.

(** Slicing the concatenation at the place of one of the batches gives its arrays back. *)
Lemma C19_cat_slice_lemma : forall (ty : list string -> akind * list nat) (bns : list (bval * nat)) (i : nat) (b : bval) (n : nat),
  (forall bn, In bn bns -> well_typed ty (snd bn) (fst bn)) ->
  (forall bn bn', In bn bns -> In bn' bns -> same_structure (fst bn) (fst bn')) ->
  (forall bn, In bn bns -> exists l, fst bn = Node l /\ l <> []) ->
  nth_error bns i = Some (b, n) ->
  exists r s, bcat (map fst bns) = Ok r /\
    bgetitem r (ISlice (offset bns i) (offset bns i + n)) = Ok s /\
    forall p k a, at_path p b = Some (Leaf k a) -> at_path p s = Some (Leaf k a).
Proof.
  intros ty bns i b n Ht Hs Hn Hi. pose proof (nth_error_In _ _ Hi) as Hb.
  destruct (C19_cat_lemma ty bns) as (r & Hr & Hm); try assumption.
  { destruct bns; [destruct i; discriminate|discriminate]. }
  destruct (cat_rows_split ty [] bns i (b, n) Ht Hi) as (d0 & t0 & E0 & Hd0). cbn [fst snd] in E0.
  assert (Hle : offset bns i + n <= sum (map snd bns)).
  { rewrite <- (cat_rows_length ty [] bns Ht), E0, !app_length, Hd0.
    pose proof (contributed_typed ty n b [] (Ht _ Hb)). lia. }
  assert (Hal : aligned (sum (map snd bns)) r).
  { intros p k a Hp. assert (Hno : forall c, In c (map fst bns) -> at_path p c <> Some NoneV).
    { intros c Hc. apply in_map_iff in Hc. destruct Hc as (bn & <- & Hc). apply (Ht bn Hc). }
    destruct (merged_leaf _ _ _ _ p k a Hno Hm Hp) as [-> ->]. eexists _, _. split; [reflexivity|]. now apply cat_rows_length. }
  destruct (Hn _ Hb) as (lb & Eb & Hlb). cbn [fst] in Eb.
  assert (Hroot : exists l0, r = Node l0 /\ l0 <> []).
  { destruct Hm as [_ Hm]. destruct (Hm []) as (_ & M2 & _). destruct M2 as (l' & E & Hk).
    - intros (c & k & a & Hc & Hp). apply in_map_iff in Hc. destruct Hc as (bn & <- & Hc). destruct (Hn bn Hc) as (l & E & _).
      rewrite E in Hp. discriminate.
    - exists b, lb. rewrite Eb. split; [apply in_map_iff; exists (b, n); rewrite Eb in *; auto|reflexivity].
    - cbn in E. injection E as ->. exists l'. split; [reflexivity|]. intros ->.
      destruct lb as [|[s x] lb]; [congruence|]. apply (proj2 (Hk s)). exists b, ((s, x) :: lb). split; [apply in_map_iff; exists (b, n); auto|].
      split; [now rewrite Eb|]. now left. }
  destruct Hroot as (l0 & El0 & Hl0).
  pose proof (selected_slice (offset bns i) (offset bns i + n) (sum (map snd bns)) ltac:(lia) Hle) as Hsel.
  destruct (C19_getitem_lemma r _ _ _ l0 El0 Hl0 (proj1 Hm) Hal Hsel) as (s & Hg & Hp).
  exists r, s. split; [exact Hr|]. split; [exact Hg|]. intros p k a Ha.
  destruct (proj2 Hm p) as (M1 & _ & _).
  assert (Hra := M1 ltac:(exists b, k, a; split; [apply in_map_iff; exists (b, n); auto|exact Ha])).
  specialize (Hp p). rewrite Hra in Hp. rewrite Hp.
  destruct (Ht _ Hb) as (T1 & _). destruct (T1 p k a Ha) as [-> Hta]. cbn [snd] in Hta.
  destruct a as [|rs l]; cbn in Hta; [contradiction|]. destruct Hta as (-> & Hln & _).
  destruct (cat_rows_split ty p bns i (b, n) Ht Hi) as (d & t & E & Hd). cbn [fst snd] in E. rewrite Ha in E. cbn [contributed] in E.
  unfold picked. do 3 f_equal. rewrite E, <- Hd.
  replace (length d + n - length d) with (length l) by lia. apply map_nth_seq.
Qed.
