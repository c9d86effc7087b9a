(** * Lemmas about [Batch.stack] and [create_value]; findings *)
From Verif Require Import PyLemmas BatchModel BatchSpec BatchProofs BatchCatProofs.
Open Scope nat_scope.
Open Scope list_scope.

(** ** create_value *)
Lemma create_items l size stack :
  create_value (Node l) size stack = let* l := mapM (fun kx => let* x := create_value (snd kx) size stack in Ok (fst kx, x)) l in Ok (Node l).
Proof.
  cbn [create_value]. f_equal. induction l as [|[k x] l IH]; [reflexivity|]. cbn.
  destruct (create_value x size stack); [|reflexivity]. cbn. now rewrite IH.
Qed.
Definition created (size : nat) (v c : bval) : Prop :=
  forall q, match at_path q v with
            | Some (Leaf k a) => at_path q c = Some (Leaf k (padding k (size :: shape a)))
            | Some (Node l) => exists l', at_path q c = Some (Node l') /\ map fst l' = map fst l
            | Some NoneV => True
            | None => at_path q c = None
            end.
Lemma create_ok size v : (forall p, at_path p v <> Some NoneV) -> distinct v -> exists c, create_value v size true = Ok c /\ created size v c.
Proof.
  induction v as [k a|l IH|] using bval_ind'; intros Hno Hd.
  - eexists. split; [reflexivity|]. intros [|s q]; [|reflexivity]. cbn [at_path]. now rewrite nfull_padding.
  - rewrite create_items.
    assert (Hch : Forall (fun kx => exists c, create_value (snd kx) size true = Ok c /\ created size (snd kx) c) l).
    { rewrite Forall_forall in IH |- *. intros [k x] Hin.
      pose proof (In_assoc k x l (Hd [] l eq_refl) Hin) as Ek. apply (IH (k, x) Hin).
      - intros p Hp. apply (Hno (k :: p)). rewrite at_cons, Ek. exact Hp.
      - now apply (distinct_child (Node l) k x l). }
    assert (HM : exists l', mapM (fun kx => let* x := create_value (snd kx) size true in Ok (fst kx, x)) l = Ok l' /\
               map fst l' = map fst l /\
               forall k, match assoc k l with
                         | Some x => exists c, assoc k l' = Some c /\ created size x c
                         | None => assoc k l' = None
                         end).
    { clear -Hch. induction Hch as [|[k x] l (c & Hr & Hg) _ (l' & HM & Hk & Hl)].
      - exists []. repeat split.
      - exists ((k, c) :: l'). cbn in *. rewrite Hr. cbn. rewrite HM. cbn. split; [reflexivity|].
        split; [now rewrite Hk|]. intro k'. destruct (String.eqb k' k); [eauto|apply Hl]. }
    destruct HM as (l' & HM & Hk & Hl). rewrite HM. cbn [bind]. eexists. split; [reflexivity|].
    intros [|k p].
    + cbn. eauto.
    + rewrite !at_cons. specialize (Hl k). destruct (assoc k l) as [x|].
      * destruct Hl as (r & -> & Hg). apply Hg.
      * now rewrite Hl.
  - exfalso. now apply (Hno []).
Qed.

(** ** Partial keys *)
Section fill.
Variable ty : list string -> akind * list nat.
Variable v0 : bval.
Definition row (q : list string) (x : option bval) : nd :=
  match x with
  | Some v => match at_path q v with Some (Leaf _ a) => a | _ => padding (fst (ty q)) (snd (ty q)) end
  | None => padding (fst (ty q)) (snd (ty q))
  end.
Definition good (v : bval) : Prop :=
  distinct v /\ (forall q, at_path q v <> Some NoneV) /\
  (forall q k a, at_path q v = Some (Leaf k a) -> k = fst (ty q) /\ typed k (snd (ty q)) a) /\
  (forall q, layout (at_path q v0) (at_path q v)).
Definition inv (done : list (option bval)) (m : nat) (c : bval) : Prop :=
  distinct c /\
  forall q, match at_path q v0 with
            | Some (Leaf _ _) => at_path q c = Some (Leaf (fst (ty q)) (Ar (snd (ty q)) (map (row q) done ++ repeat (padding (fst (ty q)) (snd (ty q))) m)))
            | Some (Node l) => exists l', at_path q c = Some (Node l') /\ same_keys l l'
            | Some NoneV => False
            | None => at_path q c = None
            end.
Lemma pick_nat n i : i < n -> pick_one n (Z.of_nat i) = Some i.
Proof.
  intro H. unfold pick_one. replace (_ && _)%bool with true by (symmetry; apply andb_true_intro; split; lia).
  rewrite Z.mod_small by lia. now rewrite Nat2Z.id.
Qed.
Lemma fill_step c done m v : inv done (S m) c -> good v ->
  exists c', bset c (IInt (Z.of_nat (length done))) v = (c', None) /\ inv (done ++ [Some v]) m c'.
Proof.
  intros [Hd Hc] (Gd & Gn & Gt & Gl). set (n := length done + S m).
  assert (Hsel : selected n (IInt (Z.of_nat (length done))) = Some [length done]).
  { cbn [selected]. rewrite pick_nat by (unfold n; lia). reflexivity. }
  assert (Hlen : forall q, length (map (row q) done ++ repeat (padding (fst (ty q)) (snd (ty q))) (S m)) = n).
  { intro q. rewrite app_length, map_length, repeat_length. reflexivity. }
  destruct (bset_ok n _ _ c Hsel Hd v) as (c' & Hb & Hs).
  { intro q. specialize (Hc q). specialize (Gl q). destruct (at_path q v0) as [[k0 a0|l0|]|] eqn:E0; cbn [layout] in Gl.
    - rewrite Hc. eexists _, _. split; [reflexivity|]. split; [apply Hlen|].
      destruct (at_path q v) as [[k a|l|]|] eqn:E; try contradiction. destruct (Gt q k a E) as [-> Ht]. exact Ht.
    - destruct Hc as (l' & -> & Hk). destruct (at_path q v) as [[k a|l|]|] eqn:E; try contradiction.
      intros s Hs. apply Hk, Gl, Hs.
    - contradiction.
    - now rewrite Hc. }
  exists c'. split; [exact Hb|]. split.
  - intros q l Hq. specialize (Hs q). specialize (Hc q). destruct (at_path q v0) as [[k0 a0|l0|]|].
    + rewrite Hc in Hs. congruence.
    + destruct Hc as (l' & Ec & Hk). rewrite Ec in Hs. destruct Hs as (l'' & E & Hf). rewrite Hq in E. injection E as <-.
      rewrite Hf. eapply Hd, Ec.
    + contradiction.
    + rewrite Hc in Hs. congruence.
  - intro q. specialize (Hs q). specialize (Hc q). specialize (Gl q). destruct (at_path q v0) as [[k0 a0|l0|]|] eqn:E0.
    + rewrite Hc in Hs. rewrite Hs. do 3 f_equal. cbn [layout] in Gl.
      destruct (at_path q v) as [[k a|l|]|] eqn:E; try contradiction. cbn [new_rows]. rewrite map_app, <- app_assoc. cbn [map].
      replace (row q (Some v)) with a by (unfold row; now rewrite E).
      rewrite <- (map_length (row q) done).
      exact (written_seq (map (row q) done) [padding (fst (ty q)) (snd (ty q))] [a] (repeat (padding (fst (ty q)) (snd (ty q))) m) eq_refl).
    + destruct Hc as (l' & Ec & Hk). rewrite Ec in Hs. destruct Hs as (l'' & E & Hf). exists l''. split; [exact E|].
      intro s. rewrite (Hk s), Hf. reflexivity.
    + contradiction.
    + now rewrite Hc in Hs.
Qed.
Lemma inv_skip c done m : inv done (S m) c -> inv (done ++ [None]) m c.
Proof.
  intros [Hd Hc]. split; [exact Hd|]. intro q. specialize (Hc q). destruct (at_path q v0) as [[k a|l|]|]; try assumption.
  rewrite Hc. do 3 f_equal. rewrite map_app, <- app_assoc. reflexivity.
Qed.
Lemma fill_some total xs : Forall (fun x => forall v, x = Some v -> good v) xs -> forall c done, inv done (length xs) c ->
  exists c', fill_partial true total (Some c) (combine (map (fun i => IInt (Z.of_nat i)) (seq (length done) (length xs))) xs) = Ok (Some c') /\
    inv (done ++ xs) 0 c'.
Proof.
  induction 1 as [|x xs Hx Hxs IH]; intros c done Hi.
  - exists c. split; [reflexivity|]. now rewrite app_nil_r.
  - cbn [length seq map combine]. destruct x as [v|]; cbn [fill_partial bind].
    + destruct (fill_step c done (length xs) v Hi (Hx v eq_refl)) as (c1 & -> & Hi1).
      destruct (IH c1 _ Hi1) as (c' & Hc' & Hi'). rewrite app_length in Hc'. cbn in Hc'. rewrite Nat.add_1_r in Hc'.
      exists c'. split; [exact Hc'|]. now rewrite <- app_assoc in Hi'.
    + apply inv_skip in Hi. destruct (IH c _ Hi) as (c' & Hc' & Hi'). rewrite app_length in Hc'. cbn in Hc'. rewrite Nat.add_1_r in Hc'.
      exists c'. split; [exact Hc'|]. now rewrite <- app_assoc in Hi'.
Qed.
Lemma inv_created n c : good v0 -> created n v0 c -> inv [] n c.
Proof.
  intros (Gd & Gn & Gt & _) Hc. split.
  - intros q l Hq. specialize (Hc q). destruct (at_path q v0) as [[k a|l0|]|] eqn:E; [congruence| |now apply Gn in E|congruence].
    destruct Hc as (l' & E' & Hf). rewrite Hq in E'. injection E' as <-. rewrite Hf. eapply Gd, E.
  - intro q. specialize (Hc q). destruct (at_path q v0) as [[k a|l0|]|] eqn:E.
    + destruct (Gt q k a E) as [-> Ht]. rewrite Hc. cbn [padding map app]. rewrite (typed_shape _ _ _ Ht). reflexivity.
    + destruct Hc as (l' & E' & Hf). exists l'. split; [exact E'|]. intro s. now rewrite Hf.
    + now apply Gn in E.
    + exact Hc.
Qed.
End fill.
Lemma fill_none ty v0 xs0 xs : good ty v0 v0 -> Forall (fun x => forall v, x = Some v -> good ty v0 v) xs ->
  let all := repeat None xs0 ++ Some v0 :: xs in
  exists c', fill_partial true (length all) None (combine (map (fun i => IInt (Z.of_nat i)) (seq 0 (length all))) all) = Ok (Some c') /\ inv ty v0 all 0 c'.
Proof.
  intros G0 Hxs all.
  assert (H : forall m done total, total = length done + m + S (length xs) -> (forall x, In x done -> x = None) ->
     exists c', fill_partial true total None (combine (map (fun i => IInt (Z.of_nat i)) (seq (length done) (m + S (length xs)))) (repeat None m ++ Some v0 :: xs)) = Ok (Some c') /\
       inv ty v0 (done ++ repeat None m ++ Some v0 :: xs) 0 c').
  { induction m as [|m IH]; intros done total Htot Hdone.
    - cbn [Nat.add repeat app seq map combine fill_partial].
      destruct (create_ok total v0) as (c & Hc & Hcr); [apply G0|apply G0|]. rewrite Hc. cbn [bind].
      pose proof (inv_created ty v0 total c G0 Hcr) as Hi.
      assert (Hi' : inv ty v0 done (S (length xs)) c).
      { destruct Hi as [Hd Hi]. split; [exact Hd|]. intro q. specialize (Hi q).
        destruct (at_path q v0) as [[k a|l|]|]; try assumption. rewrite Hi. cbn [map app]. do 3 f_equal.
        rewrite Htot, Nat.add_0_r, repeat_app. f_equal. clear -Hdone. induction done as [|x done IHd]; [reflexivity|]. cbn.
        rewrite IHd by (intros; apply Hdone; now right). f_equal. rewrite (Hdone x) by now left. reflexivity. }
      destruct (fill_step ty v0 c done (length xs) v0 Hi' G0) as (c1 & -> & Hi1).
      destruct (fill_some ty v0 total xs Hxs c1 _ Hi1) as (c' & Hc' & Hi2).
      rewrite app_length in Hc'. cbn in Hc'. rewrite Nat.add_1_r in Hc'. exists c'. split; [exact Hc'|].
      now rewrite <- app_assoc in Hi2.
    - cbn [Nat.add repeat app seq map combine fill_partial].
      destruct (IH (done ++ [None]) total) as (c' & Hc' & Hi').
      + rewrite app_length. cbn. lia.
      + intros x Hx. apply in_app_iff in Hx. destruct Hx as [Hx|[Hx|[]]]; auto.
      + rewrite app_length in Hc'. cbn [length] in Hc'. rewrite Nat.add_1_r in Hc'. exists c'. split; [exact Hc'|].
        rewrite <- app_assoc in Hi'. exact Hi'. }
  destruct (H xs0 [] (length all)) as (c' & Hc' & Hi').
  - unfold all. rewrite app_length, repeat_length. reflexivity.
  - contradiction.
  - exists c'. split; [|exact Hi']. unfold all at 2. rewrite app_length, repeat_length. exact Hc'.
Qed.
Lemma split_first {X} (xs : list (option X)) : existsb (fun x => match x with Some _ => true | None => false end) xs = true ->
  exists m v t, xs = repeat None m ++ Some v :: t.
Proof.
  induction xs as [|[v|] xs IH]; intro H; [discriminate|exists 0, v, xs; reflexivity|].
  destruct (IH H) as (m & v & t & ->). exists (S m), v, t. reflexivity.
Qed.

(** ** The recursion of [stack] *)
Lemma present_at k q b v : present k b = Some v -> at_path (k :: q) b = at_path q v.
Proof.
  unfold present. destruct (assoc k (items b)) as [x|] eqn:E; [|discriminate]. destruct (is_reserved x); [discriminate|]. intros [= ->].
  destruct b; try discriminate. rewrite at_cons. cbn in E. now rewrite E.
Qed.
Lemma absent_at k b : present k b = None -> empty_or_missing (at_path [k] b).
Proof.
  unfold present, empty_or_missing. destruct b as [|l|]; [now left| |now left]. rewrite at_cons. cbn [items].
  destruct (assoc k l) as [[|[|]|]|]; cbn; try discriminate; auto.
Qed.
Lemma present_not_empty k b v : present k b = Some v -> ~ empty_or_missing (at_path [k] b).
Proof.
  intros H. rewrite (present_at k [] b v H). cbn. unfold present in H. destruct (assoc k (items b)) as [x|]; [|discriminate].
  destruct (is_reserved x) eqn:E; [discriminate|]. injection H as ->. intros [H|H]; [discriminate|]. injection H as ->. discriminate.
Qed.
Lemma absent_below k s p b : present k b = None -> at_path (k :: s :: p) b = None.
Proof.
  intro H. apply absent_at in H. change (k :: s :: p) with ([k] ++ (s :: p)). rewrite at_app.
  destruct H as [->| ->]; reflexivity.
Qed.
Lemma stack_shared k sh ls : ls <> [] -> Forall (fun y => fst y = k /\ typed k sh (snd y)) ls ->
  kjoins ls = k /\ nstack (map snd ls) = Ok (Ar sh (map snd ls)) /\ nmap (conv k) (Ar sh (map snd ls)) = Ok (Ar sh (map snd ls)).
Proof.
  intros Hne H. split; [|split].
  - destruct ls as [|y ls]; [congruence|]. inversion H as [|? ? [H1 _] H2]; subst. cbn.
    clear -H2. induction H2 as [|z ls [Hz _] _ IH]; [reflexivity|]. cbn. rewrite Hz.
    replace (kjoin (fst y) (fst y)) with (fst y) by (now destruct (fst y)). exact IH.
  - destruct ls as [|y ls]; [congruence|]. cbn [map nstack].
    assert (Hy : shape (snd y) = sh) by (inversion H as [|? ? [_ H1] H2]; subst; eapply typed_shape, H1).
    rewrite Hy. replace (forallb _ _) with true; [reflexivity|]. symmetry. apply forallb_forall.
    intros a Ha. rewrite Forall_forall in H. change (In a (map snd (y :: ls))) in Ha. apply in_map_iff in Ha. destruct Ha as (z & <- & Hz).
    destruct (H z Hz) as [_ Ht]. rewrite (typed_shape _ _ _ Ht). destruct (list_eq_dec _ sh sh); [reflexivity|congruence].
  - rewrite nmap_Ar, mapM_id; [reflexivity|]. apply Forall_forall. intros a Ha. apply in_map_iff in Ha. destruct Ha as (z & <- & Hz).
    rewrite Forall_forall in H. destruct (H z Hz) as [_ Ht]. eapply typed_nmap, Ht.
Qed.
Lemma all_some_spec {X} (l : list (option X)) : match all_some l with Some r => l = map Some r | None => In None l end.
Proof.
  induction l as [|[x|] l IH]; cbn; [reflexivity| |now left]. destruct (all_some l); cbn; [now rewrite IH|now right].
Qed.
Lemma stack_keys_ok fuel : forall ty bs, bs <> [] -> stack_typed ty bs -> uniform_partial bs ->
  (forall b, In b bs -> exists l, b = Node l /\ l <> []) ->
  (forall b, In b bs -> depth b <= fuel) ->
  exists l, stack_keys fuel [] bs = Ok l /\ merged ty (fun p => stack_rows ty p bs) bs (Node l).
Proof.
  induction fuel as [|fuel IH]; intros ty bs Hne Ht Hu Hn Hd.
  { destruct bs as [|b bs]; [congruence|]. destruct (Hn b (or_introl eq_refl)) as (l & -> & Hl).
    specialize (Hd (Node l) (or_introl eq_refl)). cbn in Hd. lia. }
  cbn [stack_keys].
  match goal with |- context [mapM ?f (all_keys _)] => set (F := f) end.
  destruct (mapM_keys F (merged_below ty (fun p => stack_rows ty p bs) bs) (all_keys bs)) as (l & Hl & Hk & Hc).
  2: { rewrite Hl. exists l. split; [reflexivity|]. apply merged_items; try assumption.
       apply Forall_forall. intros b Hb. destruct (Hn b Hb) as (l' & -> & _). reflexivity. }
  intros k Hk. unfold F. clear F. pose proof (all_some_spec (map (present k) bs)) as Has.
  destruct (all_some (map (present k) bs)) as [vs|] eqn:Eas.
  - (* shared *)
    assert (Hvs : forall b, In b bs -> exists v, present k b = Some v /\ In v vs).
    { intros b Hb. assert (Hin : In (present k b) (map Some vs)) by (rewrite <- Has; now apply in_map).
      apply in_map_iff in Hin. destruct Hin as (v & E & Hv). eauto. }
    assert (Hsv : forall v, In v vs -> exists b, In b bs /\ present k b = Some v).
    { intros v Hv. apply (in_map Some) in Hv. rewrite <- Has in Hv. apply in_map_iff in Hv. destruct Hv as (b & E & Hb). eauto. }
    assert (Hvne : vs <> []) by (destruct vs; [|discriminate]; destruct bs; [congruence|discriminate]).
    destruct (forallb is_node vs) eqn:Enode.
    + destruct (IH (fun p => ty (k :: p)) vs Hvne) as (l & Hl & Hdi & Hm).
      * intros v Hv. destruct (Hsv v Hv) as (b & Hb & Hp). destruct (Ht b Hb) as (T1 & T2 & T3 & T4). split; [|split; [|split]].
        -- intros p l Hl. apply (T1 (k :: p)). rewrite (present_at _ _ _ _ Hp). exact Hl.
        -- intros p. rewrite <- (present_at _ p _ _ Hp). apply T2.
        -- intros p k' a Ha. apply (T3 (k :: p)). rewrite (present_at _ _ _ _ Hp). exact Ha.
        -- intros p k' a v' l Hv' Ha Hl. destruct (Hsv v' Hv') as (b' & Hb' & Hp').
           apply (T4 (k :: p) k' a b' l Hb'); [rewrite (present_at _ _ _ _ Hp)|rewrite (present_at _ _ _ _ Hp')]; assumption.
      * intros p v0 v v' q Hv0 Hv Hv'. destruct (Hsv v0 Hv0) as (b0 & Hb0 & Hp0). destruct (Hsv v Hv) as (b & Hb & Hp).
        destruct (Hsv v' Hv') as (b' & Hb' & Hp'). pose proof (Hu (k :: p) b0 b b' q Hb0 Hb Hb') as H.
        rewrite <- app_comm_cons in H.
        rewrite (present_at _ _ _ _ Hp0), !(present_at _ _ _ _ Hp), !(present_at _ _ _ _ Hp') in H. exact H.
      * intros v Hv. rewrite forallb_forall in Enode. specialize (Enode v Hv). destruct v as [|l|]; try discriminate.
        exists l. split; [reflexivity|]. intros ->. destruct (Hsv _ Hv) as (b & Hb & Hp). unfold present in Hp.
        destruct (assoc k (items b)) as [x|]; [|discriminate]. destruct (is_reserved x) eqn:E; [discriminate|]. injection Hp as ->. discriminate.
      * intros v Hv. destruct (Hsv v Hv) as (b & Hb & Hp). specialize (Hd b Hb). destruct (Hn b Hb) as (l & -> & _).
        unfold present in Hp. cbn [items] in Hp. destruct (assoc k l) as [x|] eqn:E; [|discriminate]. apply depth_child in E.
        destruct (is_reserved x); [discriminate|]. injection Hp as ->. lia.
      * rewrite Hl. exists (Node l). split; [reflexivity|]. split; [exact Hdi|]. intro p. specialize (Hm p). destruct Hm as (M1 & M2 & M3).
        split; [|split].
        -- intros (b & k' & a & Hb & Hp). destruct (Hvs b Hb) as (v & Hv & Hiv).
           rewrite M1 by (exists v, k', a; split; [exact Hiv|now rewrite <- (present_at _ _ _ _ Hv)]).
           do 3 f_equal. unfold stack_rows.
           assert (E : map (fun b => at_path (k :: p) b) bs = map (at_path p) vs).
           { clear -Has. revert vs Has. induction bs as [|b bs IHb]; intros [|v vs] Has; try discriminate; [reflexivity|].
             cbn [map] in *. injection Has as E1 E2. rewrite (present_at _ _ _ _ E1). f_equal. now apply IHb. }
           rewrite <- (map_map (at_path p) (fun o => match o with Some (Leaf _ a) => a | _ => _ end)).
           rewrite <- E, map_map. reflexivity.
        -- intros H1 (b & lb & Hb & Hp). destruct M2 as (l' & E & Hk').
           ++ intros (v & k' & a & Hv & Ha). destruct (Hsv v Hv) as (b' & Hb' & Hp'). apply H1. exists b', k', a. split; [exact Hb'|].
              now rewrite (present_at _ _ _ _ Hp').
           ++ destruct (Hvs b Hb) as (v & Hv & Hiv). exists v, lb. split; [exact Hiv|]. now rewrite <- (present_at _ _ _ _ Hv).
           ++ exists l'. split; [exact E|]. intro s. rewrite Hk'. split.
              ** intros (v & lv & Hv & Ha & Hs). destruct (Hsv v Hv) as (b' & Hb' & Hp'). exists b', lv. split; [exact Hb'|].
                 split; [now rewrite (present_at _ _ _ _ Hp')|exact Hs].
              ** intros (b' & lv & Hb' & Ha & Hs). destruct (Hvs b' Hb') as (v & Hv & Hiv). exists v, lv. split; [exact Hiv|].
                 split; [now rewrite <- (present_at _ _ _ _ Hv)|exact Hs].
        -- intro H. apply M3. intros v Hv. destruct (Hsv v Hv) as (b & Hb & Hp). rewrite <- (present_at _ _ _ _ Hp). now apply H.
    + (* arrays *)
      assert (Hleaf : forall v, In v vs -> exists k' a, v = Leaf k' a).
      { assert (Hex : exists v0, In v0 vs /\ is_node v0 = false).
        { clear -Enode. induction vs as [|v vs IHv]; [discriminate|]. cbn in Enode. destruct (is_node v) eqn:E.
          - destruct (IHv Enode) as (v0 & ? & ?). exists v0. split; [now right|assumption].
          - exists v. split; [now left|exact E]. }
        destruct Hex as (v0 & Hv0 & En0). destruct (Hsv v0 Hv0) as (b0 & Hb0 & Hp0). destruct (Ht b0 Hb0) as (_ & T2 & _ & T4).
        assert (E0 : exists k0 a0, v0 = Leaf k0 a0).
        { destruct v0 as [k0 a0| |]; [eauto|discriminate|]. exfalso. apply (T2 [k]). now rewrite (present_at _ _ _ _ Hp0). }
        destruct E0 as (k0 & a0 & ->). intros v Hv. destruct (Hsv v Hv) as (b & Hb & Hp).
        destruct v as [k' a|l|]; [eauto| |].
        - exfalso. assert (l = []).
          { apply (T4 [k] k0 a0 b l Hb); [now rewrite (present_at _ _ _ _ Hp0)|now rewrite (present_at _ _ _ _ Hp)]. }
          subst. apply (present_not_empty _ _ _ Hp). right. now rewrite (present_at _ _ _ _ Hp).
        - exfalso. destruct (Ht b Hb) as (_ & T2' & _). apply (T2' [k]). now rewrite (present_at _ _ _ _ Hp). }
      assert (HL : exists ls, leaves vs = Some ls /\ map (fun y => Leaf (fst y) (snd y)) ls = vs).
      { unfold leaves. clear -Hleaf. induction vs as [|v vs IHv]; [exists []; split; reflexivity|].
        destruct (Hleaf v (or_introl eq_refl)) as (k' & a & ->). destruct IHv as (ls & E & Hls); [intros; apply Hleaf; now right|].
        exists ((k', a) :: ls). cbn [map all_some]. rewrite E. split; [reflexivity|]. cbn. now rewrite Hls. }
      destruct HL as (ls & Els & Hls).
      assert (Hlt : Forall (fun y => fst y = fst (ty [k]) /\ typed (fst (ty [k])) (snd (ty [k])) (snd y)) ls).
      { apply Forall_forall. intros [k' a] Hy. assert (Hv : In (Leaf k' a) vs).
        { rewrite <- Hls. apply in_map_iff. exists (k', a). auto. }
        destruct (Hsv _ Hv) as (b & Hb & Hp). destruct (Ht b Hb) as (_ & _ & T3 & _).
        destruct (T3 [k] k' a) as [-> Ha]; [now rewrite (present_at _ _ _ _ Hp)|]. split; [reflexivity|exact Ha]. }
      destruct (stack_shared (fst (ty [k])) (snd (ty [k])) ls) as (E1 & E2 & E3); [|exact Hlt|].
      { intros ->. cbn in Hls. congruence. }
      rewrite Els, E2, E1, E3. cbn [bind]. eexists. split; [reflexivity|].
      assert (Hdeep : forall s p b, In b bs -> at_path (k :: s :: p) b = None).
      { intros s p b Hb. destruct (Hvs b Hb) as (v & Hp & Hv). rewrite (present_at _ _ _ _ Hp).
        destruct (Hleaf v Hv) as (k' & a & ->). reflexivity. }
      split; [intros [|] ? H; discriminate|]. intros [|s p].
      * assert (Hsl : some_leaf [k] bs).
        { destruct bs as [|b bs']; [congruence|]. destruct (Hvs b (or_introl eq_refl)) as (v & Hp & Hv). destruct (Hleaf v Hv) as (k' & a & ->).
          exists b, k', a. split; [now left|]. now rewrite (present_at _ _ _ _ Hp). }
        split; [|split].
        -- intros _. cbn [at_path]. do 3 f_equal. unfold stack_rows.
           clear -Has Hls. subst vs. revert ls Has. induction bs as [|b bs IHb]; intros [|y ls] Has; try discriminate; [reflexivity|].
           cbn [map] in *. injection Has as E1 E2. rewrite (present_at _ _ _ _ E1). cbn [at_path]. f_equal. now apply IHb.
        -- contradiction.
        -- intro H. destruct Hsl as (b & k' & a & Hb & Hp). rewrite H in Hp by exact Hb. discriminate.
      * split; [intros (b & k' & a & Hb & Hp)|split; [intros _ (b & l & Hb & Hp)|]]; [rewrite Hdeep in Hp by exact Hb; discriminate..|].
        reflexivity.
  - (* some batch lacks the key *)
    apply in_map_iff in Has. destruct Has as (b0 & Hb0 & Hin0).
    set (vals := map (present k) bs) in *.
    destruct (existsb (fun x => match x with Some _ => true | None => false end) vals) eqn:Eex.
    + replace (forallb _ vals) with false.
      2: { symmetry. clear -Eex. induction vals as [|[v|] vals IHv]; [discriminate|reflexivity|]. cbn in *. auto. }
      assert (Hval : forall v, In (Some v) vals -> exists b, In b bs /\ present k b = Some v).
      { intros v Hv. apply in_map_iff in Hv. destruct Hv as (b & E & Hb). eauto. }
      destruct (split_first vals Eex) as (m & v0 & t & Evals).
      assert (Hv0 : In (Some v0) vals) by (rewrite Evals; apply in_app_iff; right; now left).
      destruct (Hval v0 Hv0) as (bf & Hbf & Hpf).
      assert (Hgood : forall v, In (Some v) vals -> good (fun q => ty (k :: q)) v0 v).
      { intros v Hv. destruct (Hval v Hv) as (b & Hb & Hp). destruct (Ht b Hb) as (T1 & T2 & T3 & T4). split; [|split; [|split]].
        - intros p l Hl. apply (T1 (k :: p)). rewrite (present_at _ _ _ _ Hp). exact Hl.
        - intros p. rewrite <- (present_at _ p _ _ Hp). apply T2.
        - intros p k' a Ha. apply (T3 (k :: p)). rewrite (present_at _ _ _ _ Hp). exact Ha.
        - intro q. rewrite <- (present_at _ q _ _ Hp), <- (present_at _ q _ _ Hpf).
          apply (Hu [k] b0 bf b q); try assumption.
          + apply absent_at. exact Hb0.
          + eapply present_not_empty, Hpf.
          + eapply present_not_empty, Hp. }
      destruct (fill_none (fun q => ty (k :: q)) v0 m t) as (c & Hc & Hci & Hci').
      { now apply Hgood. }
      { apply Forall_forall. intros x Hx v ->. apply Hgood. rewrite Evals. apply in_app_iff. right. now right. }
      rewrite <- Evals in Hc. cbn [assoc].
      replace (length bs) with (length vals) by (unfold vals; apply map_length). rewrite Hc. cbn [bind].
      exists c. split; [reflexivity|]. split; [exact Hci|]. rewrite <- Evals in Hci'.
      assert (Hlay : forall q b v, In b bs -> present k b = Some v -> layout (at_path q v0) (at_path (k :: q) b)).
      { intros q b v Hb Hp. rewrite (present_at _ _ _ _ Hp). destruct (Hgood v) as (_ & _ & _ & G); [|apply G].
        rewrite <- Hp. unfold vals. now apply in_map. }
      intro q. specialize (Hci' q).
      assert (Hleafq : some_leaf (k :: q) bs -> exists k0 a0, at_path q v0 = Some (Leaf k0 a0)).
      { intros (b & k' & a & Hb & Hp). destruct (present k b) as [v|] eqn:E.
        - pose proof (Hlay q b v Hb E) as H. rewrite Hp in H. destruct (at_path q v0) as [[k0 a0| |]|]; cbn in H; try contradiction. eauto.
        - exfalso. destruct q as [|s q]; [apply absent_at in E; destruct E as [E|E]; rewrite Hp in E; discriminate|].
          rewrite absent_below in Hp by exact E. discriminate. }
      split; [|split].
      * intro Hsl. destruct (Hleafq Hsl) as (k0 & a0 & E0). rewrite E0 in Hci'. rewrite Hci'. cbn [repeat]. rewrite app_nil_r.
        do 3 f_equal. unfold vals, stack_rows. rewrite map_map. apply map_ext_in. intros b Hb. unfold row.
        destruct (present k b) as [v|] eqn:E.
        -- now rewrite (present_at _ _ _ _ E).
        -- destruct q as [|s q]; [apply absent_at in E; destruct E as [-> | ->]; reflexivity|].
           now rewrite absent_below.
      * intros Hsl (b & lb & Hb & Hp).
        destruct (at_path q v0) as [[k0 a0|l0|]|] eqn:E0.
        -- exfalso. apply Hsl. exists bf, k0, a0. split; [exact Hbf|]. now rewrite (present_at _ _ _ _ Hpf).
        -- destruct Hci' as (l' & E & Hk'). exists l'. split; [exact E|]. intro s. rewrite <- (Hk' s). split.
           ++ intro Hs. exists bf, l0. split; [exact Hbf|]. split; [|exact Hs]. now rewrite (present_at _ _ _ _ Hpf).
           ++ intros (b' & l'' & Hb' & Hp' & Hs). destruct (present k b') as [v|] eqn:Ep.
              ** pose proof (Hlay q b' v Hb' Ep) as H. rewrite E0, Hp' in H. cbn in H. now apply H.
              ** destruct q as [|s' q]; [apply absent_at in Ep; destruct Ep as [Ep|Ep]; rewrite Hp' in Ep; [discriminate|]; injection Ep as ->; contradiction|].
                 rewrite absent_below in Hp' by exact Ep. discriminate.
        -- contradiction.
        -- destruct (present k b) as [v|] eqn:Ep.
           ++ pose proof (Hlay q b v Hb Ep) as H. rewrite E0, Hp in H. contradiction.
           ++ destruct q as [|s' q]; [discriminate E0|]. rewrite absent_below in Hp by exact Ep. discriminate.
      * intro H. specialize (H bf Hbf). rewrite (present_at _ _ _ _ Hpf) in H. now rewrite H in Hci'.
    + replace (forallb _ vals) with true.
      2: { symmetry. clear -Eex. induction vals as [|[v|] vals IHv]; [reflexivity|discriminate|]. cbn in *. auto. }
      exists (Node []). split; [reflexivity|]. split; [intros [|] ? H; [injection H as <-; constructor|discriminate]|].
      assert (Hno : forall b, In b bs -> present k b = None).
      { intros b Hb. destruct (present k b) eqn:E; [|reflexivity]. exfalso.
        assert (existsb (fun x => match x with Some _ => true | None => false end) vals = true); [|congruence].
        apply existsb_exists. exists (Some b1). split; [|reflexivity]. rewrite <- E. unfold vals. now apply in_map. }
      intros [|s p].
      * split; [|split].
        -- intros (b & k' & a & Hb & Hp). pose proof (absent_at _ _ (Hno b Hb)) as [E|E]; congruence.
        -- intros _ _. exists []. split; [reflexivity|]. intro s. split; [intros []|].
           intros (b & l & Hb & Hp & Hs). pose proof (absent_at _ _ (Hno b Hb)) as [E|E]; [congruence|].
           rewrite Hp in E. injection E as ->. contradiction.
        -- intro H. exfalso. apply all_keys_In in Hk. destruct Hk as (b & Hb & Hk). specialize (H b Hb).
           destruct (Hn b Hb) as (l & -> & _). rewrite at_cons in H. cbn [items] in Hk. apply assoc_Some_key in Hk.
           destruct Hk as [x Hx]. rewrite Hx in H. discriminate.
      * split; [intros (b & k' & a & Hb & Hp)|split; [intros _ (b & l & Hb & Hp)|]].
        -- rewrite absent_below in Hp by (now apply Hno). discriminate.
        -- rewrite absent_below in Hp by (now apply Hno). discriminate.
        -- reflexivity.
Qed.

(** Stacking non-empty batches: at every path that holds an array in some batch the result has
    one row per batch, padding for the batches without it; provided that arrays at the same path
    agree in kind and shape and that keys missing from some batch look alike in the others. *)
Lemma C19_stack_partial_lemma : forall (ty : list string -> akind * list nat) (bs : list bval),
  bs <> [] -> stack_typed ty bs -> uniform_partial bs ->
  (forall b, In b bs -> exists l, b = Node l /\ l <> []) ->
  exists r, bstack bs = Ok r /\ merged ty (fun p => stack_rows ty p bs) bs r.
Proof.
  intros ty bs Hne Ht Hu Hn. unfold bstack, bstack_.
  replace (forallb is_node bs) with true.
  2: { symmetry. apply forallb_forall. intros b Hb. destruct (Hn b Hb) as (l & -> & _). reflexivity. }
  cbn [negb]. rewrite filter_all. 2: { intros b Hb. destruct (Hn b Hb) as (l & -> & Hl). destruct l; [congruence|reflexivity]. }
  destruct (stack_keys_ok (depths bs) ty bs Hne Ht Hu Hn) as (l & Hl & Hm).
  { intros b Hb. now apply depths_le. }
  destruct bs as [|b bs]; [congruence|]. cbn [is_reserved items]. rewrite Hl. cbn [bind]. eauto.
Qed.
