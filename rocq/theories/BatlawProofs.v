(** * Laws of indexing, concatenation and assignment of batches *)
From Coq Require Import Sorted.
From Verif Require Import Py PyLemmas BatchModel BatchSpec BatchProofs BatchCatProofs BatlawSpec.
Open Scope nat_scope.

Lemma selected_all n : selected n (ISlice 0 n) = Some (seq 0 n).
Proof. rewrite selected_slice by lia. now rewrite Nat.sub_0_r. Qed.
Lemma pick_nat n i : i < n -> pick_one n (Z.of_nat i) = Some i.
Proof.
  intro H. unfold pick_one. replace (_ && _)%bool with true by lia.
  rewrite Z.mod_small by lia. now rewrite Nat2Z.id.
Qed.
Lemma selected_nats n l : Forall (fun i => i < n) l -> selected n (IArr (map Z.of_nat l)) = Some l.
Proof. induction 1 as [|i l H _ IH]; [reflexivity|]. cbn in *. now rewrite pick_nat, IH by exact H. Qed.
Lemma through_selected n ps qs jx : Forall (fun i => i < n) ps -> selected (length ps) jx = Some qs ->
  selected n (through ps qs jx) = Some (map (fun q => nth q ps 0) qs).
Proof.
  intros Hp Hq. pose proof (selected_lt _ _ _ Hq) as Hlt. rewrite Forall_forall in Hp.
  assert (Hn : forall q, In q qs -> nth q ps 0 < n).
  { intros q H. rewrite Forall_forall in Hlt. apply Hp, nth_In, Hlt, H. }
  unfold through. destruct jx as [j|l|a b].
  - cbn in Hq. destruct (pick_one (length ps) j) as [x|]; [|discriminate]. injection Hq as <-. cbn [hd map selected].
    rewrite pick_nat by (apply Hn; now left). reflexivity.
  - rewrite <- map_map. apply selected_nats. apply Forall_forall. intros x Hx. apply in_map_iff in Hx. destruct Hx as (q & <- & H). now apply Hn.
  - rewrite <- map_map. apply selected_nats. apply Forall_forall. intros x Hx. apply in_map_iff in Hx. destruct Hx as (q & <- & H). now apply Hn.
Qed.

(** Induction over the arrays of a batch. *)
Lemma bget_compose n b ix jx ps qs : (forall i, ix <> IInt i) -> selected n ix = Some ps -> selected (length ps) jx = Some qs ->
  distinct b -> aligned n b ->
  exists c, bget b ix = Ok c /\ bget c jx = bget b (through ps qs jx).
Proof.
  intros Hi Hs Hq. pose proof (selected_lt _ _ _ Hs) as Hlt. pose proof (selected_lt _ _ _ Hq) as Hltq.
  pose proof (through_selected n ps qs jx Hlt Hq) as Ht.
  induction b as [k a|l IH|] using bval_ind'; intros Hd Ha.
  - destruct (Ha [] k a eq_refl) as (rs & l & -> & Hl). cbn [bget]. rewrite nget_spec, Hl, Hs. cbn [bind].
    eexists. split; [reflexivity|]. cbn [bget]. unfold picked at 1.
    assert (E : nget (Ar rs (map (fun i => nth i l (Sc CNan)) ps)) jx = nget (Ar rs l) (through ps qs jx)).
    { rewrite !nget_spec, map_length, Hl, Hq, Ht. f_equal.
      assert (Em : map (fun i => nth i (map (fun i => nth i l (Sc CNan)) ps) (Sc CNan)) qs =
                   map (fun i => nth i l (Sc CNan)) (map (fun q => nth q ps 0) qs)).
      { rewrite map_map. apply map_ext_in. intros q Hin. rewrite Forall_forall in Hltq. specialize (Hltq q Hin).
        rewrite (nth_indep _ (Sc CNan) (nth 0 l (Sc CNan))) by (now rewrite map_length).
        exact (map_nth (fun i => nth i l (Sc CNan)) ps 0 q). }
      unfold picked. rewrite Em. destruct jx; reflexivity. }
    destruct ix as [i| |]; [now elim (Hi i)| |]; now rewrite E.
  - destruct l as [|kx l].
    { exists (Node []). split; reflexivity. }
    set (L := kx :: l) in *. assert (HL : L <> []) by (unfold L; congruence). clearbody L. clear kx l. rename L into l.
    rewrite !bget_items by exact HL.
    assert (Hch : Forall (fun kx => exists c, bget (snd kx) ix = Ok c /\ bget c jx = bget (snd kx) (through ps qs jx)) l).
    { rewrite Forall_forall in IH |- *. intros [k x] Hin. pose proof (In_assoc k x l (Hd [] l eq_refl) Hin) as Ek.
      apply (IH (k, x) Hin); [now apply (distinct_child (Node l) k x l)|].
      intros p k' a Hp. apply (Ha (k :: p) k' a). rewrite at_cons, Ek. exact Hp. }
    assert (HM : exists l', mapM (fun kx => let* x := bget (snd kx) ix in Ok (fst kx, x)) l = Ok l' /\ length l' = length l /\
       mapM (fun kx => let* x := bget (snd kx) jx in Ok (fst kx, x)) l' = mapM (fun kx => let* x := bget (snd kx) (through ps qs jx) in Ok (fst kx, x)) l).
    { clear -Hch. induction Hch as [|[k x] l (c & Hc & E) _ (l' & HM & Hlen & E')].
      - exists []. auto.
      - exists ((k, c) :: l'). cbn [mapM fst snd] in *. rewrite Hc. cbn [bind]. rewrite HM. cbn [bind]. split; [reflexivity|].
        split; [cbn; now rewrite Hlen|]. now rewrite E, E'. }
    destruct HM as (l' & -> & Hlen & E). cbn [bind]. eexists. split; [reflexivity|].
    rewrite bget_items; [now rewrite E|]. destruct l', l; cbn in Hlen; congruence.
  - exists NoneV. split; reflexivity.
Qed.

(** C311. Indexing twice is indexing once: picking rows of picked rows gives the rows picked by the
    composed index. *)
Lemma C311_compose_lemma : forall (b : bval) (n : nat) (ix jx : index) (ps qs : list nat),
  nonempty b -> distinct b -> aligned n b -> (forall i, ix <> IInt i) ->
  selected n ix = Some ps -> selected (length ps) jx = Some qs ->
  exists c, bgetitem b ix = Ok c /\ bgetitem c jx = bgetitem b (through ps qs jx).
Proof.
  intros b n ix jx ps qs (l & -> & Hl) Hd Ha Hi Hs Hq.
  destruct (bget_compose n (Node l) ix jx ps qs Hi Hs Hq Hd Ha) as (c & Hc & E). exists c.
  assert (Hc' : bgetitem (Node l) ix = Ok c) by (unfold bgetitem; destruct l; [congruence|exact Hc]).
  split; [exact Hc'|].
  destruct l as [|kx l]; [congruence|]. unfold bgetitem at 2. rewrite <- E.
  rewrite bget_items in Hc by congruence. destruct (mapM _ _) as [l'|] eqn:EM in Hc; [|discriminate].
  injection Hc as <-. destruct l'; [|reflexivity].
  cbn [mapM] in EM. destruct (bget (snd kx) ix); [|discriminate EM]. cbn [bind] in EM.
  destruct (mapM _ l); discriminate EM.
Qed.

Lemma bget_id n b ix : selected n ix = Some (seq 0 n) -> (forall i, ix <> IInt i) -> distinct b -> aligned n b -> bget b ix = Ok b.
Proof.
  intros Hs Hi. induction b as [k a|l IH|] using bval_ind'; intros Hd Ha; [| |reflexivity].
  - destruct (Ha [] k a eq_refl) as (rs & l & -> & Hl). cbn [bget]. rewrite nget_spec, Hl, Hs. cbn [bind].
    do 2 f_equal. pose proof (map_nth_seq [] l [] (Sc CNan)) as E. cbn [app length] in E. rewrite app_nil_r, Hl in E.
    unfold picked. rewrite E. destruct ix as [i| |]; [now elim (Hi i)| |]; reflexivity.
  - destruct l as [|kx l]; [reflexivity|].
    set (L := kx :: l) in *. assert (HL : L <> []) by (unfold L; congruence). clearbody L. clear kx l. rename L into l.
    rewrite bget_items by exact HL.
    replace (mapM _ l) with (@Ok _ l); [reflexivity|]. symmetry. apply mapM_id.
    rewrite Forall_forall in IH |- *. intros [k x] Hin. pose proof (In_assoc k x l (Hd [] l eq_refl) Hin) as Ek.
    assert (E : bget x ix = Ok x); [|cbn [fst snd]; now rewrite E]. apply (IH (k, x) Hin); [now apply (distinct_child (Node l) k x l)|].
    intros p k' a Hp. apply (Ha (k :: p) k' a). rewrite at_cons, Ek. exact Hp.
Qed.

(** C312. Selecting all rows in order gives the batch itself. *)
Lemma C312_all_rows_lemma : forall (b : bval) (n : nat),
  nonempty b -> distinct b -> aligned n b ->
  bgetitem b (ISlice 0 n) = Ok b /\ bgetitem b (IArr (map Z.of_nat (seq 0 n))) = Ok b.
Proof.
  intros b n (l & -> & Hl) Hd Ha. unfold bgetitem. destruct l as [|kx l]; [congruence|]. split.
  - apply (bget_id n); [apply selected_all|discriminate|exact Hd|exact Ha].
  - apply (bget_id n); [|discriminate|exact Hd|exact Ha]. apply selected_nats, Forall_forall. intros x Hx. apply in_seq in Hx. lia.
Qed.

(** C312. Shuffling the rows and then undoing the shuffle gives the batch back. *)
Lemma C312_unshuffle_lemma : forall (b : bval) (n : nat) (perm inv : list nat),
  nonempty b -> distinct b -> aligned n b ->
  Forall (fun i => i < n) perm -> length perm = n ->
  Forall (fun i => i < n) inv -> map (fun q => nth q perm 0) inv = seq 0 n ->
  exists c, bgetitem b (IArr (map Z.of_nat perm)) = Ok c /\ bgetitem c (IArr (map Z.of_nat inv)) = Ok b.
Proof.
  intros b n perm inv Hne Hd Ha Hp Hlp Hi E.
  destruct (C311_compose_lemma b n (IArr (map Z.of_nat perm)) (IArr (map Z.of_nat inv)) perm inv Hne Hd Ha) as (c & Hc & Hcc).
  - discriminate.
  - now apply selected_nats.
  - rewrite Hlp. now apply selected_nats.
  - exists c. split; [exact Hc|]. rewrite Hcc. unfold through. rewrite <- map_map, E. now apply C312_all_rows_lemma.
Qed.

(** ** Concatenation *)
Lemma leaf_dec p (bns : list (bval * nat)) : {some_leaf p (map fst bns)} + {~ some_leaf p (map fst bns)}.
Proof.
  destruct (existsb (fun bn => match at_path p (fst bn) with Some x => is_leaf x | None => false end) bns) eqn:E.
  - left. now apply some_leaf_iff.
  - right. intro H. apply some_leaf_iff in H. congruence.
Qed.
Lemma merged_structure ty rows (bns : list (bval * nat)) r bn : merged ty rows (map fst bns) r ->
  (forall bn, In bn bns -> no_none (fst bn)) ->
  (forall bn bn', In bn bns -> In bn' bns -> same_structure (fst bn) (fst bn')) ->
  In bn bns -> same_structure (fst bn) r.
Proof.
  intros [_ Hm] Hno Hst Hin p. destruct (Hm p) as (H1 & H2 & H3).
  destruct (leaf_dec p bns) as [Hl|Hl].
  - rewrite (H1 Hl). cbn [structured]. destruct Hl as (b & k & a & Hb & Hp). apply in_map_iff in Hb. destruct Hb as (bn' & <- & Hb).
    specialize (Hst bn bn' Hin Hb p). rewrite Hp in Hst. cbn [structured] in Hst. exact Hst.
  - destruct (at_path p (fst bn)) as [[k a|l|]|] eqn:E.
    + elim Hl. exists (fst bn), k, a. split; [now apply in_map|exact E].
    + destruct (H2 Hl) as (l' & -> & Hk). { exists (fst bn), l. split; [now apply in_map|exact E]. }
      assert (Hsk : same_keys l l').
      { intro s. rewrite Hk. split.
        - intro Hs. exists (fst bn), l. split; [now apply in_map|]. now split.
        - intros (b & lb & Hb & Hp & Hs). apply in_map_iff in Hb. destruct Hb as (bn' & <- & Hb).
          specialize (Hst bn bn' Hin Hb p). rewrite E, Hp in Hst. destruct l as [|x l], lb as [|y lb]; cbn [structured] in Hst; try contradiction.
          now apply Hst. }
      destruct l as [|x l], l' as [|y l']; cbn [structured]; try exact Logic.I.
      * destruct (Hsk (fst y)) as [_ H]. now apply H; left.
      * destruct (Hsk (fst x)) as [H _]. now apply H; left.
      * exact Hsk.
    + now elim (Hno bn Hin p).
    + rewrite H3; [exact Logic.I|]. intros b Hb. apply in_map_iff in Hb. destruct Hb as (bn' & <- & Hb).
      specialize (Hst bn bn' Hin Hb p). rewrite E in Hst. cbn [structured] in Hst.
      destruct (at_path p (fst bn')) as [[| [|] |]|]; cbn in Hst; try contradiction; reflexivity.
Qed.
Lemma contributed_rows ty n b p : well_typed ty n b -> Forall (typed (fst (ty p)) (snd (ty p))) (contributed (fst (ty p)) (snd (ty p)) n (at_path p b)).
Proof.
  intros (H & _). unfold contributed. assert (Hr : Forall (typed (fst (ty p)) (snd (ty p))) (repeat (padding (fst (ty p)) (snd (ty p))) n)).
  { apply Forall_forall. intros x Hx. apply repeat_spec in Hx. subst. apply typed_padding. }
  destruct (at_path p b) as [[k [|rs l]| |]|] eqn:E; try exact Hr.
  destruct (H _ _ _ E) as [-> Ht]. cbn in Ht. tauto.
Qed.
Lemma merged_typed ty (bns : list (bval * nat)) r : merged ty (fun p => cat_rows ty p bns) (map fst bns) r ->
  (forall bn, In bn bns -> well_typed ty (snd bn) (fst bn)) ->
  (forall bn bn', In bn bns -> In bn' bns -> same_structure (fst bn) (fst bn')) ->
  bns <> [] -> well_typed ty (sum (map snd bns)) r.
Proof.
  intros Hm Hw Hst Hne.
  assert (Hno : forall bn, In bn bns -> no_none (fst bn)) by (intros bn H; destruct (Hw bn H) as (_ & Hn & _); exact Hn).
  split; [|split; [|split]].
  - intros p k a Hp. destruct (merged_leaf ty (fun p => cat_rows ty p bns) (map fst bns) r p k a) as [-> ->]; try assumption.
    + intros b Hb. apply in_map_iff in Hb. destruct Hb as (bn & <- & Hb). now apply Hno.
    + split; [reflexivity|]. cbn [typed]. split; [reflexivity|]. split; [now apply cat_rows_length|].
      clear -Hw. unfold cat_rows. induction bns as [|bn bns IH]; [constructor|]. cbn [flat_map]. apply Forall_app. split.
      * apply contributed_rows, Hw. now left.
      * apply IH. intros. apply Hw. now right.
  - intros p Hp. destruct bns as [|bn bns]; [congruence|].
    destruct Hm as [_ Hm]. destruct (Hm p) as (H1 & H2 & H3). destruct (leaf_dec p (bn :: bns)) as [Hl|Hl].
    + rewrite (H1 Hl) in Hp. discriminate.
    + destruct (existsb (fun bn => match at_path p (fst bn) with Some (Node _) => true | _ => false end) (bn :: bns)) eqn:E.
      * apply existsb_exists in E. destruct E as (b & Hb & E). destruct (at_path p (fst b)) as [[|l|]|] eqn:Ep; try discriminate.
        destruct (H2 Hl) as (l' & E' & _). { exists (fst b), l. split; [now apply in_map|exact Ep]. } congruence.
      * rewrite H3 in Hp; [discriminate|]. intros b Hb. apply in_map_iff in Hb. destruct Hb as (bn' & <- & Hb).
        destruct (at_path p (fst bn')) as [[k a|l|]|] eqn:Ep; [| | |reflexivity].
        -- elim Hl. exists (fst bn'), k, a. split; [now apply in_map|exact Ep].
        -- assert (X : existsb (fun bn => match at_path p (fst bn) with Some (Node _) => true | _ => false end) (bn :: bns) = true); [|congruence].
           apply existsb_exists. exists bn'. split; [exact Hb|]. now rewrite Ep.
        -- now elim (Hno bn' Hb p).
  - apply Hm.
  - intros Hnl. assert (H0 : forall bn, In bn bns -> snd bn = 0).
    { intros bn Hb. destruct (Hw bn Hb) as (_ & _ & _ & H0). apply H0. intros p k a Hp. destruct Hm as [_ Hm]. destruct (Hm p) as (H1 & _).
      eapply Hnl, H1. exists (fst bn), k, a. split; [now apply in_map|exact Hp]. }
    clear -H0. induction bns as [|bn bns IH]; [reflexivity|]. cbn. rewrite (H0 bn) by now left. apply IH. intros. apply H0. now right.
Qed.
Lemma cat_rows_none ty p (bns : list (bval * nat)) : ~ some_leaf p (map fst bns) ->
  cat_rows ty p bns = repeat (padding (fst (ty p)) (snd (ty p))) (sum (map snd bns)).
Proof.
  intro H. unfold cat_rows. induction bns as [|bn bns IH]; [reflexivity|]. cbn [flat_map map sum fold_right].
  rewrite IH by (intros (b & k & a & Hb & Hp); apply H; exists b, k, a; split; [now right|exact Hp]).
  unfold contributed at 1. change (sum (snd bn :: map snd bns)) with (snd bn + sum (map snd bns)). rewrite repeat_app.
  destruct (at_path p (fst bn)) as [[k a| |]|] eqn:E; try reflexivity.
  elim H. exists (fst bn), k, a. split; [now left|exact E].
Qed.

Lemma same_structure_nonempty b b' : nonempty b -> same_structure b b' -> nonempty b'.
Proof.
  intros (l & -> & Hl) H. specialize (H []). cbn [at_path] in H. rewrite structured_node in H by exact Hl.
  destruct b' as [k a|[|x l']|]; cbn [structured] in H; try contradiction. exists (x :: l'). split; [reflexivity|discriminate].
Qed.
Lemma single_structure b : same_structure b b.
Proof. intro p. destruct (structured (at_path p b)) as [[l|]|]; auto. intro k. tauto. Qed.
Lemma merged_noleaf ty rows (bns : list (bval * nat)) r p k a : merged ty rows (map fst bns) r ->
  (forall bn, In bn bns -> no_none (fst bn)) -> ~ some_leaf p (map fst bns) -> at_path p r <> Some (Leaf k a).
Proof.
  intros [_ Hm] Hno Hl E. destruct (Hm p) as (H1 & H2 & H3).
  destruct (existsb (fun bn => match at_path p (fst bn) with Some (Node _) => true | _ => false end) bns) eqn:X.
  - apply existsb_exists in X. destruct X as (b & Hb & X). destruct (at_path p (fst b)) as [[|l|]|] eqn:Ep; try discriminate.
    destruct (H2 Hl) as (l' & E' & _). { exists (fst b), l. split; [now apply in_map|exact Ep]. } congruence.
  - rewrite H3 in E; [discriminate|]. intros b Hb. apply in_map_iff in Hb. destruct Hb as (bn' & <- & Hb).
    destruct (at_path p (fst bn')) as [[k' a'|l|]|] eqn:Ep; [| | |reflexivity].
    + elim Hl. exists (fst bn'), k', a'. split; [now apply in_map|exact Ep].
    + assert (Y : existsb (fun bn => match at_path p (fst bn) with Some (Node _) => true | _ => false end) bns = true); [|congruence].
      apply existsb_exists. exists bn'. split; [exact Hb|]. now rewrite Ep.
    + now elim (Hno bn' Hb p).
Qed.
Lemma merged_same ty rows rows' (bns bns' : list (bval * nat)) r r' :
  merged ty rows (map fst bns) r -> merged ty rows' (map fst bns') r' ->
  (forall bn, In bn bns -> no_none (fst bn)) -> (forall bn, In bn bns' -> no_none (fst bn)) ->
  (forall p, some_leaf p (map fst bns) <-> some_leaf p (map fst bns')) ->
  (forall p, some_leaf p (map fst bns) -> rows p = rows' p) ->
  same_structure r r' -> no_none r -> no_none r' ->
  same_batch r r'.
Proof.
  intros Hm Hm' Hno Hno' Hsl Hrows Hst Hn Hn' p.
  destruct (leaf_dec p bns) as [Hl|Hl].
  - destruct Hm as [_ Hm], Hm' as [_ Hm']. destruct (Hm p) as (H1 & _), (Hm' p) as (H1' & _).
    rewrite (H1 Hl), (H1' (proj1 (Hsl p) Hl)). split; [reflexivity|]. now rewrite (Hrows p Hl).
  - assert (Hl' : ~ some_leaf p (map fst bns')) by (rewrite <- Hsl; exact Hl).
    specialize (Hst p).
    pose proof (fun k a => merged_noleaf ty rows bns r p k a Hm Hno Hl) as Hleaf.
    pose proof (fun k a => merged_noleaf ty rows' bns' r' p k a Hm' Hno' Hl') as Hleaf'.
    destruct (at_path p r) as [[k a|l|]|] eqn:E, (at_path p r') as [[k' a'|l'|]|] eqn:E'; try (now elim (Hleaf _ _ eq_refl)); try (now elim (Hleaf' _ _ eq_refl));
      try (now elim (Hn p)); try (now elim (Hn' p)); try exact Logic.I; cbn [structured] in Hst;
      try (destruct l as [|y l]); try (destruct l' as [|y' l']); cbn [structured] in Hst; try contradiction; try exact Hst.
    intro s; tauto.
Qed.
Lemma contributed_merged ty (bns : list (bval * nat)) r p : merged ty (fun p => cat_rows ty p bns) (map fst bns) r ->
  (forall bn, In bn bns -> no_none (fst bn)) ->
  contributed (fst (ty p)) (snd (ty p)) (sum (map snd bns)) (at_path p r) = cat_rows ty p bns.
Proof.
  intros Hm Hno. destruct (leaf_dec p bns) as [Hl|Hl].
  - destruct Hm as [_ Hm]. destruct (Hm p) as (H1 & _). now rewrite (H1 Hl).
  - rewrite cat_rows_none by exact Hl. pose proof (fun k a => merged_noleaf ty _ bns r p k a Hm Hno Hl) as Hleaf.
    unfold contributed. destruct (at_path p r) as [[k a| |]|]; try reflexivity. now elim (Hleaf _ _ eq_refl).
Qed.
Lemma merged_someleaf ty rows (bns : list (bval * nat)) r p : merged ty rows (map fst bns) r ->
  (forall bn, In bn bns -> no_none (fst bn)) -> (some_leaf p (map fst bns) <-> exists k a, at_path p r = Some (Leaf k a)).
Proof.
  intros Hm Hno. destruct (leaf_dec p bns) as [Hl|Hl].
  - split; [intros _|intros _; exact Hl]. destruct Hm as [_ Hm]. destruct (Hm p) as (H1 & _). rewrite (H1 Hl). eauto.
  - split; [contradiction|]. intros (k & a & E). now elim (merged_noleaf ty rows bns r p k a Hm Hno Hl).
Qed.
Lemma sum_app l l' : sum (l ++ l') = sum l + sum l'.
Proof. unfold sum. induction l as [|x l IH]; cbn; [reflexivity|]. rewrite IH. lia. Qed.

(** C313. Concatenation is associative: concatenating two groups and then the results gives the
    same batch as concatenating everything at once. *)
Lemma C313_associative_lemma : forall (ty : list string -> akind * list nat) (xs ys : list (bval * nat)),
  xs <> [] -> ys <> [] ->
  (forall bn, In bn (xs ++ ys) -> well_typed ty (snd bn) (fst bn)) ->
  (forall bn bn', In bn (xs ++ ys) -> In bn' (xs ++ ys) -> same_structure (fst bn) (fst bn')) ->
  (forall bn, In bn (xs ++ ys) -> nonempty (fst bn)) ->
  exists r rx ry r', bcat (map fst (xs ++ ys)) = Ok r /\ bcat (map fst xs) = Ok rx /\ bcat (map fst ys) = Ok ry /\
    bcat [rx; ry] = Ok r' /\ same_batch r r'.
Proof.
  intros ty xs ys Hx Hy Hw Hst Hne.
  assert (Hno : forall bn, In bn (xs ++ ys) -> no_none (fst bn)) by (intros bn H; destruct (Hw bn H) as (_ & Hn & _); exact Hn).
  assert (Il : forall bn, In bn xs -> In bn (xs ++ ys)) by (intros; apply in_or_app; now left).
  assert (Ir : forall bn, In bn ys -> In bn (xs ++ ys)) by (intros; apply in_or_app; now right).
  destruct (C19_cat_lemma ty (xs ++ ys)) as (r & Hr & Mr); [now destruct xs|exact Hw|exact Hst|exact Hne|].
  destruct (C19_cat_lemma ty xs) as (rx & Hrx & Mx); [exact Hx|auto|auto|intros bn H; apply Hne; auto|].
  destruct (C19_cat_lemma ty ys) as (ry & Hry & My); [exact Hy|auto|auto|intros bn H; apply Hne; auto|].
  assert (Wx : well_typed ty (sum (map snd xs)) rx) by (apply merged_typed; auto).
  assert (Wy : well_typed ty (sum (map snd ys)) ry) by (apply merged_typed; auto).
  assert (Wr : well_typed ty (sum (map snd (xs ++ ys))) r) by (apply merged_typed; auto; now destruct xs).
  destruct xs as [|x xs]; [congruence|]. destruct ys as [|y ys]; [congruence|].
  assert (Sx : same_structure (fst x) rx) by (eapply (merged_structure ty _ (x :: xs)); [exact Mx|auto|auto|now left]).
  assert (Sy : same_structure (fst y) ry) by (eapply (merged_structure ty _ (y :: ys)); [exact My|auto|auto|now left]).
  assert (Sr : same_structure (fst x) r) by (eapply (merged_structure ty _ ((x :: xs) ++ y :: ys)); [exact Mr|auto|auto|apply Il; now left]).
  assert (Sxy : same_structure rx ry).
  { eapply same_structure_trans; [apply same_structure_sym, Sx|]. eapply same_structure_trans; [|exact Sy]. apply Hst; [apply Il|apply Ir]; now left. }
  assert (Nx : nonempty rx) by (apply (same_structure_nonempty (fst x)); [apply Hne, Il; now left|exact Sx]).
  assert (Ny : nonempty ry) by (apply (same_structure_nonempty (fst y)); [apply Hne, Ir; now left|exact Sy]).
  set (two := [(rx, sum (map snd (x :: xs))); (ry, sum (map snd (y :: ys)))]).
  assert (Ht : forall bn, In bn two -> bn = (rx, sum (map snd (x :: xs))) \/ bn = (ry, sum (map snd (y :: ys)))) by (intros bn [<-|[<-|[]]]; auto).
  assert (Wt : forall bn, In bn two -> well_typed ty (snd bn) (fst bn)) by (intros bn H; apply Ht in H; destruct H as [-> | ->]; assumption).
  assert (St : forall bn bn', In bn two -> In bn' two -> same_structure (fst bn) (fst bn')).
  { intros bn bn' H H'. apply Ht in H, H'. destruct H as [-> | ->], H' as [-> | ->]; cbn [fst]; try apply single_structure; [exact Sxy|now apply same_structure_sym]. }
  assert (Nt : forall bn, In bn two -> no_none (fst bn)) by (intros bn H; destruct (Wt bn H) as (_ & Hn & _); exact Hn).
  destruct (C19_cat_lemma ty two) as (r' & Hr' & Mr'); [discriminate|exact Wt|exact St| |].
  { intros bn H. apply Ht in H. destruct H as [-> | ->]; assumption. }
  assert (Wr' : well_typed ty (sum (map snd two)) r') by (apply merged_typed; [exact Mr'|exact Wt|exact St|discriminate]).
  exists r, rx, ry, r'. repeat match goal with |- _ /\ _ => split end; try assumption.
  eapply (merged_same ty _ _ ((x :: xs) ++ y :: ys) two); [exact Mr|exact Mr'|exact Hno|exact Nt| | | |destruct Wr as (_ & Hn & _); exact Hn|destruct Wr' as (_ & Hn & _); exact Hn].
  - intro p.
    pose proof (merged_someleaf ty _ (x :: xs) rx p Mx (fun bn H => Hno bn (Il bn H))) as Lx.
    pose proof (merged_someleaf ty _ (y :: ys) ry p My (fun bn H => Hno bn (Ir bn H))) as Ly.
    rewrite map_app. split.
    + intros (b & k & a & Hb & Hp). apply in_app_or in Hb. destruct Hb as [Hb|Hb].
      * destruct Lx as [Lx _]. destruct Lx as (k' & a' & E); [now exists b, k, a|]. exists rx, k', a'. split; [now left|exact E].
      * destruct Ly as [Ly _]. destruct Ly as (k' & a' & E); [now exists b, k, a|]. exists ry, k', a'. split; [now right; left|exact E].
    + intros (b & k & a & [<-|[<-|[]]] & Hp).
      * destruct Lx as [_ Lx]. destruct Lx as (b & k' & a' & Hb & E); [eauto|]. exists b, k', a'. split; [now apply in_or_app; left|exact E].
      * destruct Ly as [_ Ly]. destruct Ly as (b & k' & a' & Hb & E); [eauto|]. exists b, k', a'. split; [now apply in_or_app; right|exact E].
  - intros p _. unfold cat_rows at 1. rewrite flat_map_app. fold (cat_rows ty p (x :: xs)) (cat_rows ty p (y :: ys)).
    unfold cat_rows at 3. unfold two. cbn [flat_map fst snd]. rewrite app_nil_r. f_equal; symmetry; apply contributed_merged; auto.
  - eapply same_structure_trans; [apply same_structure_sym, Sr|]. eapply same_structure_trans; [exact Sx|].
    change rx with (fst (rx, sum (map snd (x :: xs)))). apply (merged_structure ty _ two r' _ Mr' Nt St). now left.
Qed.

(** ** Cutting a batch up and putting it together again *)
Lemma piece_typed ty n b a c s : well_typed ty n b -> a <= c -> c <= n -> bget b (ISlice a c) = Ok s ->
  (forall p, match at_path p b with
             | Some (Leaf k (Ar rs l)) => at_path p s = Some (Leaf k (Ar rs (firstn (c - a) (skipn a l))))
             | Some (Leaf _ (Sc _)) => False
             | Some (Node l) => exists l', at_path p s = Some (Node l') /\ map fst l' = map fst l
             | Some NoneV => False
             | None => at_path p s = None
             end) /\ well_typed ty (c - a) s /\ same_structure b s.
Proof.
  intros Hw Hac Hcn Hs. pose proof Hw as (Ht & Hno & Hd & H0). pose proof (well_typed_aligned _ _ _ Hw) as Ha.
  destruct (bget_ok n (ISlice a c) (seq a (c - a)) b) as (s' & Hs' & Hg); [apply selected_slice; lia|exact Hd|exact Ha|].
  rewrite Hs in Hs'. injection Hs' as <-.
  assert (HP : forall p, match at_path p b with
             | Some (Leaf k (Ar rs l)) => at_path p s = Some (Leaf k (Ar rs (firstn (c - a) (skipn a l))))
             | Some (Leaf _ (Sc _)) => False
             | Some (Node l) => exists l', at_path p s = Some (Node l') /\ map fst l' = map fst l
             | Some NoneV => False
             | None => at_path p s = None
             end).
  { intro p. specialize (Hg p). destruct (at_path p b) as [[k x|l|]|] eqn:E; [|exact Hg|now elim (Hno p)|exact Hg].
    destruct (Ha p k x E) as (rs & l & -> & Hl). rewrite Hg. do 3 f_equal. unfold picked.
    set (t := skipn a l).
    assert (Ed : length (firstn a l) = a) by (rewrite firstn_length; lia).
    assert (Et : length (firstn (c - a) t) = c - a) by (rewrite firstn_length; unfold t; rewrite skipn_length; lia).
    pose proof (map_nth_seq (firstn a l) (firstn (c - a) t) (skipn (c - a) t) (Sc CNan)) as X. rewrite Ed, Et, (firstn_skipn (c - a) t) in X. unfold t in X at 1. rewrite firstn_skipn in X. now rewrite X. }
  split; [exact HP|]. split; [split; [|split; [|split]]|].
  - intros p k x E. specialize (HP p). destruct (at_path p b) as [[k' [|rs l]|l|]|] eqn:Eb; try contradiction; try congruence.
    + rewrite E in HP. injection HP as -> ->. destruct (Ht p k' _ Eb) as [-> Htl]. split; [reflexivity|]. cbn [typed] in *.
      destruct Htl as (-> & Hl & Hf). split; [reflexivity|]. split; [rewrite firstn_length, skipn_length; lia|].
      apply Forall_forall. intros y Hy. rewrite Forall_forall in Hf. apply Hf.
      rewrite <- (firstn_skipn a l). apply in_or_app. right.
      rewrite <- (firstn_skipn (c - a) (skipn a l)). apply in_or_app. now left.
    + destruct HP as (l' & El & _). congruence.
  - intros p E. specialize (HP p). destruct (at_path p b) as [[k' [|rs l]|l|]|] eqn:Eb; try contradiction; try congruence.
    destruct HP as (l' & El & _). congruence.
  - intros p l E. specialize (HP p). destruct (at_path p b) as [[k' [|rs l']|l'|]|] eqn:Eb; try contradiction; try congruence.
    destruct HP as (l2 & El & Ek). rewrite E in El. injection El as <-. rewrite Ek. exact (Hd p l' Eb).
  - intro Hnl. rewrite H0 in Hcn; [lia|]. intros p k x E. specialize (HP p). rewrite E in HP. destruct x; [contradiction|]. now apply Hnl in HP.
  - intro p. specialize (HP p). destruct (at_path p b) as [[k' [|rs l]|l|]|] eqn:Eb; try contradiction.
    + now rewrite HP.
    + destruct HP as (l' & -> & Ek). destruct l, l'; try discriminate; cbn [structured]; [exact Logic.I|].
      intro k. now rewrite Ek.
    + now rewrite HP.
Qed.
Lemma piece_get ty n b a c : well_typed ty n b -> nonempty b -> a <= c -> c <= n -> exists s, bget b (ISlice a c) = Ok s /\ bgetitem b (ISlice a c) = Ok s.
Proof.
  intros Hw (l & -> & Hl) Hac Hcn. pose proof Hw as (_ & _ & Hd & _).
  destruct (bget_ok n (ISlice a c) (seq a (c - a)) (Node l)) as (s & Hs & _); [apply selected_slice; lia|exact Hd|now apply (well_typed_aligned ty)|].
  exists s. split; [exact Hs|]. unfold bgetitem. destruct l; [congruence|exact Hs].
Qed.

Lemma skipn_twice {X} i j (l : list X) : skipn i (skipn j l) = skipn (j + i) l.
Proof. revert l. induction j as [|j IH]; intro l; [reflexivity|]. destruct l; [now rewrite !skipn_nil|apply IH]. Qed.
Lemma last_le a cuts : StronglySorted le (a :: cuts) -> a <= last cuts a.
Proof.
  intro H. apply StronglySorted_inv in H. destruct H as [_ H]. destruct cuts as [|c cuts]; [cbn; lia|].
  rewrite Forall_forall in H. apply H. generalize dependent c. induction cuts as [|d cuts IH]; intros c H; [now left|].
  right. apply (IH d). intros x Hx. apply H. now right.
Qed.
Lemma last_default {X} (l : list X) d d' : l <> [] -> last l d = last l d'.
Proof. induction l as [|x [|y l] IH]; [congruence|reflexivity|]. intros _. cbn in *. apply IH. discriminate. Qed.
Lemma cut_pieces ty n b : nonempty b -> well_typed ty n b -> forall cuts a, StronglySorted le (a :: cuts) -> last cuts a = n ->
    exists bns : list (bval * nat), mapM (fun ac => bgetitem b (ISlice (fst ac) (snd ac))) (pieces a cuts) = Ok (map fst bns) /\ length bns = length cuts /\
      (forall bn, In bn bns -> well_typed ty (snd bn) (fst bn) /\ same_structure b (fst bn) /\
         forall p, (exists k x, at_path p b = Some (Leaf k x)) <-> exists k x, at_path p (fst bn) = Some (Leaf k x)) /\
      forall p k rs l, at_path p b = Some (Leaf k (Ar rs l)) -> cat_rows ty p bns = skipn a l.
Proof.
  intros Hb Hw. induction cuts as [|c cuts IH]; intros a Hs Hl.
  - exists []. cbn [pieces mapM map]. split; [reflexivity|]. split; [reflexivity|]. split; [contradiction|].
    intros p k rs l E. cbn in Hl. subst a. destruct (well_typed_aligned _ _ _ Hw p k _ E) as (rs' & l' & [= <- <-] & Hl).
    rewrite skipn_all2 by lia. reflexivity.
  - pose proof (StronglySorted_inv Hs) as [Hs' Hf]. apply Forall_inv in Hf.
    assert (Hl' : last cuts c = n).
    { destruct cuts as [|d cuts]; [exact Hl|]. rewrite <- Hl. change (last (c :: d :: cuts) a) with (last (d :: cuts) a). apply last_default. discriminate. }
    destruct (IH c Hs' Hl') as (bns & HM & Hlen & Hall & Hrows).
    pose proof (last_le c cuts Hs') as Hcn. rewrite Hl' in Hcn.
    destruct (piece_get ty n b a c Hw Hb Hf Hcn) as (s & Hg & Hgi).
    destruct (piece_typed ty n b a c s Hw Hf Hcn Hg) as (HP & Hws & Hst).
    exists ((s, c - a) :: bns). cbn [pieces mapM map fst snd]. rewrite Hgi. cbn [bind]. rewrite HM. cbn [bind].
    split; [reflexivity|]. split; [cbn; now rewrite Hlen|]. split.
    + intros bn [<-|H]; [|now apply Hall]. cbn [fst snd]. split; [exact Hws|]. split; [exact Hst|].
      intro p. specialize (HP p). split.
      * intros (k & x & E). rewrite E in HP. destruct x; [contradiction|]. eauto.
      * intros (k & x & E). destruct (at_path p b) as [[k' x'|l|]|]; [eauto| |contradiction|congruence]. destruct HP as (l' & E' & _). congruence.
    + intros p k rs l E. unfold cat_rows. cbn [flat_map]. fold (cat_rows ty p bns). rewrite (Hrows p k rs l E).
      cbn [fst snd]. specialize (HP p). rewrite E in HP. rewrite HP. cbn [contributed].
      rewrite <- (firstn_skipn (c - a) (skipn a l)) at 2. rewrite skipn_twice. do 2 f_equal. lia.
Qed.

(** C314. Cutting a batch into consecutive slices and concatenating them gives the batch back. *)
Lemma C314_cut_and_join_lemma : forall (ty : list string -> akind * list nat) (b : bval) (n : nat) (cuts : list nat),
  nonempty b -> well_typed ty n b -> cuts <> [] -> Sorted le cuts -> last cuts 0 = n ->
  exists ss r, mapM (fun ac => bgetitem b (ISlice (fst ac) (snd ac))) (pieces 0 cuts) = Ok ss /\
    bcat ss = Ok r /\ same_batch b r.
Proof.
  intros ty b n cuts Hb Hw Hc Hsort Hlast.
  destruct (cut_pieces ty n b Hb Hw cuts 0) as (bns & HM & Hlen & Hall & Hrows); [|exact Hlast|].
  { apply Sorted_StronglySorted; [intros ? ? ?; lia|]. constructor; [exact Hsort|]. destruct cuts; constructor. lia. }
  assert (Hne : bns <> []) by (destruct bns, cuts; cbn in Hlen; congruence).
  assert (Hst : forall bn bn', In bn bns -> In bn' bns -> same_structure (fst bn) (fst bn')).
  { intros bn bn' H H'. eapply same_structure_trans; [apply same_structure_sym|]; now apply Hall. }
  assert (Hwt : forall bn, In bn bns -> well_typed ty (snd bn) (fst bn)) by (intros; now apply Hall).
  assert (Hno : forall bn, In bn bns -> no_none (fst bn)) by (intros bn H; destruct (Hwt bn H) as (_ & Hn & _); exact Hn).
  destruct (C19_cat_lemma ty bns) as (r & Hr & Mr); [exact Hne|exact Hwt|exact Hst|intros bn H; apply (same_structure_nonempty b _ Hb); now apply Hall|].
  exists (map fst bns), r. split; [exact HM|]. split; [exact Hr|].
  pose proof (merged_typed ty bns r Mr Hwt Hst Hne) as (_ & Hnr & _).
  destruct bns as [|bn bns]; [congruence|]. clear Hne.
  assert (Sr : same_structure b r).
  { eapply same_structure_trans; [apply (Hall bn); now left|]. eapply (merged_structure ty _ (bn :: bns)); [exact Mr|exact Hno|exact Hst|now left]. }
  pose proof Hw as (Ht & Hnb & _).
  intro p. specialize (Sr p). destruct (at_path p b) as [[k x|l|]|] eqn:E.
  - destruct (well_typed_aligned _ _ _ Hw p k x E) as (rs & l & -> & Hl).
    assert (Hsl : some_leaf p (map fst (bn :: bns))).
    { destruct (Hall bn) as (_ & _ & H); [now left|]. destruct (H p) as [H' _]. destruct H' as (k' & x' & E'); [eauto|]. exists (fst bn), k', x'. split; [now left|exact E']. }
    destruct Mr as [_ Mr]. destruct (Mr p) as (H1 & _). rewrite (H1 Hsl). destruct (Ht p k _ E) as (-> & Htl). cbn in Htl. destruct Htl as (-> & _).
    split; [reflexivity|]. rewrite (Hrows p _ _ _ E). reflexivity.
  - assert (Hsl : ~ some_leaf p (map fst (bn :: bns))).
    { intros (b' & k & x & Hb' & Ep). apply in_map_iff in Hb'. destruct Hb' as (bn' & <- & Hb'). destruct (Hall bn' Hb') as (_ & _ & H). destruct (H p) as [_ H']. destruct H' as (k' & x' & Ex); [eauto|]. congruence. }
    pose proof (fun k a => merged_noleaf ty _ (bn :: bns) r p k a Mr Hno Hsl) as Hleaf.
    destruct (at_path p r) as [[k a|l'|]|] eqn:E'; [now elim (Hleaf k a)| |now elim (Hnr p)|].
    + destruct l as [|y l], l' as [|y' l']; cbn [structured] in Sr; try contradiction; [intro; tauto|exact Sr].
    + destruct l; contradiction.
  - now elim (Hnb p).
  - destruct (at_path p r) as [[k a|[|]|]|]; cbn [structured] in Sr; try contradiction. exact Logic.I.
Qed.

(** ** Assignment *)
(** What one successful assignment does, path by path. *)
Definition assigned (b v b' : bval) (ix : index) (ps : list nat) : Prop :=
  forall p, match at_path p b with
            | Some (Leaf k (Ar rs l)) =>
                exists l', at_path p b' = Some (Leaf k (Ar rs l')) /\ length l' = length l /\
                  forall r, r < length l ->
                    nth_error l' r = match write_at ps (new_rows ix k rs (length ps) (at_path p v)) r with
                                     | Some x => Some x
                                     | None => nth_error l r
                                     end
            | Some (Node l) => exists l', at_path p b' = Some (Node l') /\ map fst l' = map fst l
            | Some _ => True
            | None => at_path p b' = None
            end.
Lemma assigned_ok b v n ix ps : distinct b -> selected n ix = Some ps -> assignable b v ix n (length ps) ->
  exists b', bset b ix v = (b', None) /\ assigned b v b' ix ps /\ distinct b' /\ aligned n b' /\ (nonempty b -> nonempty b') /\
    forall v' jx m, assignable b v' jx n m -> assignable b' v' jx n m.
Proof.
  intros Hd Hs Ha. destruct (C20_setitem_lemma b v n ix ps Hd Hs Ha) as (b' & Hb' & HA). exists b'. split; [exact Hb'|].
  split; [exact HA|].
  assert (Hback : forall p, match at_path p b' with
            | Some (Leaf k a) => exists rs l l', a = Ar rs l' /\ at_path p b = Some (Leaf k (Ar rs l)) /\ length l' = n
            | Some (Node l') => exists l, at_path p b = Some (Node l) /\ map fst l' = map fst l
            | Some NoneV => False
            | None => at_path p b = None end).
  { intro p. specialize (HA p). specialize (Ha p). destruct (at_path p b) as [[k a|l|]|] eqn:E.
    - destruct Ha as (rs & l & -> & Hl & _). destruct HA as (l' & -> & Hlen & _). exists rs, l, l'. repeat split; congruence.
    - destruct HA as (l' & -> & Hk). eauto.
    - contradiction.
    - now rewrite HA. }
  split; [|split; [|split]].
  - intros p l E. specialize (Hback p). rewrite E in Hback. destruct Hback as (l0 & E0 & Hk). rewrite Hk. exact (Hd p l0 E0).
  - intros p k a E. specialize (Hback p). rewrite E in Hback. destruct Hback as (rs & l & l' & -> & _ & Hl). eauto.
  - intros (l & -> & Hl). specialize (HA []). cbn [at_path] in HA. destruct HA as (l' & [= ->] & Hk). exists l'. split; [reflexivity|].
    intros ->. destruct l; [congruence|discriminate].
  - intros v' jx m Hv p. specialize (Hback p). specialize (Hv p). destruct (at_path p b') as [[k a|l|]|] eqn:E.
    + destruct Hback as (rs & l & l' & -> & E0 & Hl). rewrite E0 in Hv. destruct Hv as (rs' & l0 & [= <- <-] & _ & H). exists rs, l'. auto.
    + destruct Hback as (l0 & E0 & Hk). rewrite E0 in Hv. now rewrite Hk.
    + contradiction.
    + exact Logic.I.
Qed.
Lemma assigned_id b v n ix ps b' : distinct b -> selected n ix = Some ps -> assignable b v ix n (length ps) -> bset b ix v = (b', None) ->
  assigned b v b' ix ps /\ distinct b' /\ aligned n b' /\ (nonempty b -> nonempty b') /\
    forall v' jx m, assignable b v' jx n m -> assignable b' v' jx n m.
Proof. intros Hd Hs Ha Hb'. destruct (assigned_ok b v n ix ps Hd Hs Ha) as (b2 & Hb2 & H). rewrite Hb' in Hb2. injection Hb2 as <-. exact H. Qed.
Lemma assignable_aligned b v n ix m : assignable b v ix n m -> aligned n b.
Proof. intros H p k a E. specialize (H p). rewrite E in H. destruct H as (rs & l & -> & Hl & _). eauto. Qed.

Lemma write_nodup ps vs i p : NoDup ps -> length vs = length ps -> nth_error ps i = Some p -> write_at ps vs p = nth_error vs i.
Proof.
  unfold write_at. intros Hn Hl Hi.
  destruct (nth_error vs i) as [v|] eqn:Ev; [|apply nth_error_None in Ev; assert (i < length ps) by (apply nth_error_Some; congruence); lia].
  assert (Hin : In (p, v) (rev (combine ps vs))).
  { apply in_rev. rewrite rev_involutive. revert i vs Hl Hi Ev. clear Hn. induction ps as [|q ps IH]; intros [|i] [|w vs] Hl Hi Ev; try discriminate.
    - injection Hi as ->. injection Ev as ->. now left.
    - right. cbn in Hl. eapply IH; eauto. }
  destruct (find (fun px => fst px =? p) (rev (combine ps vs))) as [[q w]|] eqn:E.
  - apply find_some in E. destruct E as [Hq E]. cbn in E. apply Nat.eqb_eq in E. subst q. cbn. f_equal.
    apply in_rev in Hq. apply in_rev in Hin. clear -Hn Hq Hin. revert vs Hq Hin. induction ps as [|q ps IH]; intros [|u vs] Hq Hin; try contradiction.
    apply NoDup_cons_iff in Hn. destruct Hn as [Hq0 Hn]. cbn in Hq, Hin.
    destruct Hq as [[= -> ->]|Hq], Hin as [Hin|Hin].
    + now injection Hin.
    + apply in_combine_l in Hin. contradiction.
    + injection Hin as -> ->. apply in_combine_l in Hq. contradiction.
    + now apply (IH Hn vs).
  - apply (find_none _ _ E) in Hin. cbn in Hin. rewrite Nat.eqb_refl in Hin. discriminate.
Qed.
Lemma write_none ps vs p : ~ In p ps -> write_at ps vs p = None.
Proof.
  intro H. unfold write_at. destruct (find (fun px => fst px =? p) (rev (combine ps vs))) as [[q w]|] eqn:E; [|reflexivity].
  apply find_some in E. destruct E as [Hq E]. cbn in E. apply Nat.eqb_eq in E. subst q. apply in_rev in Hq. apply in_combine_l in Hq. contradiction.
Qed.
Lemma new_rows_length b v ix n m p k rs l : assignable b v ix n m -> (forall i, ix = IInt i -> m = 1) -> at_path p b = Some (Leaf k (Ar rs l)) ->
  length (new_rows ix k rs m (at_path p v)) = m.
Proof.
  intros Ha Hm E. specialize (Ha p). rewrite E in Ha. destruct Ha as (rs' & l' & [= <- <-] & _ & Hv).
  unfold new_rows. destruct (at_path p v) as [[k' x| |]|]; try contradiction; [|apply repeat_length].
  destruct ix as [i|z|a c]; [cbn; now rewrite (Hm i)| |]; cbn [value_shape] in Hv; destruct x; cbn in Hv; tauto.
Qed.
Lemma selected_int n ix ps i : selected n ix = Some ps -> ix = IInt i -> length ps = 1.
Proof. intros H ->. cbn in H. destruct (pick_one n i); [|discriminate]. now injection H as <-. Qed.

(** C315. What was assigned to distinct rows is read back from them; rows left out of the value
    read as padding. *)
Lemma C315_read_back_lemma : forall (b v b' : bval) (n : nat) (ix : index) (ps : list nat),
  nonempty b -> distinct b -> selected n ix = Some ps -> NoDup ps -> assignable b v ix n (length ps) ->
  bset b ix v = (b', None) ->
  exists g, bgetitem b' ix = Ok g /\
    forall p k rs l, at_path p b = Some (Leaf k (Ar rs l)) ->
      at_path p g = Some (Leaf k (match at_path p v with Some (Leaf _ x) => x | _ => padding k (value_shape ix rs (length ps)) end)).
Proof.
  intros b v b' n ix ps Hne Hd Hs Hnd Ha Hb'.
  destruct (assigned_id b v n ix ps b' Hd Hs Ha Hb') as (HA & Hd' & Hal' & Hne' & _). specialize (Hne' Hne). destruct Hne' as (l0 & -> & Hl0).
  destruct (C19_getitem_lemma (Node l0) n ix ps l0 eq_refl Hl0 Hd' Hal' Hs) as (g & Hg & HG). exists g. split; [exact Hg|].
  intros p k rs l E. specialize (HA p). rewrite E in HA. destruct HA as (l' & E' & Hlen & Hrow). specialize (HG p). rewrite E' in HG. rewrite HG.
  pose proof (new_rows_length b v ix n (length ps) p k rs l Ha (fun i => selected_int n ix ps i Hs) E) as Hnr.
  pose proof (selected_lt _ _ _ Hs) as Hlt. rewrite Forall_forall in Hlt.
  destruct (assignable_aligned _ _ _ _ _ Ha p k _ E) as (rs' & l1 & [= <- <-] & Hl).
  assert (Em : map (fun i => nth i l' (Sc CNan)) ps = new_rows ix k rs (length ps) (at_path p v)).
  { apply nth_error_ext. intro j. rewrite nth_error_map. destruct (nth_error ps j) as [q|] eqn:Ej; cbn [option_map].
    - assert (Hj : j < length ps) by (apply nth_error_Some; congruence). pose proof (write_nodup ps _ j q Hnd Hnr Ej) as Hw. apply nth_error_In in Ej. rewrite <- Hw.
      specialize (Hlt q Ej). rewrite <- Hl in Hlt. specialize (Hrow q Hlt).
      rewrite (nth_error_nth' l' (Sc CNan)) in Hrow by lia. rewrite Hrow.
      destruct (write_at ps _ q) eqn:Ew; [reflexivity|]. exfalso.
      symmetry in Hw. apply nth_error_None in Hw. lia.
    - apply nth_error_None in Ej. symmetry. apply nth_error_None. lia. }
  do 2 f_equal. unfold picked. rewrite Em. unfold new_rows, value_shape.
  specialize (Ha p). rewrite E in Ha. destruct Ha as (rs2 & l2 & [= <- <-] & _ & Hv).
  destruct (at_path p v) as [[k' x| |]|] eqn:Ev; try contradiction; destruct ix as [i|z|a c]; try reflexivity;
    try (destruct x; cbn in Hv; [contradiction|]; destruct Hv as (-> & _); reflexivity);
    rewrite (selected_int n _ ps i Hs eq_refl); reflexivity.
Qed.

(** C315. Assigning again to the same rows forgets the first assignment. *)
Lemma C315_overwrite_lemma : forall (b v w b1 b2 b3 : bval) (n : nat) (ix : index) (ps : list nat),
  distinct b -> selected n ix = Some ps ->
  assignable b v ix n (length ps) -> assignable b w ix n (length ps) ->
  bset b ix v = (b1, None) -> bset b1 ix w = (b2, None) -> bset b ix w = (b3, None) ->
  same_batch b2 b3.
Proof.
  intros b v w b1 b2 b3 n ix ps Hd Hs Hv Hw H1 H2 H3.
  destruct (assigned_id b v n ix ps b1 Hd Hs Hv H1) as (A1 & Hd1 & _ & _ & T1).
  destruct (assigned_id b1 w n ix ps b2 Hd1 Hs (T1 _ _ _ Hw) H2) as (A2 & _).
  destruct (assigned_id b w n ix ps b3 Hd Hs Hw H3) as (A3 & _).
  intro p. specialize (A1 p). specialize (A2 p). specialize (A3 p). pose proof (Hv p) as Hvp.
  destruct (at_path p b) as [[k a|l|]|] eqn:E.
  - destruct Hvp as (rs & l & -> & Hl & _). destruct A1 as (l1 & E1 & Hl1 & R1). rewrite E1 in A2.
    destruct A2 as (l2 & -> & Hl2 & R2). destruct A3 as (l3 & -> & Hl3 & R3). split; [reflexivity|]. f_equal.
    pose proof (new_rows_length b w ix n (length ps) p k rs l Hw (fun i => selected_int n ix ps i Hs) E) as Hnr.
    apply nth_error_ext. intro r. destruct (r <? length l) eqn:Er.
    + rewrite R2, R3 by lia. destruct (write_at ps (new_rows ix k rs (length ps) (at_path p w)) r) eqn:Ew; [reflexivity|].
      rewrite R1 by lia.
      assert (Hin : ~ In r ps).
      { intro Hin. unfold write_at in Ew. destruct (find (fun px => fst px =? r) (rev (combine ps (new_rows ix k rs (length ps) (at_path p w))))) eqn:Ef; [discriminate|].
        destruct (In_nth_error _ _ Hin) as (j & Ej).
        assert (Hj : j < length ps) by (apply nth_error_Some; congruence).
        destruct (nth_error (new_rows ix k rs (length ps) (at_path p w)) j) as [x|] eqn:Ex; [|apply nth_error_None in Ex; lia].
        assert (Hc : In (r, x) (combine ps (new_rows ix k rs (length ps) (at_path p w)))).
        { clear -Ej Ex. revert j Ej Ex. generalize (new_rows ix k rs (length ps) (at_path p w)) as vs. induction ps as [|q ps IH]; intros [|u vs] [|j] Ej Ex; try discriminate.
          - injection Ej as ->. injection Ex as ->. now left.
          - right. eapply IH; eauto. }
        apply in_rev in Hc. apply (find_none _ _ Ef) in Hc. cbn in Hc. rewrite Nat.eqb_refl in Hc. discriminate. }
      now rewrite write_none.
    + transitivity (@None nd); [|symmetry]; apply nth_error_None; lia.
  - destruct A1 as (l1 & E1 & K1). rewrite E1 in A2. destruct A2 as (l2 & -> & K2). destruct A3 as (l3 & -> & K3). intro s. now rewrite K2, K1, K3.
  - contradiction.
  - rewrite A1 in A2. now rewrite A2, A3.
Qed.

(** C315. Assignments to disjoint rows can be made in either order. *)
Lemma C315_commute_lemma : forall (b v w b1 b2 b3 b4 : bval) (n : nat) (ix jx : index) (ps qs : list nat),
  distinct b -> selected n ix = Some ps -> selected n jx = Some qs -> (forall i, In i ps -> ~ In i qs) ->
  assignable b v ix n (length ps) -> assignable b w jx n (length qs) ->
  bset b ix v = (b1, None) -> bset b1 jx w = (b2, None) -> bset b jx w = (b3, None) -> bset b3 ix v = (b4, None) ->
  same_batch b2 b4.
Proof.
  intros b v w b1 b2 b3 b4 n ix jx ps qs Hd Hs Hq Hdis Hv Hw H1 H2 H3 H4.
  destruct (assigned_id b v n ix ps b1 Hd Hs Hv H1) as (A1 & Hd1 & _ & _ & T1).
  destruct (assigned_id b1 w n jx qs b2 Hd1 Hq (T1 _ _ _ Hw) H2) as (A2 & _).
  destruct (assigned_id b w n jx qs b3 Hd Hq Hw H3) as (A3 & Hd3 & _ & _ & T3).
  destruct (assigned_id b3 v n ix ps b4 Hd3 Hs (T3 _ _ _ Hv) H4) as (A4 & _).
  intro p. specialize (A1 p). specialize (A2 p). specialize (A3 p). specialize (A4 p). pose proof (Hv p) as Hvp.
  destruct (at_path p b) as [[k a|l|]|] eqn:E.
  - destruct Hvp as (rs & l & -> & Hl & _). destruct A1 as (l1 & E1 & Hl1 & R1). rewrite E1 in A2. destruct A3 as (l3 & E3 & Hl3 & R3). rewrite E3 in A4.
    destruct A2 as (l2 & -> & Hl2 & R2). destruct A4 as (l4 & -> & Hl4 & R4). split; [reflexivity|]. f_equal.
    apply nth_error_ext. intro r. destruct (r <? length l) eqn:Er.
    + rewrite R2, R4, R1, R3 by lia. destruct (in_dec Nat.eq_dec r ps) as [Hp|Hp].
      * rewrite (write_none qs) by (now apply Hdis). reflexivity.
      * rewrite (write_none ps) by exact Hp. destruct (write_at qs _ r); reflexivity.
    + transitivity (@None nd); [|symmetry]; apply nth_error_None; lia.
  - destruct A1 as (l1 & E1 & K1). rewrite E1 in A2. destruct A3 as (l3 & E3 & K3). rewrite E3 in A4.
    destruct A2 as (l2 & -> & K2). destruct A4 as (l4 & -> & K4). intro s. now rewrite K2, K1, K4, K3.
  - contradiction.
  - rewrite A1 in A2. rewrite A3 in A4. now rewrite A2, A4.
Qed.

(** C315. Rows that are not assigned to read as before. *)
Lemma C315_frame_lemma : forall (b v b' : bval) (n : nat) (ix jx : index) (ps qs : list nat),
  nonempty b -> distinct b -> selected n ix = Some ps -> selected n jx = Some qs -> (forall i, In i ps -> ~ In i qs) ->
  assignable b v ix n (length ps) -> bset b ix v = (b', None) ->
  exists g g', bgetitem b jx = Ok g /\ bgetitem b' jx = Ok g' /\ same_batch g g'.
Proof.
  intros b v b' n ix jx ps qs Hne Hd Hs Hq Hdis Ha Hb'.
  destruct (assigned_id b v n ix ps b' Hd Hs Ha Hb') as (HA & Hd' & Hal' & Hne' & _). specialize (Hne' Hne). destruct Hne' as (l0 & -> & Hl0).
  pose proof (assignable_aligned _ _ _ _ _ Ha) as Hal. destruct Hne as (l1 & Eb & Hl1).
  destruct (C19_getitem_lemma (Node l0) n jx qs l0 eq_refl Hl0 Hd' Hal' Hq) as (g' & Hg' & HG').
  destruct (C19_getitem_lemma b n jx qs l1 Eb Hl1 Hd Hal Hq) as (g & Hg & HG).
  exists g, g'. split; [exact Hg|]. split; [exact Hg'|]. intro p. specialize (HA p). specialize (HG p). specialize (HG' p). specialize (Ha p).
  pose proof (selected_lt _ _ _ Hq) as Hlt. rewrite Forall_forall in Hlt.
  destruct (at_path p b) as [[k a|l|]|] eqn:E.
  - destruct Ha as (rs & l & -> & Hl & _). destruct HA as (l' & E' & Hlen & Hrow). rewrite E' in HG'. rewrite HG, HG'. split; [reflexivity|].
    assert (Em : map (fun i => nth i l (Sc CNan)) qs = map (fun i => nth i l' (Sc CNan)) qs).
    { apply map_ext_in. intros q Hin. specialize (Hlt q Hin). specialize (Hrow q). rewrite write_none in Hrow by (intro X; now apply (Hdis q X)).
      rewrite !(nth_error_nth' _ (Sc CNan)) in Hrow by lia. injection Hrow; [auto|lia]. }
    unfold picked. now rewrite Em.
  - destruct HA as (l' & E' & K). rewrite E' in HG'. destruct HG as (lg & -> & Kg), HG' as (lg' & -> & Kg'). intro s. now rewrite Kg, Kg', K.
  - contradiction.
  - rewrite HA in HG'. now rewrite HG, HG'.
Qed.
