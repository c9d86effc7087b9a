(** * Lemmas about the batch model: arrays, indexing, item assignment *)
From Verif Require Import PyLemmas BatchModel BatchSpec.
Open Scope nat_scope.
Open Scope list_scope.

(** ** Dicts *)
Lemma find_assoc {X} k (l : list (string * X)) :
  find (fun kx => String.eqb k (fst kx)) l = option_map (fun x => (k, x)) (assoc k l).
Proof.
  induction l as [|[k' x] l IH]; cbn; [reflexivity|].
  destruct (String.eqb k k') eqn:E; [|exact IH].
  apply String.eqb_eq in E. subst. reflexivity.
Qed.
Lemma at_cons k p l : at_path (k :: p) (Node l) = match assoc k l with Some x => at_path p x | None => None end.
Proof. cbn. rewrite find_assoc. destruct (assoc k l); reflexivity. Qed.
Lemma at_app p q b : at_path (p ++ q) b = match at_path p b with Some x => at_path q x | None => None end.
Proof.
  revert b. induction p as [|k p IH]; intro b; [reflexivity|].
  rewrite <- app_comm_cons. destruct b as [|l|]; [reflexivity| |reflexivity].
  rewrite !at_cons. destruct (assoc k l); [apply IH|reflexivity].
Qed.
Lemma assoc_In {X} k (x : X) l : assoc k l = Some x -> In (k, x) l.
Proof.
  induction l as [|[k' y] l IH]; cbn; [discriminate|].
  destruct (String.eqb k k') eqn:E.
  - apply String.eqb_eq in E. intros [= ->]. left. congruence.
  - intro H. right. auto.
Qed.
Lemma In_assoc {X} k (x : X) l : NoDup (map fst l) -> In (k, x) l -> assoc k l = Some x.
Proof.
  induction l as [|[k' y] l IH]; cbn; [contradiction|].
  intros Hn [[= -> ->]|H]; [now rewrite String.eqb_refl|].
  inversion Hn; subst.
  destruct (String.eqb k k') eqn:E; [|auto].
  apply String.eqb_eq in E. subst. exfalso. apply H2. now apply (in_map fst) in H.
Qed.
Lemma assoc_None {X} k (l : list (string * X)) : assoc k l = None <-> ~ In k (map fst l).
Proof.
  induction l as [|[k' x] l IH]; cbn; [tauto|].
  destruct (String.eqb k k') eqn:E.
  - apply String.eqb_eq in E. subst. split; [discriminate|]. intro H. exfalso. apply H. now left.
  - apply String.eqb_neq in E. rewrite IH. split; intros H; [intros [->|H']; auto|auto].
Qed.
Lemma assoc_Some_key {X} k (l : list (string * X)) : In k (map fst l) <-> exists x, assoc k l = Some x.
Proof.
  destruct (assoc k l) eqn:E.
  - split; [eauto|]. intros _. apply assoc_In in E. now apply (in_map fst) in E.
  - apply assoc_None in E. split; [contradiction|]. intros [x H]. discriminate.
Qed.
Lemma has_key_spec {X} k (l : list (string * X)) : has_key k l = true <-> In k (map fst l).
Proof.
  unfold has_key, keys. rewrite existsb_exists. split.
  - intros [x [Hx E]]. apply String.eqb_eq in E. congruence.
  - intro H. exists k. split; [exact H|apply String.eqb_refl].
Qed.
(** A dict rebuilt entry by entry. *)
Lemma assoc_map {X Y} (f : string -> X -> Y) k l :
  assoc k (map (fun kx => (fst kx, f (fst kx) (snd kx))) l) = option_map (f k) (assoc k l).
Proof.
  induction l as [|[k' x] l IH]; cbn; [reflexivity|].
  destruct (String.eqb k k') eqn:E; [|exact IH].
  apply String.eqb_eq in E. subst. reflexivity.
Qed.
Lemma distinct_child b k x l : distinct b -> b = Node l -> assoc k l = Some x -> distinct x.
Proof. intros H -> E p l' Hp. apply (H (k :: p)). rewrite at_cons, E. exact Hp. Qed.

(** ** Induction principles *)
Lemma nd_ind' (P : nd -> Prop) :
  (forall c, P (Sc c)) -> (forall rs l, Forall P l -> P (Ar rs l)) -> forall a, P a.
Proof.
  intros H1 H2. fix IH 1. intros [c|rs l]; [apply H1|apply H2].
  induction l as [|x l IHl]; constructor; [apply IH|exact IHl].
Qed.
Lemma bval_ind' (P : bval -> Prop) :
  (forall k a, P (Leaf k a)) -> (forall l, Forall (fun kx => P (snd kx)) l -> P (Node l)) -> P NoneV -> forall b, P b.
Proof.
  intros H1 H2 H3. fix IH 1. intros [k a|l|]; [apply H1|apply H2|apply H3].
  induction l as [|[k x] l IHl]; constructor; [apply IH|exact IHl].
Qed.

(** ** Arrays *)
Lemma typed_shape k sh a : typed k sh a -> shape a = sh.
Proof. destruct sh, a; cbn; try contradiction; [reflexivity|]. intros [-> [-> _]]. reflexivity. Qed.
Lemma Qnum_int (q : Qc) : Qden q = 1%positive -> Q2Qc (inject_Z (Z.quot (Qnum q) (Zpos (Qden q)))) = q.
Proof.
  intro H. rewrite H, Z.quot_1_r. destruct q as [[n d] Hq]. cbn in *. subst d.
  apply Qc_is_canon. exact (Qred_correct (n # 1)).
Qed.
Lemma conv_id k c : cell_of k c -> conv k c = Ok c.
Proof.
  destruct k, c as [q| |[o|]]; cbn; try contradiction; try reflexivity.
  intro H. now rewrite Qnum_int.
Qed.
Lemma nmap_Ar f rs l : nmap f (Ar rs l) = let* l := mapM (nmap f) l in Ok (Ar rs l).
Proof.
  cbn. f_equal. induction l as [|x l IH]; [reflexivity|]. cbn. now rewrite IH.
Qed.
Lemma mapM_id {X} (f : X -> res X) l : Forall (fun x => f x = Ok x) l -> mapM f l = Ok l.
Proof. induction 1 as [|x l H _ IH]; cbn; [reflexivity|]. rewrite H. cbn. now rewrite IH. Qed.
Lemma typed_nmap k sh a : typed k sh a -> nmap (conv k) a = Ok a.
Proof.
  revert a. induction sh as [|n sh IH]; intros [c|rs l]; cbn [typed]; try contradiction.
  - intro H. cbn. now rewrite conv_id.
  - intros [-> [_ H]]. rewrite nmap_Ar, mapM_id; [reflexivity|].
    eapply Forall_impl; [|exact H]. intros a. apply IH.
Qed.
Lemma typed_bcast k sh a : typed k sh a -> bcast sh a = Ok a.
Proof.
  revert a. induction sh as [|n sh IH]; intros a H; pose proof (typed_shape _ _ _ H) as Hs.
  - destruct a; cbn in H; [reflexivity|contradiction].
  - cbn [bcast]. rewrite Hs. cbn [length].
    replace (S (length sh) <=? length sh) with false by (symmetry; apply Nat.leb_gt; lia).
    destruct a as [|rs l]; cbn in H; [contradiction|]. destruct H as [-> [<- H]].
    rewrite Nat.eqb_refl, mapM_id; [reflexivity|].
    eapply Forall_impl; [|exact H]. intros a. apply IH.
Qed.
Lemma typed_broadcast k sh a : typed k sh a -> broadcast sh a = Ok a.
Proof.
  intro H. unfold broadcast. pose proof (typed_shape _ _ _ H) as Hs.
  replace (strip (length sh) a) with (@Ok nd a) by (destruct a; cbn [strip]; rewrite Hs, Nat.leb_refl; reflexivity).
  now apply (typed_bcast k).
Qed.
Lemma nfull_padding k sh : nfull sh (zero k) = padding k sh.
Proof. induction sh as [|n sh IH]; cbn; [now destruct k|]. now rewrite IH. Qed.
Lemma broadcast_scalar sh c : broadcast sh (Sc c) = Ok (nfull sh c).
Proof.
  unfold broadcast. cbn [strip shape length]. cbn.
  induction sh as [|n sh IH]; [reflexivity|]. cbn. now rewrite IH.
Qed.
Lemma cell_pad k : cell_of k (pad_cell k).
Proof. destruct k; cbn; auto. Qed.
Lemma typed_padding k sh : typed k sh (padding k sh).
Proof.
  induction sh as [|n sh IH]; cbn; [apply cell_pad|].
  rewrite repeat_length. repeat split. apply Forall_forall. intros x Hx. apply repeat_spec in Hx. now subst.
Qed.

(** *** Positions *)
Lemma norm_pick n i : norm_index n i = match pick_one n i with Some x => Ok x | None => Err IndexError end.
Proof.
  unfold norm_index, pick_one.
  destruct (0 <=? i)%Z eqn:E1; destruct (i <? Z.of_nat n)%Z eqn:E2; destruct (- Z.of_nat n <=? i)%Z eqn:E3;
    destruct (i <? 0)%Z eqn:E4; cbn; try reflexivity; try lia.
  - rewrite Z.mod_small by lia. reflexivity.
  - f_equal. f_equal. apply Z.mod_unique with (q := (-1)%Z); lia.
Qed.
Lemma filter_range a b n s : filter (fun i => (a <=? i) && (i <? b)) (seq s n) = seq (Nat.max s (Nat.min a (s + n))) (Nat.min b (s + n) - Nat.max s (Nat.min a (s + n))).
Proof.
  revert s. induction n as [|n IH]; intro s; cbn [seq filter].
  - replace (_ - _) with 0 by lia. reflexivity.
  - rewrite IH. destruct (a <=? s) eqn:E1; destruct (s <? b) eqn:E2; cbn [andb].
    + replace (Nat.max s (Nat.min a (s + S n))) with s by lia.
      replace (Nat.max (S s) (Nat.min a (S s + n))) with (S s) by lia.
      replace (Nat.min b (s + S n) - s) with (S (Nat.min b (S s + n) - S s)) by lia.
      reflexivity.
    + replace (Nat.min b (s + S n) - Nat.max s (Nat.min a (s + S n))) with 0 by lia.
      replace (Nat.min b (S s + n) - _) with 0 by lia. reflexivity.
    + f_equal; lia.
    + f_equal; lia.
Qed.
Lemma positions_selected n ix : positions n ix = match selected n ix with Some ps => Ok ps | None => Err IndexError end.
Proof.
  destruct ix as [i|l|a b]; cbn [positions selected].
  - rewrite norm_pick. destruct (pick_one n i); reflexivity.
  - induction l as [|i l IH]; [reflexivity|]. cbn. rewrite norm_pick.
    destruct (pick_one n i); cbn; [|reflexivity]. rewrite IH.
    destruct (fold_right _ _ l); reflexivity.
  - rewrite filter_range. cbn [Nat.add]. rewrite Nat.max_0_l. reflexivity.
Qed.
Lemma pick_one_lt n i x : pick_one n i = Some x -> x < n.
Proof.
  unfold pick_one. destruct (_ && _)%bool eqn:E; [|discriminate]. intros [= <-].
  apply andb_prop in E. destruct E.
  pose proof (Z.mod_pos_bound i (Z.of_nat n)). lia.
Qed.
Lemma selected_lt n ix ps : selected n ix = Some ps -> Forall (fun x => x < n) ps.
Proof.
  destruct ix as [i|l|a b]; cbn [selected].
  - destruct (pick_one n i) eqn:E; [|discriminate]. intros [= <-]. repeat constructor. eapply pick_one_lt; eauto.
  - revert ps. induction l as [|i l IH]; intros ps; cbn; [intros [= <-]; constructor|].
    destruct (pick_one n i) eqn:E; [|discriminate].
    destruct (fold_right _ _ l); [|discriminate]. intros [= <-].
    constructor; [eapply pick_one_lt; eauto|auto].
  - intros [= <-]. apply Forall_forall. intros x Hx. apply filter_In in Hx. destruct Hx as [Hx _].
    apply in_seq in Hx. lia.
Qed.
Lemma rows_ok {X} (l : list X) d ps : Forall (fun x => x < length l) ps -> rows l ps = Ok (map (fun i => nth i l d) ps).
Proof.
  unfold rows. induction 1 as [|i ps H _ IH]; [reflexivity|]. cbn.
  rewrite (nth_error_nth' l d H). cbn. now rewrite IH.
Qed.
Lemma nget_spec rs l ix :
  nget (Ar rs l) ix = match selected (length l) ix with Some ps => Ok (picked ix rs l ps) | None => Err IndexError end.
Proof.
  cbn [nget]. rewrite positions_selected. destruct (selected (length l) ix) as [ps|] eqn:E; [|reflexivity].
  cbn [bind]. rewrite (rows_ok l (Sc CNan)) by (eapply selected_lt; eauto). cbn [bind].
  destruct ix as [i|z|a b]; [|reflexivity|reflexivity].
  cbn in E. destruct (pick_one _ i); [|discriminate]. injection E as <-. reflexivity.
Qed.

(** ** __getitem__ *)
Lemma bget_items l ix : l <> [] ->
  bget (Node l) ix = let* l := mapM (fun kx => let* x := bget (snd kx) ix in Ok (fst kx, x)) l in Ok (Node l).
Proof.
  intro Hl. assert (H : forall l : list (string * bval), (fix go l := match l with [] => Ok [] | (k, x) :: l => let* x := bget x ix in let* l := go l in Ok ((k, x) :: l) end) l = mapM (fun kx => let* x := bget (snd kx) ix in Ok (fst kx, x)) l).
  { clear. induction l as [|[k x] l IH]; [reflexivity|]. cbn. destruct (bget x ix); [|reflexivity]. cbn. now rewrite <- IH. }
  destruct l as [|kx l]; [congruence|]. rewrite <- H. reflexivity.
Qed.

Definition getitem_spec (b r : bval) (ix : index) (ps : list nat) : Prop :=
  forall p, match at_path p b with
            | Some (Leaf k (Ar rs l)) => at_path p r = Some (Leaf k (picked ix rs l ps))
            | Some (Leaf k (Sc _)) => True
            | Some (Node l) => exists l', at_path p r = Some (Node l') /\ map fst l' = map fst l
            | Some NoneV => at_path p r = Some NoneV
            | None => at_path p r = None
            end.
Lemma bget_ok n ix ps b : selected n ix = Some ps -> distinct b -> aligned n b ->
  exists r, bget b ix = Ok r /\ getitem_spec b r ix ps.
Proof.
  intros Hs. induction b as [k a|l IH|] using bval_ind'; intros Hd Ha.
  - destruct (Ha [] k a eq_refl) as (rs & l & -> & Hl). cbn [bget].
    rewrite nget_spec, Hl, Hs. cbn [bind]. eexists. split; [reflexivity|].
    intros [|k' p]; cbn; auto.
  - destruct l as [|kx l].
    { exists (Node []). split; [reflexivity|]. intros [|k p]; cbn; eauto. }
    set (L := kx :: l) in *. assert (HL : L <> []) by (unfold L; congruence). clearbody L. clear kx l. rename L into l.
    rewrite bget_items by exact HL.
    assert (Hch : Forall (fun kx => exists r, bget (snd kx) ix = Ok r /\ getitem_spec (snd kx) r ix ps) l).
    { rewrite Forall_forall in IH |- *. intros [k x] Hin.
      pose proof (In_assoc k x l (Hd [] l eq_refl) Hin) as Ek.
      apply (IH (k, x) Hin).
      - now apply (distinct_child (Node l) k x l).
      - intros p k' a Hp. apply (Ha (k :: p) k' a). rewrite at_cons, Ek. exact Hp. }
    assert (HM : exists l', mapM (fun kx => let* x := bget (snd kx) ix in Ok (fst kx, x)) l = Ok l' /\
               map fst l' = map fst l /\
               forall k, match assoc k l with
                         | Some x => exists r, assoc k l' = Some r /\ getitem_spec x r ix ps
                         | None => assoc k l' = None
                         end).
    { clear -Hch. induction Hch as [|[k x] l (r & Hr & Hg) _ (l' & HM & Hk & Hl)].
      - exists []. repeat split.
      - exists ((k, r) :: l'). cbn in *. rewrite Hr. cbn. rewrite HM. cbn. split; [reflexivity|].
        split; [now rewrite Hk|]. intro k'. destruct (String.eqb k' k); [eauto|apply Hl]. }
    destruct HM as (l' & HM & Hk & Hl). rewrite HM. cbn [bind]. eexists. split; [reflexivity|].
    intros [|k p].
    + cbn. eauto.
    + rewrite !at_cons. specialize (Hl k). destruct (assoc k l) as [x|].
      * destruct Hl as (r & -> & Hg). apply Hg.
      * now rewrite Hl.
  - exists NoneV. split; [reflexivity|]. intros [|k p]; cbn; auto.
Qed.

(** Indexing a batch gives, at every path, the selected rows of the array there; None and empty
    batches stay. *)
Lemma C19_getitem_lemma : forall (b : bval) (n : nat) (ix : index) (ps : list nat) (l0 : list (string * bval)),
  b = Node l0 -> l0 <> [] -> distinct b -> aligned n b -> selected n ix = Some ps ->
  exists r, bgetitem b ix = Ok r /\
    forall p, match at_path p b with
              | Some (Leaf k (Ar rs l)) => at_path p r = Some (Leaf k (picked ix rs l ps))
              | Some (Leaf k (Sc _)) => True
              | Some (Node l) => exists l', at_path p r = Some (Node l') /\ map fst l' = map fst l
              | Some NoneV => at_path p r = Some NoneV
              | None => at_path p r = None
              end.
Proof.
  intros b n ix ps l0 -> Hl Hd Ha Hs. destruct (bget_ok n ix ps (Node l0) Hs Hd Ha) as (r & Hr & Hg).
  exists r. split; [|exact Hg]. unfold bgetitem. destruct l0; [congruence|exact Hr].
Qed.

(** An index out of range for the common length raises IndexError as soon as there is an array. *)
Lemma C19_getitem_range_lemma : forall (b : bval) (n : nat) (ix : index) (p : list string) (k : akind) (a : nd),
  distinct b -> aligned n b -> selected n ix = None -> at_path p b = Some (Leaf k a) ->
  bgetitem b ix = Err IndexError.
Proof.
  intros b n ix p k a Hd Ha Hs Hp.
  assert (H : bget b ix = Err IndexError).
  2: { destruct b as [| [|] |]; [exact H|destruct p; discriminate|exact H|exact H]. }
  assert (Hp' : exists p k a, at_path p b = Some (Leaf k a)) by eauto. clear p k a Hp.
  assert (G : bget b ix = Err IndexError \/ ((forall p k a, at_path p b <> Some (Leaf k a)) /\ exists r, bget b ix = Ok r)).
  2: { destruct G as [G|[G _]]; [exact G|]. destruct Hp' as (p & k & a & Hp). now apply G in Hp. }
  clear Hp'. induction b as [k a|l IH|] using bval_ind'.
  - left. destruct (Ha [] k a eq_refl) as (rs & l & -> & Hl). cbn [bget]. now rewrite nget_spec, Hl, Hs.
  - destruct l as [|kx l].
    { right. split; [intros [|]; discriminate|]. exists (Node []). reflexivity. }
    set (L := kx :: l) in *. assert (HL : L <> []) by (unfold L; congruence). clearbody L. clear kx l. rename L into l.
    rewrite bget_items by exact HL.
    assert (Hch : Forall (fun kx => assoc (fst kx) l = Some (snd kx) /\ (bget (snd kx) ix = Err IndexError \/ ((forall p k a, at_path p (snd kx) <> Some (Leaf k a)) /\ exists r, bget (snd kx) ix = Ok r))) l).
    { rewrite Forall_forall in IH |- *. intros [k x] Hin.
      pose proof (In_assoc k x l (Hd [] l eq_refl) Hin) as Ek. split; [exact Ek|].
      apply (IH (k, x) Hin).
      - now apply (distinct_child (Node l) k x l).
      - intros p k' a Hp. apply (Ha (k :: p) k' a). rewrite at_cons, Ek. exact Hp. }
    assert (HM : mapM (fun kx => let* x := bget (snd kx) ix in Ok (fst kx, x)) l = Err IndexError \/
       ((forall k x, In (k, x) l -> forall p k a, at_path p x <> Some (Leaf k a)) /\ exists r, mapM (fun kx => let* x := bget (snd kx) ix in Ok (fst kx, x)) l = Ok r)).
    { clear -Hch. induction l as [|[k x] l IH] in Hch |- *; [right; split; [contradiction|eexists; reflexivity]|].
      assert (Hch' : Forall (fun kx => bget (snd kx) ix = Err IndexError \/ ((forall p k a, at_path p (snd kx) <> Some (Leaf k a)) /\ exists r, bget (snd kx) ix = Ok r)) ((k, x) :: l)).
      { eapply Forall_impl; [|exact Hch]. intros ? []. assumption. }
      clear Hch IH. induction Hch' as [|[k' x'] l' H _ IH']; [right; split; [contradiction|eexists; reflexivity]|].
      cbn [mapM fst snd] in *. destruct H as [H|[H [r Hr]]]; [left; now rewrite H|].
      rewrite Hr. cbn. destruct IH' as [->|[H' [r' ->]]]; [now left|].
      right. split; [|eexists; reflexivity]. intros k0 x0 [[= -> ->]|Hin]; [exact H|eauto]. }
    destruct HM as [->|[H1 [r ->]]]; [now left|]. right. split; [|eexists; reflexivity].
    intros [|k p] k' a; [discriminate|]. rewrite at_cons. destruct (assoc k l) eqn:E; [|discriminate].
    apply assoc_In in E. eapply H1; eauto.
  - right. split; [intros [|]; discriminate|]. exists NoneV. reflexivity.
Qed.

(** ** __setitem__ *)
Definition written (ps : list nat) (vs : list nd) (l : list nd) : list nd :=
  fold_left (fun l px => upd l (fst px) (snd px)) (combine ps vs) l.
Lemma written_length ps vs l : length (written ps vs l) = length l.
Proof.
  unfold written. generalize (combine ps vs) as w. intro w. revert l.
  induction w as [|x w IH]; intro l; [reflexivity|]. cbn. rewrite IH. apply upd_length.
Qed.
Lemma nth_upd_case {X} (l : list X) i j x : nth_error (upd l i x) j = if i =? j then (if j <? length l then Some x else None) else nth_error l j.
Proof.
  revert i j. induction l as [|y l IH]; intros i j.
  - cbn. destruct i, j; cbn; try reflexivity. destruct (i =? j); reflexivity.
  - destruct i, j; cbn; try reflexivity. rewrite IH. reflexivity.
Qed.
Lemma written_nth ps vs l r : r < length l ->
  nth_error (written ps vs l) r = match write_at ps vs r with Some x => Some x | None => nth_error l r end.
Proof.
  unfold written, write_at. generalize (combine ps vs) as w. intros w Hr.
  induction w as [|[i x] w IH] using rev_ind; [reflexivity|].
  rewrite fold_left_app, rev_app_distr. cbn [fold_left fst snd rev app find].
  rewrite nth_upd_case. destruct (i =? r) eqn:E; [|exact IH]. cbn [option_map snd].
  assert (length (fold_left (fun l px => upd l (fst px) (snd px)) w l) = length l) as ->.
  { clear. revert l. induction w as [|y w IH]; intro l; [reflexivity|]. cbn. rewrite IH. apply upd_length. }
  apply Nat.ltb_lt in Hr. now rewrite Hr.
Qed.
Lemma nset_value k rs l ix ps x : selected (length l) ix = Some ps -> typed k (value_shape ix rs (length ps)) x ->
  nset k (Ar rs l) ix x = Ok (Ar rs (written ps (new_rows ix k rs (length ps) (Some (Leaf k x))) l)).
Proof.
  intros Hs Ht. cbn [nset]. rewrite positions_selected, Hs. cbn [bind].
  unfold value_shape in Ht. rewrite (typed_broadcast k) by exact Ht. cbn [bind].
  rewrite (typed_nmap k _ _ Ht). cbn [bind new_rows]. unfold written.
  destruct ix; reflexivity.
Qed.
Lemma nset_zero k rs l ix ps : selected (length l) ix = Some ps ->
  nset k (Ar rs l) ix (Sc (zero k)) = Ok (Ar rs (written ps (new_rows ix k rs (length ps) None) l)).
Proof.
  intros Hs. cbn [nset]. rewrite positions_selected, Hs. cbn [bind].
  rewrite broadcast_scalar. cbn [bind]. rewrite nfull_padding.
  rewrite (typed_nmap k _ _ (typed_padding k _)). cbn [bind new_rows]. unfold written.
  destruct ix as [i|z|a b]; [|reflexivity|reflexivity].
  cbn in Hs. destruct (pick_one _ i); [|discriminate]. injection Hs as <-. reflexivity.
Qed.
Definition set_one (ix : index) (lv : list (string * bval)) (kx : string * bval) : bval * option exn :=
  match assoc (fst kx) lv with
  | Some w => bset (snd kx) ix w
  | None => match snd kx with
            | Node _ => bset (snd kx) ix (Node [])
            | Leaf kd a => match nset kd a ix (Sc (zero kd)) with Ok a => (Leaf kd a, None) | Err e => (snd kx, Some e) end
            | NoneV => (snd kx, Some TypeError)
            end
  end.
Fixpoint set_all (f : string * bval -> bval * option exn) (l : list (string * bval)) : list (string * bval) * option exn :=
  match l with
  | [] => ([], None)
  | kx :: l =>
      let '(x, e) := f kx in
      match e with
      | Some e => ((fst kx, x) :: l, Some e)
      | None => let '(l', e) := set_all f l in ((fst kx, x) :: l', e)
      end
  end.
Lemma bset_node l ix lv : incl (map fst lv) (map fst l) ->
  bset (Node l) ix (Node lv) = let '(l, e) := set_all (set_one ix lv) l in (Node l, e).
Proof.
  intro H. cbn [bset].
  replace (forallb _ _) with true.
  2: { symmetry. apply forallb_forall. intros k Hk. apply has_key_spec, H, Hk. }
  cbn [negb]. match goal with |- (let '(_, _) := ?a in _) = (let '(_, _) := ?b in _) => assert (E : a = b); [|now rewrite E] end.
  clear H. induction l as [|[k x] l IH]; [reflexivity|].
  cbn [set_all]. rewrite <- IH. unfold set_one. cbn [fst snd]. reflexivity.
Qed.
Definition setitem_spec (b : bval) (v : option bval) (b' : bval) (ix : index) (ps : list nat) : Prop :=
  forall p, match at_path p b with
            | Some (Leaf k (Ar rs l)) =>
                at_path p b' = Some (Leaf k (Ar rs (written ps (new_rows ix k rs (length ps) (match v with Some v => at_path p v | None => None end)) l)))
            | Some (Node l) => exists l', at_path p b' = Some (Node l') /\ map fst l' = map fst l
            | Some _ => True
            | None => at_path p b' = None
            end.
Lemma new_rows_leaf ix k rs m k1 k2 x : new_rows ix k rs m (Some (Leaf k1 x)) = new_rows ix k rs m (Some (Leaf k2 x)).
Proof. reflexivity. Qed.
Lemma setitem_none b b' ix ps : setitem_spec b (Some (Node [])) b' ix ps -> setitem_spec b None b' ix ps.
Proof.
  intros H p. specialize (H p). destruct (at_path p b) as [[k [|rs l]|l|]|]; auto.
  destruct p as [|s p]; [cbn in *; exact H|]. cbn in H. exact H.
Qed.
Lemma bset_ok n ix ps b : selected n ix = Some ps -> distinct b -> forall v, assignable b v ix n (length ps) ->
  exists b', bset b ix v = (b', None) /\ setitem_spec b (Some v) b' ix ps.
Proof.
  intros Hs. induction b as [k a|l IH|] using bval_ind'; intros Hd v Hv.
  - pose proof (Hv []) as H0. cbn in H0. destruct H0 as (rs & l & -> & Hl & H0).
    destruct v as [k' x|lv|]; [|contradiction|contradiction].
    cbn [bset]. rewrite (nset_value k rs l ix ps x) by (rewrite ?Hl; assumption).
    eexists. split; [reflexivity|].
    intros [|s p]; cbn; auto.
  - pose proof (Hv []) as H0. cbn in H0. destruct v as [k' x|lv|]; [contradiction| |contradiction].
    rewrite bset_node by exact H0.
    assert (Hch : Forall (fun kx => exists x', set_one ix lv kx = (x', None) /\ setitem_spec (snd kx) (assoc (fst kx) lv) x' ix ps) l).
    { rewrite Forall_forall in IH |- *. intros [k x] Hin. unfold set_one. cbn [fst snd].
      pose proof (In_assoc k x l (Hd [] l eq_refl) Hin) as Ek.
      assert (Hdx : distinct x) by (now apply (distinct_child (Node l) k x l)).
      destruct (assoc k lv) as [w|] eqn:Ew.
      - apply (IH (k, x) Hin Hdx). intro p. specialize (Hv (k :: p)). rewrite !at_cons, Ek, Ew in Hv. exact Hv.
      - destruct x as [kd a|lx|].
        + specialize (Hv [k]). rewrite !at_cons, Ek, Ew in Hv. cbn in Hv. destruct Hv as (rs & l' & -> & Hl & _).
          rewrite (nset_zero kd rs l' ix ps) by (now rewrite Hl). eexists. split; [reflexivity|].
          intros [|s p]; cbn; auto.
        + destruct (IH (k, Node lx) Hin Hdx (Node [])) as (b' & Hb & Hg).
          { intro p. specialize (Hv (k :: p)). rewrite !at_cons, Ek, Ew in Hv. cbn [snd].
            destruct (at_path p (Node lx)) as [[kd a|l'|]|] eqn:E; [|destruct p; cbn; [intros ? []|exact Logic.I]|exact Hv|exact Logic.I].
            destruct Hv as (rs & l' & -> & Hl & _). exists rs, l'. repeat split; [exact Hl|].
            destruct p; cbn; [discriminate E|exact Logic.I]. }
          cbn [snd] in Hb, Hg. exists b'. split; [exact Hb|]. now apply setitem_none.
        + specialize (Hv [k]). rewrite !at_cons, Ek, Ew in Hv. contradiction. }
    assert (HM : exists l', set_all (set_one ix lv) l = (l', None) /\ map fst l' = map fst l /\
               forall k, match assoc k l with
                         | Some x => exists x', assoc k l' = Some x' /\ setitem_spec x (assoc k lv) x' ix ps
                         | None => assoc k l' = None
                         end).
    { clear -Hch. induction Hch as [|[k x] l (r & Hr & Hg) _ (l' & HM & Hk & Hl)].
      - exists []. repeat split.
      - exists ((k, r) :: l'). cbn [set_all fst snd] in *. rewrite Hr, HM. split; [reflexivity|].
        cbn. split; [now rewrite Hk|]. intro k'. destruct (String.eqb k' k) eqn:E; [|apply Hl].
        apply String.eqb_eq in E. subst. eauto. }
    destruct HM as (l' & HM & Hk & Hl). rewrite HM. eexists. split; [reflexivity|].
    intros [|k p].
    + cbn. eauto.
    + rewrite !at_cons. specialize (Hl k). destruct (assoc k l) as [x|].
      * destruct Hl as (r & -> & Hg). specialize (Hg p). destruct (at_path p x) as [[k' [|rs' l'']|l''|]|]; auto.
      * now rewrite Hl.
  - pose proof (Hv []). contradiction.
Qed.

(** Item assignment: at every path exactly the selected rows are replaced, by the rows of the
    value or by padding where the value has nothing; all other rows and the keys are unchanged. *)
Lemma C20_setitem_lemma : forall (b v : bval) (n : nat) (ix : index) (ps : list nat),
  distinct b -> selected n ix = Some ps -> assignable b v ix n (length ps) ->
  exists b', bset b ix v = (b', None) /\
    forall p, match at_path p b with
              | Some (Leaf k (Ar rs l)) =>
                  exists l', at_path p b' = Some (Leaf k (Ar rs l')) /\ length l' = length l /\
                    forall r, r < length l ->
                      nth_error l' r = match write_at ps (new_rows ix k rs (length ps) (at_path p v)) r with
                                       | Some x => Some x
                                       | None => nth_error l r
                                       end
              | Some (Node l) => exists l', at_path p b' = Some (Node l') /\ map fst l' = map fst l
              | Some _ => True
              | None => at_path p b' = None
              end.
Proof.
  intros b v n ix ps Hd Hs Hv. destruct (bset_ok n ix ps b Hs Hd v Hv) as (b' & Hb & Hg).
  exists b'. split; [exact Hb|]. intro p. specialize (Hg p).
  destruct (at_path p b) as [[k [|rs l]|l|]|]; auto.
  eexists. split; [exact Hg|]. split; [apply written_length|]. intros r Hr. now apply written_nth.
Qed.

(** A value with a key the batch does not have, or a value that is not a batch, raises ValueError
    and changes nothing. *)
Lemma C20_setitem_reject_lemma : forall (l : list (string * bval)) (v : bval) (ix : index),
  (forall lv, v = Node lv -> exists k, In k (map fst lv) /\ ~ In k (map fst l)) ->
  bset (Node l) ix v = (Node l, Some ValueError).
Proof.
  intros l [k a|lv|] ix H; [reflexivity| |reflexivity]. cbn [bset].
  destruct (forallb _ _) eqn:E; [|reflexivity]. exfalso.
  destruct (H lv eq_refl) as (k & Hk & Hn). rewrite forallb_forall in E. apply E, has_key_spec in Hk. contradiction.
Qed.

(** An empty batch cannot be indexed. *)
Lemma C19_getitem_empty_lemma : forall (ix : index), bgetitem (Node []) ix = Err IndexError.
Proof. reflexivity. Qed.

Lemma nmap_none sh : nmap (conv KFloat) (nfull sh (CO None)) = Ok (constant CNan sh).
Proof.
  induction sh as [|n sh IH]; [reflexivity|]. cbn [nfull constant]. rewrite nmap_Ar.
  replace (mapM (nmap (conv KFloat)) (repeat (nfull sh (CO None)) n)) with (Ok (repeat (constant CNan sh) n)); [reflexivity|].
  induction n as [|n IHn]; [reflexivity|]. cbn [repeat mapM]. rewrite IH. cbn [bind]. now rewrite <- IHn.
Qed.
Lemma find_combine_repeat (x : nd) ps r : In r ps -> option_map snd (find (fun px => fst px =? r) (rev (combine ps (repeat x (length ps))))) = Some x.
Proof.
  intro Hin. assert (H : exists px, find (fun px : nat * nd => fst px =? r) (rev (combine ps (repeat x (length ps)))) = Some px).
  { destruct (find _ _) as [px|] eqn:E; [eauto|]. exfalso. pose proof (find_none _ _ E (r, x)) as H. cbn in H.
    rewrite Nat.eqb_refl in H. discriminate H. apply -> in_rev. clear -Hin. induction ps as [|p ps IH]; [easy|]. cbn. destruct Hin as [->|H]; [now left|right; auto]. }
  destruct H as [[i y] E]. rewrite E. apply find_some in E as [Hi _]. apply in_rev in Hi. apply in_combine_r in Hi.
  apply repeat_spec in Hi. cbn. now rewrite Hi.
Qed.
(** None assigned to a float array writes NaN to the selected rows and to nothing else. *)
Lemma C20_none_lemma : forall (s : string) (rs : list nat) (l : list nd) (ix : index) (ps : list nat),
  selected (length l) ix = Some ps ->
  exists l', bset (Node [(s, Leaf KFloat (Ar rs l))]) ix (Node [(s, NoneV)]) = (Node [(s, Leaf KFloat (Ar rs l'))], None) /\ length l' = length l /\
    forall r, r < length l -> nth_error l' r = if in_dec Nat.eq_dec r ps then Some (constant CNan rs) else nth_error l r.
Proof.
  intros s rs l ix ps Hs. exists (written ps (repeat (constant CNan rs) (length ps)) l). split; [|split; [apply written_length|]].
  - cbn [bset keys map fst forallb has_key existsb]. rewrite String.eqb_refl. cbn [andb negb assoc]. rewrite String.eqb_refl.
    cbn [orb andb negb nset]. rewrite positions_selected, Hs. cbn [bind]. rewrite broadcast_scalar. cbn [bind].
    rewrite nmap_none. cbn [bind]. unfold written. destruct ix as [i|z|a b]; [|reflexivity|reflexivity].
    cbn in Hs. destruct (pick_one _ i); [|discriminate]. injection Hs as <-. reflexivity.
  - intros r Hr. rewrite written_nth by exact Hr. unfold write_at. destruct (in_dec Nat.eq_dec r ps) as [Hi|Hi].
    + now rewrite find_combine_repeat.
    + destruct (find _ _) as [px|] eqn:E; [exfalso|reflexivity]. apply find_some in E as [E1 E2]. apply in_rev in E1.
      destruct px as [i x]. apply in_combine_l in E1. cbn in E2. apply Nat.eqb_eq in E2. now subst.
Qed.
