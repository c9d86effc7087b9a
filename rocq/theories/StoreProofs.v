(** * Writing into the storage *)
From Verif Require Import PyLemmas BatchModel BatchSpec BatchProofs StoreModel StoreSpec.
From Verif Require BufferModel.
From Coq Require Import String.
Import List BatchModel.
Open Scope string_scope.
Open Scope list_scope.
Open Scope nat_scope.

(** ** Dicts *)
Lemma assoc_put {X} k k' (x : X) l : assoc k' (put k x l) = if String.eqb k' k then Some x else assoc k' l.
Proof.
  induction l as [|[k0 y] l IH]; [reflexivity|]. cbn [put]. destruct (String.eqb k k0) eqn:E; cbn [assoc].
  - apply String.eqb_eq in E. subst k0. destruct (String.eqb k' k); reflexivity.
  - rewrite IH. destruct (String.eqb k' k0) eqn:E1; [|reflexivity].
    destruct (String.eqb k' k) eqn:E2; [|reflexivity].
    apply String.eqb_eq in E1, E2. subst. rewrite String.eqb_refl in E. discriminate.
Qed.
Lemma put_keys {X} k (x : X) l s : In s (map fst (put k x l)) <-> s = k \/ In s (map fst l).
Proof.
  rewrite !assoc_Some_key. setoid_rewrite assoc_put. destruct (String.eqb s k) eqn:E.
  - apply String.eqb_eq in E. split; [auto|eauto].
  - apply String.eqb_neq in E. split; [auto|]. intros [H|H]; [contradiction|exact H].
Qed.
Lemma put_NoDup {X} k (x : X) l : NoDup (map fst l) -> NoDup (map fst (put k x l)).
Proof.
  induction l as [|[k0 y] l IH]; cbn [put]; [constructor; [intros []|constructor]|].
  intro H. inversion H as [|? ? H1 H2]; subst. destruct (String.eqb k k0) eqn:E; cbn [map fst].
  - apply String.eqb_eq in E. subst. constructor; assumption.
  - constructor; [|auto]. intro Hin. apply put_keys in Hin. destruct Hin as [->|Hin]; [now rewrite String.eqb_refl in E|contradiction].
Qed.
Lemma distinct_node l : NoDup (map fst l) -> (forall k x, assoc k l = Some x -> distinct x) -> distinct (Node l).
Proof.
  intros H1 H2 [|k p] l' Hp; [cbn in Hp; injection Hp as <-; exact H1|].
  rewrite at_cons in Hp. destruct (assoc k l) as [x|] eqn:E; [|discriminate]. exact (H2 k x E p l' Hp).
Qed.
Definition oat (p : list string) (o : option bval) : option bval := match o with Some b => at_path p b | None => None end.
Lemma at_node k p l : at_path (k :: p) (Node l) = oat p (assoc k l).
Proof. rewrite at_cons. destruct (assoc k l); reflexivity. Qed.

Lemma at_node_gen s p b : at_path (s :: p) b = match b with Node l => oat p (assoc s l) | _ => None end.
Proof. destruct b; try reflexivity. apply at_node. Qed.

(** ** A first attempt at assignment *)
Definition okeys (o : option bval) : list string := match o with Some (Node l) => map fst l | _ => [] end.
Definition fit (n : nat) (m : nat) (b v : bval) : Prop :=
  forall p,
    at_path p b <> Some NoneV /\ at_path p v <> Some NoneV /\
    forall k a, at_path p b = Some (Leaf k a) ->
      exists rs l, a = Ar rs l /\ length l = n /\
      match at_path p v with
      | None => True
      | Some (Leaf _ x) => typed k (m :: rs) x
      | Some _ => False
      end.
(** Same layout, and rows outside [ps] unchanged. *)
Definition touched (ps : list nat) (b b' : bval) : Prop :=
  forall p, match at_path p b with
            | Some (Leaf k (Ar rs l)) =>
                exists l', at_path p b' = Some (Leaf k (Ar rs l')) /\ length l' = length l /\
                  forall r, ~ In r ps -> nth_error l' r = nth_error l r
            | Some (Leaf k (Sc c)) => True
            | Some (Node l) => exists l', at_path p b' = Some (Node l') /\ map fst l' = map fst l
            | Some NoneV => True
            | None => at_path p b' = None
            end.
Definition below (v b : bval) : Prop :=
  forall p, match at_path p v with
            | Some (Leaf _ _) => exists k a, at_path p b = Some (Leaf k a)
            | Some (Node lv) => exists l, at_path p b = Some (Node l) /\ incl (map fst lv) (map fst l)
            | _ => True
            end.
Lemma touched_refl ps b : touched ps b b.
Proof.
  intro p. destruct (at_path p b) as [[k [c|rs l]|l|]|] eqn:E; auto.
  - exists l. auto.
  - exists l. auto.
Qed.
Lemma write_at_None ps vs r : write_at ps vs r = None -> length vs = length ps -> ~ In r ps.
Proof.
  unfold write_at. intros H Hl Hin. destruct (find _ _) eqn:E; [discriminate|].
  assert (X : exists x, In (r, x) (combine ps vs)).
  { clear -Hl Hin. revert vs Hl. induction ps as [|q ps IH]; intros [|x vs] Hl; cbn in *; try contradiction; try discriminate.
    destruct Hin as [->|Hin]; [eauto|]. destruct (IH Hin vs) as [y Hy]; [lia|eauto]. }
  destruct X as [x Hx]. rewrite in_rev in Hx. pose proof (find_none _ _ E _ Hx) as F. cbn in F. rewrite Nat.eqb_refl in F. discriminate.
Qed.
Lemma write_at_notin ps vs r : ~ In r ps -> write_at ps vs r = None.
Proof.
  intro H. unfold write_at. destruct (find _ _) as [[q x]|] eqn:E; [|reflexivity]. exfalso.
  apply find_some in E as [E1 E2]. apply in_rev in E1. cbn in E2. apply Nat.eqb_eq in E2. subst.
  apply in_combine_l in E1. contradiction.
Qed.
Lemma written_outside ps vs (l : list nd) r : ~ In r ps -> nth_error (written ps vs l) r = nth_error l r.
Proof.
  intro H. destruct (Nat.lt_ge_cases r (length l)) as [Hr|Hr].
  - rewrite written_nth by exact Hr. now rewrite write_at_notin.
  - replace (nth_error l r) with (@None nd) by (symmetry; apply nth_error_None; exact Hr).
    apply nth_error_None. now rewrite written_length.
Qed.
Lemma touched_leaf ps k rs vs l : touched ps (Leaf k (Ar rs l)) (Leaf k (Ar rs (written ps vs l))).
Proof.
  intros [|s p]; cbn; [|reflexivity]. eexists. split; [reflexivity|]. split; [apply written_length|]. intros. now apply written_outside.
Qed.
Lemma bset_try n zs ps b : selected n (IArr zs) = Some ps -> distinct b -> forall v, fit n (length ps) b v ->
  exists b' e, bset b (IArr zs) v = (b', e) /\ (e = None \/ e = Some ValueError) /\ touched ps b b' /\ (e = None -> below v b).
Proof.
  intros Hs. induction b as [k a|l IH|] using bval_ind'; intros Hd v Hf.
  - destruct (Hf []) as (_ & Hv & H). destruct (H k a eq_refl) as (rs & l & -> & Hl & Ht). cbn [at_path] in Ht, Hv.
    destruct v as [k' x|lv|]; [|contradiction|congruence]. cbn [bset].
    rewrite (nset_value k rs l (IArr zs) ps x) by (rewrite ?Hl; assumption).
    do 2 eexists. split; [reflexivity|]. split; [now left|]. split; [apply touched_leaf|].
    intros _ [|s p]; cbn; eauto.
  - destruct v as [k' x|lv|].
    + cbn [bset]. do 2 eexists. split; [reflexivity|]. split; [now right|]. split; [apply touched_refl|]. discriminate.
    + destruct (forallb (fun k => has_key k l) (keys lv)) eqn:Ek.
      2: { cbn [bset]. rewrite Ek. do 2 eexists. split; [reflexivity|]. split; [now right|]. split; [apply touched_refl|]. discriminate. }
      assert (Hi : incl (map fst lv) (map fst l)).
      { intros s Hin. rewrite forallb_forall in Ek. now apply has_key_spec, Ek. }
      rewrite bset_node by exact Hi.
      assert (Hch : Forall (fun kx => exists x' e, set_one (IArr zs) lv kx = (x', e) /\ (e = None \/ e = Some ValueError) /\ touched ps (snd kx) x'
                       /\ (e = None -> forall w, assoc (fst kx) lv = Some w -> below w (snd kx))) l).
      { rewrite Forall_forall in IH |- *. intros [k x] Hin. unfold set_one. cbn [fst snd].
        pose proof (In_assoc k x l (Hd [] l eq_refl) Hin) as Exk.
        assert (Hdx : distinct x) by (now apply (distinct_child (Node l) k x l)).
        destruct (assoc k lv) as [w|] eqn:Ew.
        - destruct (IH (k, x) Hin Hdx w) as (x' & e & E1 & E2 & E3 & E4).
          + intro p. specialize (Hf (k :: p)). rewrite !at_cons, Exk, Ew in Hf. exact Hf.
          + exists x', e. repeat split; auto. intros He w' [= <-]. auto.
        - destruct x as [kd a|lx|].
          + destruct (Hf [k]) as (_ & _ & H). rewrite at_cons, Exk in H. destruct (H kd a eq_refl) as (rs & l' & -> & Hl & _).
            rewrite (nset_zero kd rs l' (IArr zs) ps) by (now rewrite Hl). do 2 eexists. split; [reflexivity|]. split; [now left|].
            split; [apply touched_leaf|]. discriminate.
          + destruct (IH (k, Node lx) Hin Hdx (Node [])) as (x' & e & E1 & E2 & E3 & E4).
            * intro p. destruct (Hf (k :: p)) as (H1 & H2 & H3). rewrite at_cons, Exk in H1, H3. cbn [snd].
              split; [exact H1|]. split; [destruct p; cbn; discriminate|]. intros kd a Hp. destruct (H3 kd a Hp) as (rs & l' & -> & Hl & _).
              exists rs, l'. repeat split; auto. destruct p; cbn; [discriminate Hp|exact Logic.I].
            * cbn [snd] in E1, E3. exists x', e. repeat split; auto. discriminate.
          + destruct (Hf [k]) as (H & _). rewrite at_cons, Exk in H. cbn in H. congruence. }
      assert (HM : exists l' e, set_all (set_one (IArr zs) lv) l = (l', e) /\ (e = None \/ e = Some ValueError) /\ map fst l' = map fst l /\
                 (forall k, match assoc k l with
                           | Some x => exists x', assoc k l' = Some x' /\ touched ps x x'
                           | None => assoc k l' = None
                           end) /\
                 (e = None -> Forall (fun kx => forall w, assoc (fst kx) lv = Some w -> below w (snd kx)) l)).
      { clear -Hch. induction Hch as [|[k x] l (r & e & Hr & He & Ht & Hb) _ (l' & e' & HM & He' & Hk & Hl & Hbl)].
        - exists [], None. cbn. repeat split; auto.
        - cbn [set_all fst snd] in *. rewrite Hr. destruct He as [-> | ->].
          + rewrite HM. exists ((k, r) :: l'), e'. split; [reflexivity|]. split; [exact He'|]. split; [cbn; now rewrite Hk|].
            split; [|intro E; constructor; cbn; auto].
            intro k'. cbn. destruct (String.eqb k' k); [eauto|apply Hl].
          + exists ((k, r) :: l), (Some ValueError). split; [reflexivity|]. split; [now right|]. split; [reflexivity|].
            split; [|discriminate]. intro k'. cbn. destruct (String.eqb k' k); [eauto|].
            destruct (assoc k' l); [|reflexivity]. eexists. split; [reflexivity|apply touched_refl]. }
      destruct HM as (l' & e & HM & He & Hk & Hl & Hb). rewrite HM. exists (Node l'), e. split; [reflexivity|]. split; [exact He|]. split.
      * intros [|k p]; [cbn; eauto|]. rewrite !at_cons. specialize (Hl k). destruct (assoc k l) as [x|]; [|now rewrite Hl].
        destruct Hl as (x' & -> & Ht). apply Ht.
      * intros E [|k p]; [cbn; eauto|]. rewrite !at_cons. destruct (assoc k lv) as [w|] eqn:Ew; [|exact Logic.I].
        assert (Hin : In k (map fst l)) by (apply Hi; apply assoc_Some_key; eauto).
        apply assoc_Some_key in Hin as [x Ex]. rewrite Ex. specialize (Hb E). rewrite Forall_forall in Hb.
        apply (Hb (k, x) (assoc_In _ _ _ Ex) w Ew).
    + destruct (Hf []) as (_ & H & _). cbn in H. congruence.
  - destruct (Hf []) as (H & _). cbn in H. congruence.
Qed.

(** ** Allocation *)
Definition fresh (size : nat) (k : akind) (a : nd) (r : option bval) : Prop :=
  exists rs x, a = Ar rs x /\ r = Some (Leaf k (padding k (size :: rs))).
(** What stands at a path after allocation, given what stood there in the storage and the batch. *)
Definition alloc_at (size : nat) (m v r : option bval) : Prop :=
  match m, v with
  | Some (Leaf _ _), _ => r = m
  | _, Some (Leaf k a) => fresh size k a r
  | None, None => r = None
  | _, _ => exists l, r = Some (Node l) /\ forall s, In s (map fst l) <-> In s (okeys m) \/ In s (okeys v)
  end.
Definition compat_at (m v : option bval) : Prop :=
  m <> Some NoneV /\ v <> Some NoneV /\
  (forall k a l, m = Some (Leaf k a) -> v <> Some (Node l)) /\
  (forall k a l, m = Some (Node l) -> v = Some (Leaf k a) -> l = []) /\
  (forall k a, v = Some (Leaf k a) -> exists rs x, a = Ar rs x).
Lemma create_items l size stack : create_value (Node l) size stack = let* l := mapM (fun kx => let* x := create_value (snd kx) size stack in Ok (fst kx, x)) l in Ok (Node l).
Proof.
  cbn [create_value]. match goal with |- bind ?a _ = bind ?b _ => assert (E : a = b); [|now rewrite E] end.
  induction l as [|[k x] l IH]; [reflexivity|]. cbn [mapM]. rewrite <- IH. cbn [fst snd]. destruct (create_value x size stack); reflexivity.
Qed.
Lemma create_ok size v : distinct v -> (forall p, compat_at None (at_path p v)) ->
  exists r, create_value v size false = Ok r /\ distinct r /\ forall p, alloc_at size None (at_path p v) (at_path p r).
Proof.
  induction v as [k a|l IH|] using bval_ind'; intros Hd Hc.
  - destruct (Hc []) as (_ & _ & _ & _ & H). destruct (H k a eq_refl) as (rs & x & ->). cbn [create_value].
    rewrite nfull_padding. eexists. split; [reflexivity|]. split; [intros [|s p] l' Hp; discriminate|].
    intros [|s p]; cbn [at_path alloc_at]; [|reflexivity]. exists rs, x. auto.
  - rewrite create_items.
    assert (Hch : Forall (fun kx => exists r, create_value (snd kx) size false = Ok r /\ distinct r /\ forall p, alloc_at size None (at_path p (snd kx)) (at_path p r)) l).
    { rewrite Forall_forall in IH |- *. intros [k x] Hin. pose proof (In_assoc k x l (Hd [] l eq_refl) Hin) as Ek.
      apply (IH (k, x) Hin); [now apply (distinct_child (Node l) k x l)|]. intro p. specialize (Hc (k :: p)). rewrite at_cons, Ek in Hc. exact Hc. }
    assert (HM : exists l', mapM (fun kx => let* x := create_value (snd kx) size false in Ok (fst kx, x)) l = Ok l' /\ map fst l' = map fst l /\
               forall k, match assoc k l with
                         | Some x => exists r, assoc k l' = Some r /\ distinct r /\ forall p, alloc_at size None (at_path p x) (at_path p r)
                         | None => assoc k l' = None
                         end).
    { clear -Hch. induction Hch as [|[k x] l (r & Hr & Hg) _ (l' & HM & Hk & Hl)].
      - exists []. repeat split.
      - exists ((k, r) :: l'). cbn [mapM fst snd] in *. rewrite Hr. cbn [bind]. rewrite HM. split; [reflexivity|].
        cbn. split; [now rewrite Hk|]. intro k'. destruct (String.eqb k' k); [eauto|apply Hl]. }
    destruct HM as (l' & HM & Hk & Hl). rewrite HM. cbn [bind]. exists (Node l'). split; [reflexivity|]. split.
    + apply distinct_node; [rewrite Hk; exact (Hd [] l eq_refl)|]. intros k x Hx. specialize (Hl k). destruct (assoc k l).
      * destruct Hl as (r & Hr & Hdr & _). rewrite Hr in Hx. injection Hx as <-. exact Hdr.
      * congruence.
    + intros [|k p].
      * cbn. exists l'. split; [reflexivity|]. intro s. rewrite Hk. tauto.
      * rewrite !at_cons. specialize (Hl k). destruct (assoc k l) as [x|].
        -- destruct Hl as (r & -> & _ & Hg). apply Hg.
        -- rewrite Hl. reflexivity.
  - destruct (Hc []) as (_ & H & _). cbn in H. congruence.
Qed.

Definition alloc_one (size : nat) (stack : bool) (m : list (string * bval)) (kx : string * bval) : res (list (string * bval)) :=
  match assoc (fst kx) m with
  | Some (Node lm) =>
      match snd kx with
      | Node _ => let* lm := alloc (snd kx) size stack lm in Ok (put (fst kx) (Node lm) m)
      | _ => match lm with
             | [] => let* c := create_value (snd kx) size stack in Ok (put (fst kx) c m)
             | _ => Ok m
             end
      end
  | Some _ => Ok m
  | None => let* c := create_value (snd kx) size stack in Ok (put (fst kx) c m)
  end.
Lemma alloc_items lb size stack m : alloc (Node lb) size stack m = foldM (alloc_one size stack) lb m.
Proof.
  cbn [alloc]. revert m. induction lb as [|[k x] lb IH]; intro m; [reflexivity|].
  cbn [foldM]. unfold alloc_one at 1. cbn [fst snd].
  destruct (assoc k m) as [[kd a|lm|]|].
  - cbn [bind]. apply IH.
  - destruct x as [kx ax|lx|].
    + destruct lm; [destruct (create_value (Leaf kx ax) size stack)|]; cbn [bind]; try reflexivity; apply IH.
    + destruct (alloc (Node lx) size stack lm); cbn [bind]; [apply IH|reflexivity].
    + destruct lm; [destruct (create_value NoneV size stack)|]; cbn [bind]; try reflexivity; apply IH.
  - cbn [bind]. apply IH.
  - destruct (create_value x size stack); cbn [bind]; [apply IH|reflexivity].
Qed.
Lemma alloc_ok size v : distinct v -> is_node v = true -> forall lm, distinct (Node lm) -> (forall p, compat_at (at_path p (Node lm)) (at_path p v)) ->
  exists lr, alloc v size false lm = Ok lr /\ distinct (Node lr) /\ forall p, alloc_at size (at_path p (Node lm)) (at_path p v) (at_path p (Node lr)).
Proof.
  induction v as [k a|lv IH|] using bval_ind'; intros Hd Hn lm Hdm Hc; try discriminate. clear Hn.
  rewrite alloc_items.
  assert (Hstep : forall k x m, In (k, x) lv -> assoc k m = assoc k lm -> NoDup (map fst m) ->
     exists m', alloc_one size false m (k, x) = Ok m' /\ NoDup (map fst m') /\
       (forall s, s <> k -> assoc s m' = assoc s m) /\ (exists r, assoc k m' = Some r /\ distinct r /\ forall p, alloc_at size (oat p (assoc k lm)) (at_path p x) (at_path p r))).
  { intros k x m Hin Em HND. pose proof (In_assoc k x lv (Hd [] lv eq_refl) Hin) as Ek.
    assert (Hdx : distinct x) by (now apply (distinct_child (Node lv) k x lv)).
    assert (Hcx : forall p, compat_at (oat p (assoc k lm)) (at_path p x)).
    { intro p. specialize (Hc (k :: p)). rewrite at_node, at_cons, Ek in Hc. exact Hc. }
    assert (Hput : forall r, distinct r -> (forall p, alloc_at size (oat p (assoc k lm)) (at_path p x) (at_path p r)) ->
       NoDup (map fst (put k r m)) /\ (forall s, s <> k -> assoc s (put k r m) = assoc s m) /\
       (exists r', assoc k (put k r m) = Some r' /\ distinct r' /\ forall p, alloc_at size (oat p (assoc k lm)) (at_path p x) (at_path p r'))).
    { intros r Hr Ha. split; [now apply put_NoDup|]. split.
      - intros s Hs. rewrite assoc_put. apply String.eqb_neq in Hs. now rewrite Hs.
      - exists r. rewrite assoc_put, String.eqb_refl. auto. }
    unfold alloc_one. cbn [fst snd]. rewrite Em. destruct (assoc k lm) as [mk|] eqn:Emk.
    - assert (Hdmk : distinct mk) by (now apply (distinct_child (Node lm) k mk lm)).
      destruct mk as [kd a|lmk|].
      + exists m. split; [reflexivity|]. split; [exact HND|]. split; [auto|]. exists (Leaf kd a). split; [exact Em|]. split; [exact Hdmk|].
        intros [|s p]; cbn [oat at_path alloc_at]; [reflexivity|].
        destruct (Hcx []) as (_ & H1 & H2 & _). cbn [oat at_path] in H1, H2. destruct x as [k' a'|lx|]; [reflexivity| |congruence].
        exfalso. exact (H2 kd a lx eq_refl eq_refl).
      + destruct x as [k' a'|lx|].
        * destruct (Hcx []) as (_ & _ & _ & H1 & _). cbn [oat at_path] in H1. rewrite (H1 k' a' lmk eq_refl eq_refl) in *.
          destruct (create_ok size (Leaf k' a') Hdx) as (r & Er & Hdr & Har).
          { intro p. destruct (Hcx p) as (_ & H2 & _ & _ & H3). repeat split; auto; discriminate. }
          rewrite Er. cbn [bind]. exists (put k r m). split; [reflexivity|]. apply Hput; [exact Hdr|].
          intros [|s p]; [exact (Har [])|]. specialize (Har (s :: p)). cbn [oat at_path alloc_at] in *. cbn [find]. exact Har.
        * rewrite Forall_forall in IH. destruct (IH (k, Node lx) Hin Hdx eq_refl lmk Hdmk Hcx) as (lr & Er & Hdr & Har).
          cbn [snd] in Er. rewrite Er. cbn [bind]. exists (put k (Node lr) m). split; [reflexivity|]. apply Hput; [exact Hdr|exact Har].
        * destruct (Hcx []) as (_ & H & _). cbn in H. congruence.
      + destruct (Hcx []) as (H & _). cbn in H. congruence.
    - destruct (create_ok size x Hdx Hcx) as (r & Er & Hdr & Har). rewrite Er. cbn [bind]. exists (put k r m). split; [reflexivity|].
      apply Hput; [exact Hdr|exact Har]. }
  assert (HM : forall lv', incl lv' lv -> NoDup (map fst lv') -> forall m, NoDup (map fst m) -> (forall k, In k (map fst lv') -> assoc k m = assoc k lm) ->
     exists m', foldM (alloc_one size false) lv' m = Ok m' /\ NoDup (map fst m') /\
       (forall s, ~ In s (map fst lv') -> assoc s m' = assoc s m) /\
       (forall k x, In (k, x) lv' -> exists r, assoc k m' = Some r /\ distinct r /\ forall p, alloc_at size (oat p (assoc k lm)) (at_path p x) (at_path p r))).
  { clear IH. induction lv' as [|[k x] lv' IH]; intros Hi HN m HNm Hm.
    - exists m. cbn. repeat split; auto. intros k x [].
    - cbn [map fst] in HN. inversion HN as [|? ? HN1 HN2]; subst.
      destruct (Hstep k x m) as (m1 & E1 & N1 & O1 & r & Er & Hr); [apply Hi; now left|apply Hm; now left|exact HNm|].
      destruct (IH (fun y Hy => Hi y (or_intror Hy)) HN2 m1 N1) as (m2 & E2 & N2 & O2 & R2).
      { intros k' Hk'. rewrite O1 by (intros ->; contradiction). apply Hm. now right. }
      exists m2. cbn [foldM]. rewrite E1. cbn [bind]. split; [exact E2|]. split; [exact N2|]. split.
      + intros s Hs. cbn in Hs. rewrite O2 by tauto. apply O1. intros ->. tauto.
      + intros k' x' [[= <- <-]|Hin]; [|now apply R2]. exists r. split; [|exact Hr]. now rewrite O2. }
  destruct (HM lv (fun _ h => h) (Hd [] lv eq_refl) lm (Hdm [] lm eq_refl) (fun _ _ => eq_refl)) as (lr & E & HN & HO & HR).
  exists lr. split; [exact E|].
  assert (Hkeys : forall s, In s (map fst lr) <-> In s (map fst lm) \/ In s (map fst lv)).
  { intro s. destruct (in_dec String.string_dec s (map fst lv)) as [Hs|Hs].
    - split; [auto|]. intros _. apply assoc_Some_key in Hs as [x Hx]. destruct (HR s x (assoc_In _ _ _ Hx)) as (r & Er & _).
      apply assoc_Some_key. eauto.
    - rewrite !(assoc_Some_key s lr), (assoc_Some_key s lm). rewrite HO by exact Hs. tauto. }
  split.
  - apply distinct_node; [exact HN|]. intros k x Hx. destruct (assoc k lv) as [w|] eqn:Ew.
    + destruct (HR k w (assoc_In _ _ _ Ew)) as (r & Er & Hdr & _). rewrite Er in Hx. injection Hx as <-. exact Hdr.
    + apply assoc_None in Ew. rewrite HO in Hx by exact Ew. now apply (distinct_child (Node lm) k x lm).
  - intros [|k p].
    + cbn. exists lr. split; [reflexivity|exact Hkeys].
    + rewrite !at_node. destruct (assoc k lv) as [w|] eqn:Ew.
      * destruct (HR k w (assoc_In _ _ _ Ew)) as (r & Er & Hdr & Ha). rewrite Er. apply Ha.
      * apply assoc_None in Ew. rewrite HO by exact Ew. cbn [oat]. 
        assert (Hnn : oat p (assoc k lm) <> Some NoneV).
        { destruct (Hc (k :: p)) as (H & _). rewrite at_node in H. exact H. }
        destruct (oat p (assoc k lm)) as [[kd a|l|]|]; cbn; auto; [|congruence]. exists l. split; [reflexivity|]. tauto.
Qed.

(** ** The conversion of reward and flags *)
Lemma binary_nmap a : binary a -> nmap as_bool a = Ok a.
Proof.
  induction a as [c|rs l IH] using nd_ind'; intro H.
  - cbn in H. destruct H as [-> | ->]; reflexivity.
  - rewrite nmap_Ar, mapM_id; [reflexivity|]. rewrite Forall_forall in IH |- *. intros x Hx. apply IH; [exact Hx|].
    cbn in H. clear IH. induction l as [|y l IHl]; [destruct Hx|]. destruct H as [H1 H2]. destruct Hx as [->|Hx]; auto.
Qed.
Lemma astype_ok key k f l k0 a : assoc key l = Some (Leaf k0 a) -> nmap f a = Ok a -> astype key k f l = Ok (put key (Leaf k a) l).
Proof. intros H1 H2. unfold astype. now rewrite H1, H2. Qed.
Lemma cast_ok ty size o : wop_ok ty size o ->
  exists b', cast (w_batch o) = Ok b' /\ is_node b' = true /\ distinct b' /\
    forall p, match at_path p (w_batch o) with
              | Some (Leaf k a) => at_path p b' = Some (Leaf (fst (ty p)) a)
              | Some (Node l) => exists l', at_path p b' = Some (Node l') /\ same_keys l l'
              | Some NoneV => True
              | None => at_path p b' = None
              end.
Proof.
  intros [[l El] Hd Hn Hl Hr Hs [Hrk (kr & ar & Er)] Hf]. rewrite El in *.
  destruct (Hf "done") as (K1 & k1 & a1 & E1 & B1); [cbn; auto|].
  destruct (Hf "terminated") as (K2 & k2 & a2 & E2 & B2); [cbn; auto|].
  destruct (Hf "truncated") as (K3 & k3 & a3 & E3 & B3); [cbn; auto|].
  pose proof (Hl _ _ _ Er) as [Tr _]. rewrite Hrk in Tr.
  pose proof (Hl _ _ _ E1) as [_ Q1]. pose proof (Hl _ _ _ E2) as [_ Q2]. pose proof (Hl _ _ _ E3) as [_ Q3].
  rewrite K1 in Q1. rewrite K2 in Q2. rewrite K3 in Q3.
  destruct Q1 as [-> | ?]; [|discriminate]. destruct Q2 as [-> | ?]; [|discriminate]. destruct Q3 as [-> | ?]; [|discriminate].
  rewrite at_node in Er, E1, E2, E3.
  assert (A : forall s k a, oat [] (assoc s l) = Some (Leaf k a) -> assoc s l = Some (Leaf k a)) by (intros s k a; destruct (assoc s l); auto).
  apply A in Er, E1, E2, E3. clear A.
  unfold cast. rewrite (astype_ok _ _ _ _ _ _ Er (typed_nmap _ _ _ Tr)). cbn [bind].
  set (l1 := put "rew" _ l).
  assert (F1 : assoc "done" l1 = Some (Leaf KInt a1)) by (unfold l1; rewrite assoc_put; exact E1).
  rewrite (astype_ok _ _ _ _ _ _ F1 (binary_nmap _ B1)). cbn [bind]. set (l2 := put "done" _ l1).
  assert (F2 : assoc "terminated" l2 = Some (Leaf KInt a2)) by (unfold l2, l1; rewrite !assoc_put; exact E2).
  rewrite (astype_ok _ _ _ _ _ _ F2 (binary_nmap _ B2)). cbn [bind]. set (l3 := put "terminated" _ l2).
  assert (F3 : assoc "truncated" l3 = Some (Leaf KInt a3)) by (unfold l3, l2, l1; rewrite !assoc_put; exact E3).
  rewrite (astype_ok _ _ _ _ _ _ F3 (binary_nmap _ B3)). cbn [bind]. set (l4 := put "truncated" _ l3).
  assert (Ha : forall s, assoc s l4 = if String.eqb s "rew" then Some (Leaf KFloat ar) else assoc s l).
  { intro s. unfold l4, l3, l2, l1. rewrite !assoc_put.
    destruct (String.eqb s "truncated") eqn:G3; [apply String.eqb_eq in G3; subst s; cbn [String.eqb]; symmetry; exact E3|].
    destruct (String.eqb s "terminated") eqn:G2; [apply String.eqb_eq in G2; subst s; cbn [String.eqb]; symmetry; exact E2|].
    destruct (String.eqb s "done") eqn:G1; [apply String.eqb_eq in G1; subst s; cbn [String.eqb]; symmetry; exact E1|].
    reflexivity. }
  exists (Node l4). split; [reflexivity|]. split; [reflexivity|]. split.
  - apply distinct_node.
    + unfold l4, l3, l2, l1. repeat apply put_NoDup. exact (Hd [] l eq_refl).
    + intros s x Hx. rewrite Ha in Hx. destruct (String.eqb s "rew").
      * injection Hx as <-. intros [|q p] l' Hp; discriminate.
      * now apply (distinct_child (Node l) s x l).
  - intros [|s p].
    + cbn. exists l4. split; [reflexivity|]. intro s. rewrite !assoc_Some_key, Ha.
      destruct (String.eqb s "rew") eqn:G; [|reflexivity]. apply String.eqb_eq in G. subst s. rewrite Er. split; eauto.
    + rewrite !at_node, Ha. destruct (String.eqb s "rew") eqn:G.
      * apply String.eqb_eq in G. subst s. rewrite Er. cbn [oat]. destruct p; cbn; [now rewrite Hrk|reflexivity].
      * destruct (oat p (assoc s l)) as [[k a|l'|]|] eqn:Ep; auto.
        -- destruct (Hl (s :: p) k a) as [_ [Q|Q]]; [now rewrite at_node|now rewrite Q|].
           injection Q as -> _. discriminate.
        -- exists l'. split; [reflexivity|]. intro q. reflexivity.
Qed.

(** ** A single transition is a batch with one row *)
Fixpoint lift (b : bval) : bval :=
  match b with
  | Leaf k a => Leaf k (Ar (shape a) [a])
  | Node l => Node (map (fun kx => (fst kx, lift (snd kx))) l)
  | NoneV => NoneV
  end.
Lemma assoc_lift k l : assoc k (map (fun kx => (fst kx, lift (snd kx))) l) = option_map lift (assoc k l).
Proof. exact (assoc_map (fun _ => lift) k l). Qed.
Lemma lift_keys (l : list (string * bval)) : map fst (map (fun kx => (fst kx, lift (snd kx))) l) = map fst l.
Proof. rewrite map_map. reflexivity. Qed.
Lemma at_lift p b : at_path p (lift b) = option_map lift (at_path p b).
Proof.
  revert b. induction p as [|k p IH]; intro b; [reflexivity|]. destruct b as [|l|]; try reflexivity.
  cbn [lift]. rewrite !at_cons, assoc_lift. destruct (assoc k l); [apply IH|reflexivity].
Qed.
Lemma lift_distinct b : distinct b -> distinct (lift b).
Proof.
  intros H p l Hp. rewrite at_lift in Hp. destruct (at_path p b) as [[| l0 |]|] eqn:E; cbn in Hp; try discriminate.
  injection Hp as <-. rewrite lift_keys. exact (H p l0 E).
Qed.
Lemma broadcast_one k rs x : typed k rs x -> broadcast (1 :: rs) x = Ok (Ar rs [x]).
Proof.
  intro H. unfold broadcast. pose proof (typed_shape _ _ _ H) as Hs.
  replace (strip (length (1 :: rs)) x) with (@Ok nd x).
  2: { destruct x; cbn [strip]; rewrite Hs; replace (length rs <=? length (1 :: rs)) with true by (symmetry; apply Nat.leb_le; cbn; lia); reflexivity. }
  cbn [bind bcast]. rewrite Hs, Nat.leb_refl, (typed_bcast k) by exact H. reflexivity.
Qed.
Lemma set_all_ext f g l : Forall (fun kx => f kx = g kx) l -> set_all f l = set_all g l.
Proof. induction 1 as [|kx l E _ IH]; [reflexivity|]. cbn [set_all]. now rewrite E, IH. Qed.
Lemma bset_lift m z : distinct m -> forall b,
  (forall p k rs l k' x, at_path p m = Some (Leaf k (Ar rs l)) -> at_path p b = Some (Leaf k' x) -> exists k2, typed k2 rs x) ->
  bset m (IArr [z]) (lift b) = bset m (IArr [z]) b.
Proof.
  induction m as [k a|l IH|] using bval_ind'; intros Hd b Ht.
  - destruct b as [k' x|lb|]; [|reflexivity|reflexivity]. cbn [lift bset]. destruct a as [c|rs l]; [reflexivity|].
    destruct (Ht [] k rs l k' x eq_refl eq_refl) as [k2 H2]. cbn [nset]. destruct (positions (length l) (IArr [z])) as [ps|e] eqn:E; [|reflexivity].
    assert (Hp : length ps = 1).
    { cbn in E. destruct (norm_index (length l) z); [|discriminate]. injection E as <-. reflexivity. }
    cbn [bind]. rewrite Hp. rewrite (broadcast_one k2 rs x H2).
    rewrite (typed_shape _ _ _ H2). rewrite (typed_broadcast k2); [reflexivity|]. cbn. repeat split. constructor; [exact H2|constructor].
  - destruct b as [k' x|lb|]; [reflexivity| |reflexivity].
    destruct (forallb (fun k => has_key k l) (keys lb)) eqn:Ek.
    2: { cbn [lift bset]. unfold keys at 1. rewrite lift_keys. unfold keys in Ek |- *. rewrite Ek. reflexivity. }
    assert (Hi : incl (map fst lb) (map fst l)).
    { intros s Hin. rewrite forallb_forall in Ek. now apply has_key_spec, Ek. }
    cbn [lift]. rewrite !bset_node; [|exact Hi|now rewrite lift_keys].
    rewrite (set_all_ext _ (set_one (IArr [z]) lb)); [reflexivity|]. rewrite Forall_forall in IH |- *. intros [k x] Hin.
    pose proof (In_assoc k x l (Hd [] l eq_refl) Hin) as Exk. unfold set_one. cbn [fst snd]. rewrite assoc_lift.
    destruct (assoc k lb) as [w|] eqn:Ew; [|reflexivity]. cbn [option_map]. apply (IH (k, x) Hin).
    + now apply (distinct_child (Node l) k x l).
    + intros p k0 rs l0 k' y H1 H2. apply (Ht (k :: p) k0 rs l0 k' y); rewrite at_cons, ?Exk, ?Ew; assumption.
  - destruct b; reflexivity.
Qed.
Lemma create_lift b size : create_value (lift b) size false = create_value b size true.
Proof.
  induction b as [k a|l IH|] using bval_ind'; [reflexivity| |reflexivity]. cbn [lift]. rewrite !create_items.
  assert (E : mapM (fun kx : string * bval => let* x := create_value (snd kx) size false in Ok (fst kx, x)) (map (fun kx => (fst kx, lift (snd kx))) l)
            = mapM (fun kx : string * bval => let* x := create_value (snd kx) size true in Ok (fst kx, x)) l); [|now rewrite E].
  induction IH as [|[k x] l Hx _ IHl]; [reflexivity|]. cbn [map mapM fst snd] in *. rewrite Hx, IHl. reflexivity.
Qed.
Lemma is_node_lift b : is_node (lift b) = is_node b.
Proof. destruct b; reflexivity. Qed.
Lemma alloc_lift b size : forall m, alloc (lift b) size false m = alloc b size true m.
Proof.
  induction b as [k a|l IH|] using bval_ind'; intro m; [reflexivity| |reflexivity]. cbn [lift]. rewrite !alloc_items.
  revert m. induction IH as [|[k x] l Hx _ IHl]; intro m; [reflexivity|]. cbn [map foldM fst snd] in *.
  assert (E : alloc_one size false m (k, lift x) = alloc_one size true m (k, x)).
  { unfold alloc_one. cbn [fst snd]. rewrite create_lift. destruct (assoc k m) as [[|lm|]|]; try reflexivity.
    destruct x as [kx ax|lx|]; try reflexivity. cbn [lift]. cbn [lift] in Hx. now rewrite Hx. }
  rewrite E. destruct (alloc_one size true m (k, x)); cbn [bind]; [apply IHl|reflexivity].
Qed.

(** ** One write *)
Lemma nth_repeat_gen {X} (x d : X) n i : i < n -> nth i (repeat x n) d = x.
Proof. revert i. induction n as [|n IH]; intros [|i] H; cbn; try lia; [reflexivity|]. apply IH. lia. Qed.
Definition holds (ty : list string -> akind * list nat) (size : nat) (ops : list wop) (m : bval) : Prop :=
  distinct m /\ is_node m = true /\
  forall p,
    (some_leaf p (map w_batch ops) -> at_path p m = Some (Leaf (fst (ty p)) (Ar (snd (ty p)) (contents ty size ops p)))) /\
    (~ some_leaf p (map w_batch ops) -> p = [] \/ (exists b l, In b (map w_batch ops) /\ at_path p b = Some (Node l)) ->
       exists l', at_path p m = Some (Node l') /\
         forall s, In s (map fst l') <-> exists b l, In b (map w_batch ops) /\ at_path p b = Some (Node l) /\ In s (map fst l)) /\
    (p <> [] -> (forall b, In b (map w_batch ops) -> at_path p b = None) -> at_path p m = None).
Lemma some_leaf_dec p bs : {some_leaf p bs} + {~ some_leaf p bs}.
Proof.
  induction bs as [|b bs [IH|IH]].
  - right. intros (b & k & a & [] & _).
  - left. destruct IH as (b' & k & a & H & E). exists b', k, a. split; [now right|exact E].
  - destruct (at_path p b) as [[k a|l|]|] eqn:E.
    + left. exists b, k, a. split; [now left|exact E].
    + right. intros (b' & k & a & [->|H] & E'); [congruence|]. apply IH. exists b', k, a. auto.
    + right. intros (b' & k & a & [->|H] & E'); [congruence|]. apply IH. exists b', k, a. auto.
    + right. intros (b' & k & a & [->|H] & E'); [congruence|]. apply IH. exists b', k, a. auto.
Qed.
Lemma node_dec p bs : {exists b l, In b bs /\ at_path p b = Some (Node l)} + {forall b l, In b bs -> at_path p b <> Some (Node l)}.
Proof.
  induction bs as [|b bs [IH|IH]].
  - right. intros b l [].
  - left. destruct IH as (b' & l & H & E). exists b', l. split; [now right|exact E].
  - destruct (at_path p b) as [[k a|l|]|] eqn:E; [right| |right|right]; try (intros b' l' [->|H]; [congruence|now apply IH]).
    left. exists b, l. split; [now left|exact E].
Qed.
Lemma latest_length ty size ops p : length (contents ty size ops p) = size.
Proof. unfold contents. now rewrite map_length, seq_length. Qed.
Lemma latest_absent ty p r ops : ~ some_leaf p (map w_batch ops) -> latest ty p (rev ops) r = padding (fst (ty p)) (snd (ty p)).
Proof.
  induction ops as [|o ops IH] using rev_ind; intro H; [reflexivity|]. rewrite rev_app_distr. cbn [rev app latest].
  assert (H1 : ~ some_leaf p (map w_batch ops)).
  { intros (b & k & a & Hb & E). apply H. exists b, k, a. rewrite map_app, in_app_iff. auto. }
  rewrite IH by exact H1. unfold given. destruct (at_path p (w_batch o)) as [[k a|l|]|] eqn:E.
  - exfalso. apply H. exists (w_batch o), k, a. rewrite map_app, in_app_iff. cbn. auto.
  - destruct (write_at _ _ r) eqn:W; [|reflexivity]. unfold write_at in W. destruct (find _ _) as [[q x]|] eqn:F; [|discriminate].
    injection W as <-. apply find_some in F as [F _]. apply in_rev, in_combine_r in F. now apply repeat_spec in F.
  - destruct (write_at _ _ r) eqn:W; [|reflexivity]. unfold write_at in W. destruct (find _ _) as [[q x]|] eqn:F; [|discriminate].
    injection W as <-. apply find_some in F as [F _]. apply in_rev, in_combine_r in F. now apply repeat_spec in F.
  - destruct (write_at _ _ r) eqn:W; [|reflexivity]. unfold write_at in W. destruct (find _ _) as [[q x]|] eqn:F; [|discriminate].
    injection W as <-. apply find_some in F as [F _]. apply in_rev, in_combine_r in F. now apply repeat_spec in F.
Qed.
Lemma selected_nat size ps : Forall (fun r => r < size) ps -> selected size (IArr (map Z.of_nat ps)) = Some ps.
Proof.
  cbn [selected]. induction 1 as [|r ps H _ IH]; [reflexivity|]. cbn [map fold_right]. rewrite IH. unfold pick_one.
  replace ((- Z.of_nat size <=? Z.of_nat r) && (Z.of_nat r <? Z.of_nat size))%Z with true by lia.
  rewrite Z.mod_small by lia. now rewrite Nat2Z.id.
Qed.

(** The written batch with a leading axis, up to the kinds of its arrays. *)
Definition stacked (o : wop) (v : bval) : Prop :=
  forall p, match at_path p (w_batch o) with
            | Some (Leaf _ a) => exists k, at_path p v = Some (Leaf k (if w_single o then Ar (shape a) [a] else a))
            | Some (Node l) => exists l', at_path p v = Some (Node l') /\ same_keys l l'
            | _ => at_path p v = None
            end.
Lemma given_new_rows ty size o v p k : wop_ok ty size o -> stacked o v -> k = fst (ty p) ->
  (forall l, at_path p (w_batch o) <> Some (Node l)) ->
  new_rows (IArr (map Z.of_nat (w_rows o))) k (snd (ty p)) (length (w_rows o)) (at_path p v) = given ty p o /\
  length (given ty p o) = length (w_rows o).
Proof.
  intros H Hv -> Hnn. specialize (Hv p). unfold given. destruct (at_path p (w_batch o)) as [[k a|l|]|] eqn:E.
  - destruct Hv as (k' & ->). pose proof (wk_leaf _ _ _ H p k a E) as [Ht _]. destruct (w_single o) eqn:Es.
    + cbn. split; [reflexivity|]. symmetry. now apply (wk_single _ _ _ H).
    + destruct a as [c|rs l]; cbn in Ht; [contradiction|]. cbn. split; [reflexivity|tauto].
  - exfalso. exact (Hnn l eq_refl).
  - rewrite Hv. cbn. split; [reflexivity|apply repeat_length].
  - rewrite Hv. cbn. split; [reflexivity|apply repeat_length].
Qed.

Lemma nth_contents ty size ops p r : r < size -> nth_error (contents ty size ops p) r = Some (latest ty p (rev ops) r).
Proof. intro H. unfold contents. rewrite (nth_error_map_seq (latest ty p (rev ops)) 0 size r). destruct (Nat.ltb_spec r size); [reflexivity|lia]. Qed.

Section Step.
Variables (ty : list string -> akind * list nat) (size : nat) (ops : list wop) (o : wop) (m : bval).
Hypothesis Hm : holds ty size ops m.
Hypothesis Hops : Forall (wop_ok ty size) ops.
Hypothesis Ho : wop_ok ty size o.
Hypothesis Hfit : Forall (fun o' => fits_after o' o) ops.

(** What stands at a path of the storage. *)
Lemma at_m p : (some_leaf p (map w_batch ops) /\ at_path p m = Some (Leaf (fst (ty p)) (Ar (snd (ty p)) (contents ty size ops p)))) \/
  (~ some_leaf p (map w_batch ops) /\ (exists l', at_path p m = Some (Node l') /\
         forall s, In s (map fst l') <-> exists b l, In b (map w_batch ops) /\ at_path p b = Some (Node l) /\ In s (map fst l))) \/
  (~ some_leaf p (map w_batch ops) /\ p <> [] /\ (forall b, In b (map w_batch ops) -> at_path p b = None) /\ at_path p m = None).
Proof.
  destruct Hm as (_ & _ & H). destruct (H p) as (H1 & H2 & H3). destruct (some_leaf_dec p (map w_batch ops)) as [L|L]; [left; auto|].
  right. destruct (node_dec p (map w_batch ops)) as [N|N]; [left; auto|].
  destruct p as [|s p]; [left; auto|]. right. split; [exact L|]. split; [discriminate|].
  assert (X : forall b, In b (map w_batch ops) -> at_path (s :: p) b = None).
  { intros b Hb. destruct (at_path (s :: p) b) as [[k a|l|]|] eqn:E; [|exfalso; exact (N b l Hb E)| |reflexivity].
    - exfalso. apply L. exists b, k, a. auto.
    - exfalso. apply in_map_iff in Hb as (o' & <- & Ho'). rewrite Forall_forall in Hops. exact (wk_none _ _ _ (Hops o' Ho') _ E). }
  split; [exact X|]. apply H3; [discriminate|exact X].
Qed.
Lemma leaf_then p l : some_leaf p (map w_batch ops) -> at_path p (w_batch o) <> Some (Node l).
Proof.
  intros (b & k & a & Hb & E) E2. apply in_map_iff in Hb as (o' & <- & Ho'). rewrite Forall_forall in Hfit.
  destruct (Hfit o' Ho' p l k a) as [H _]. auto.
Qed.
Lemma node_then p k a l' : at_path p m = Some (Node l') -> at_path p (w_batch o) = Some (Leaf k a) -> l' = [].
Proof.
  intros E1 E2. destruct (at_m p) as [[_ E]|[[_ (l2 & E & Hk)]|(_ & _ & _ & E)]]; [congruence| |congruence].
  rewrite E1 in E. injection E as <-. destruct l' as [|[s x] l']; [reflexivity|]. exfalso.
  destruct (Hk s) as [H _]. destruct H as (b & l & Hb & Eb & Hs); [now left|].
  apply in_map_iff in Hb as (o' & <- & Ho'). rewrite Forall_forall in Hfit.
  destruct (Hfit o' Ho' p l k a) as [_ H]. rewrite (H Eb E2) in Hs. destruct Hs.
Qed.
Lemma stacked_leaf v p k x : stacked o v -> at_path p v = Some (Leaf k x) ->
  typed (fst (ty p)) (length (w_rows o) :: snd (ty p)) x /\ exists k' a, at_path p (w_batch o) = Some (Leaf k' a).
Proof.
  intros Hv E. specialize (Hv p). destruct (at_path p (w_batch o)) as [[k' a|l|]|] eqn:Eo.
  - destruct Hv as (k2 & E2). rewrite E in E2. injection E2 as <- ->. split; [|eauto].
    destruct (wk_leaf _ _ _ Ho p k' a Eo) as [Ht _]. destruct (w_single o) eqn:Es; [|exact Ht].
    rewrite (wk_single _ _ _ Ho Es). rewrite (typed_shape _ _ _ Ht). cbn. repeat split. constructor; [exact Ht|constructor].
  - destruct Hv as (l' & E2 & _). congruence.
  - congruence.
  - congruence.
Qed.
Lemma stacked_none v p : stacked o v -> at_path p v <> Some NoneV.
Proof.
  intros Hv. specialize (Hv p). destruct (at_path p (w_batch o)) as [[k' a|l|]|].
  - destruct Hv as (k & ->). discriminate.
  - destruct Hv as (l' & -> & _). discriminate.
  - rewrite Hv. discriminate.
  - rewrite Hv. discriminate.
Qed.
Lemma stacked_node v p l : stacked o v -> at_path p v = Some (Node l) -> exists l', at_path p (w_batch o) = Some (Node l') /\ same_keys l' l.
Proof.
  intros Hv E. specialize (Hv p). destruct (at_path p (w_batch o)) as [[k' a|l'|]|].
  - destruct Hv as (k & E2). congruence.
  - destruct Hv as (l2 & E2 & Hk). rewrite E in E2. injection E2 as <-. eauto.
  - congruence.
  - congruence.
Qed.
Lemma step_fit v : stacked o v -> fit size (length (w_rows o)) m v.
Proof.
  intros Hv p. split; [|split; [now apply stacked_none|]].
  - destruct (at_m p) as [[_ E]|[[_ (l2 & E & Hk)]|(_ & _ & _ & E)]]; rewrite E; discriminate.
  - intros k a E1. destruct (at_m p) as [[L E]|[[_ (l2 & E & Hk)]|(_ & _ & _ & E)]]; [|congruence|congruence].
    rewrite E in E1. injection E1 as <- <-. eexists _, _. split; [reflexivity|]. split; [apply latest_length|].
    destruct (at_path p v) as [[k a|l|]|] eqn:Ev; [|exfalso|exfalso; exact (stacked_none v p Hv Ev)|exact Logic.I].
    + exact (proj1 (stacked_leaf v p k a Hv Ev)).
    + destruct (stacked_node v p l Hv Ev) as (l' & E' & _). exact (leaf_then p l' L E').
Qed.

(** The storage after the first attempt. *)
Variable m1 : bval.
Hypothesis Ht : touched (w_rows o) m m1.
Lemma at_m1 p : 
  match at_path p m with
  | Some (Leaf k (Ar rs l)) => exists l', at_path p m1 = Some (Leaf k (Ar rs l')) /\ length l' = length l /\ forall r, ~ In r (w_rows o) -> nth_error l' r = nth_error l r
  | Some (Node l) => exists l', at_path p m1 = Some (Node l') /\ map fst l' = map fst l
  | None => at_path p m1 = None
  | _ => False
  end.
Proof.
  specialize (Ht p). destruct (at_m p) as [[L E]|[[_ (l2 & E & Hk)]|(_ & _ & _ & E)]]; rewrite E in *; auto.
Qed.
Lemma m1_distinct : distinct m1.
Proof.
  intros p l E. pose proof (at_m1 p) as H. destruct (at_path p m) as [[k [c|rs x]|l'|]|] eqn:Em.
  - contradiction.
  - destruct H as (l' & H & _). congruence.
  - destruct H as (l2 & H & Hk). rewrite E in H. injection H as <-. rewrite Hk. destruct Hm as (Hd & _). exact (Hd p l' Em).
  - contradiction.
  - congruence.
Qed.
Lemma m1_compat v p : stacked o v -> compat_at (at_path p m1) (at_path p v).
Proof.
  intros Hv. pose proof (at_m1 p) as H. repeat split.
  - destruct (at_path p m) as [[k [c|rs x]|l'|]|]; try contradiction.
    + destruct H as (l' & -> & _). discriminate.
    + destruct H as (l2 & -> & _). discriminate.
    + rewrite H. discriminate.
  - now apply stacked_none.
  - intros k a l E Ev. destruct (stacked_node v p l Hv Ev) as (l' & E' & _).
    destruct (at_m p) as [[L Em]|[[_ (l2 & Em & Hk)]|(_ & _ & _ & Em)]]; rewrite Em in H.
    + exact (leaf_then p l' L E').
    + destruct H as (l3 & H & _). congruence.
    + congruence.
  - intros k a l E Ev. destruct (stacked_leaf v p k a Hv Ev) as (_ & k' & a' & E').
    destruct (at_path p m) as [[km [c|rs x]|l'|]|] eqn:Em; try contradiction.
    + destruct H as (l' & H & _). congruence.
    + destruct H as (l2 & H & Hk). rewrite E in H. injection H as <-. rewrite (node_then p k' a' l' Em E') in Hk.
      destruct l; [reflexivity|discriminate].
    + congruence.
  - intros k a Ev. destruct (stacked_leaf v p k a Hv Ev) as [T _]. destruct a as [c|rs x]; cbn in T; [contradiction|eauto].
Qed.

(** The storage with all keys, and the final one. *)
Variables (v m2 m3 : bval).
Hypothesis Hv : stacked o v.
Hypothesis Hk : forall p k x, at_path p v = Some (Leaf k x) -> (forall k' a, at_path p m <> Some (Leaf k' a)) -> k = fst (ty p).
Hypothesis Ha : forall p, alloc_at size (at_path p m1) (at_path p v) (at_path p m2).
Hypothesis Hd2 : distinct m2.

Lemma m2_assignable : assignable m2 v (IArr (map Z.of_nat (w_rows o))) size (length (w_rows o)).
Proof.
  intro p. pose proof (at_m1 p) as H1. pose proof (Ha p) as H2. cbn [value_shape].
  pose proof (stacked_none v p Hv) as Nv.
  destruct (at_m p) as [[L Em]|[[L (l2 & Em & Hl2)]|(L & Hp & Hnone & Em)]]; rewrite Em in H1.
  - destruct H1 as (l' & E1 & Hlen & _). rewrite E1 in H2. cbn [alloc_at] in H2. rewrite H2. eexists _, _. split; [reflexivity|].
    split; [rewrite Hlen; apply latest_length|]. destruct (at_path p v) as [[k a|l|]|] eqn:Ev; [|exfalso|congruence|exact Logic.I].
    + exact (proj1 (stacked_leaf v p k a Hv Ev)).
    + destruct (stacked_node v p l Hv Ev) as (l'' & E' & _). exact (leaf_then p l'' L E').
  - destruct H1 as (l' & E1 & Hkeys). rewrite E1 in H2. destruct (at_path p v) as [[k a|l|]|] eqn:Ev; [| |congruence|].
    + cbn [alloc_at] in H2. destruct H2 as (rs & x & -> & ->). cbn [padding]. exists rs, (repeat (padding k rs) size). split; [reflexivity|]. split; [apply repeat_length|].
      destruct (stacked_leaf v p k _ Hv Ev) as [T _]. rewrite (Hk p k _ Ev) by (intros k' a'; rewrite Em; discriminate).
      cbn in T |- *. destruct T as (-> & T1 & T2). auto.
    + cbn [alloc_at] in H2. destruct H2 as (l3 & -> & Hk3). intros s Hs. apply Hk3. right. exact Hs.
    + cbn [alloc_at] in H2. destruct H2 as (l3 & -> & _). exact Logic.I.
  - rewrite H1 in H2. destruct (at_path p v) as [[k a|l|]|] eqn:Ev; [| |congruence|].
    + cbn [alloc_at] in H2. destruct H2 as (rs & x & -> & ->). cbn [padding]. exists rs, (repeat (padding k rs) size). split; [reflexivity|]. split; [apply repeat_length|].
      destruct (stacked_leaf v p k _ Hv Ev) as [T _]. rewrite (Hk p k _ Ev) by (intros k' a'; rewrite Em; discriminate).
      cbn in T |- *. destruct T as (-> & T1 & T2). auto.
    + cbn [alloc_at] in H2. destruct H2 as (l3 & -> & Hk3). intros s Hs. apply Hk3. right. exact Hs.
    + cbn [alloc_at] in H2. rewrite H2. exact Logic.I.
Qed.
Hypothesis Hset : setitem_spec m2 (Some v) m3 (IArr (map Z.of_nat (w_rows o))) (w_rows o).

Lemma written_contents p base : length base = size ->
  (forall r, r < size -> ~ In r (w_rows o) -> nth_error base r = Some (latest ty p (rev ops) r)) ->
  (forall l, at_path p (w_batch o) <> Some (Node l)) ->
  written (w_rows o) (new_rows (IArr (map Z.of_nat (w_rows o))) (fst (ty p)) (snd (ty p)) (length (w_rows o)) (at_path p v)) base = contents ty size (ops ++ [o]) p.
Proof.
  intros Hl Hb Hn. destruct (given_new_rows ty size o v p (fst (ty p)) Ho Hv eq_refl Hn) as [-> Hlen].
  apply nth_error_ext. intro r. destruct (Nat.lt_ge_cases r size) as [Hr|Hr].
  - rewrite written_nth by lia. rewrite nth_contents by exact Hr. rewrite rev_app_distr. cbn [rev app latest].
    destruct (write_at (w_rows o) (given ty p o) r) eqn:W; [reflexivity|]. apply Hb; [exact Hr|]. now apply write_at_None in W.
  - rewrite (proj2 (nth_error_None _ _)) by (rewrite written_length; lia).
    rewrite (proj2 (nth_error_None _ _)) by (rewrite latest_length; lia). reflexivity.
Qed.
Lemma step_holds : holds ty size (ops ++ [o]) m3.
Proof.
  destruct Hm as (_ & Nm & _).
  assert (At3 : forall p, match at_path p m2 with
     | Some (Leaf k (Ar rs l)) => at_path p m3 = Some (Leaf k (Ar rs (written (w_rows o) (new_rows (IArr (map Z.of_nat (w_rows o))) k rs (length (w_rows o)) (at_path p v)) l)))
     | Some (Node l) => exists l', at_path p m3 = Some (Node l') /\ map fst l' = map fst l
     | None => at_path p m3 = None
     | _ => True end).
  { intro p. pose proof (Hset p) as H. destruct (at_path p m2) as [[k [c|rs l]|l|]|]; auto. }
  assert (NL : forall p, some_leaf p (map w_batch (ops ++ [o])) <-> some_leaf p (map w_batch ops) \/ exists k a, at_path p (w_batch o) = Some (Leaf k a)).
  { intro p. rewrite map_app. unfold some_leaf. setoid_rewrite in_app_iff. cbn [map In]. split.
    - intros (b & k & a & [Hb|[<-|[]]] & E); [left; eauto|right; eauto].
    - intros [(b & k & a & Hb & E)|(k & a & E)]; [exists b, k, a; auto|exists (w_batch o), k, a; auto]. }
  assert (NK : forall p s, (exists b l, In b (map w_batch (ops ++ [o])) /\ at_path p b = Some (Node l) /\ In s (map fst l)) <->
      (exists b l, In b (map w_batch ops) /\ at_path p b = Some (Node l) /\ In s (map fst l)) \/ In s (okeys (at_path p (w_batch o)))).
  { intros p s. rewrite map_app. setoid_rewrite in_app_iff. cbn [map In]. split.
    - intros (b & l & [Hb|[<-|[]]] & E & Hs); [left; eauto|right; rewrite E; exact Hs].
    - intros [(b & l & Hb & E & Hs)|Hs]; [exists b, l; auto|]. destruct (at_path p (w_batch o)) as [[|l|]|] eqn:E; try contradiction.
      exists (w_batch o), l. rewrite E. cbn. auto. }
  assert (KV : forall p s, In s (okeys (at_path p v)) <-> In s (okeys (at_path p (w_batch o)))).
  { intros p s. pose proof (Hv p) as H. destruct (at_path p (w_batch o)) as [[k a|l|]|].
    - destruct H as (k' & ->). reflexivity.
    - destruct H as (l' & -> & Hs). cbn. symmetry. apply Hs.
    - rewrite H. reflexivity.
    - rewrite H. reflexivity. }
  (* what stands at p in the end *)
  assert (Main : forall p, (some_leaf p (map w_batch (ops ++ [o])) /\ at_path p m3 = Some (Leaf (fst (ty p)) (Ar (snd (ty p)) (contents ty size (ops ++ [o]) p)))) \/
     (~ some_leaf p (map w_batch (ops ++ [o])) /\ exists l', at_path p m3 = Some (Node l') /\
         forall s, In s (map fst l') <-> exists b l, In b (map w_batch (ops ++ [o])) /\ at_path p b = Some (Node l) /\ In s (map fst l)) \/
     (~ some_leaf p (map w_batch (ops ++ [o])) /\ p <> [] /\ at_path p m3 = None /\ at_path p (w_batch o) = None /\ forall b, In b (map w_batch ops) -> at_path p b = None)).
  { intro p. pose proof (at_m1 p) as H1. pose proof (Ha p) as H2. pose proof (At3 p) as H3. rewrite NL.
    pose proof (Hv p) as Hvp.
    destruct (at_m p) as [[L Em]|[[L (l2 & Em & Hl2)]|(L & Hp & Hnone & Em)]]; rewrite Em in H1.
    - left. split; [now left|]. destruct H1 as (l' & E1 & Hlen & Hrows). rewrite E1 in H2. cbn [alloc_at] in H2. rewrite H2 in H3.
      rewrite H3. do 3 f_equal. apply written_contents.
      + rewrite Hlen. apply latest_length.
      + intros r Hr Hin. rewrite Hrows by exact Hin. now apply nth_contents.
      + intro l. now apply leaf_then.
    - destruct H1 as (l' & E1 & Hkeys). rewrite E1 in H2.
      destruct (at_path p (w_batch o)) as [[k a|l|]|] eqn:Eo.
      + left. split; [right; eauto|]. destruct Hvp as (k' & Ev). rewrite Ev in H2. cbn [alloc_at] in H2. destruct H2 as (rs & x & Ex & E2).
        destruct (stacked_leaf v p _ _ Hv Ev) as [T _]. rewrite Ex in T. cbn in T. destruct T as (-> & _).
        rewrite (Hk p k' _ Ev) in E2 by (intros k2 a2; rewrite Em; discriminate). rewrite E2 in H3. cbn [padding] in H3. rewrite H3. do 3 f_equal.
        apply written_contents.
        * apply repeat_length.
        * intros r Hr _. rewrite latest_absent by exact L. rewrite (nth_error_nth' _ (padding (fst (ty p)) (snd (ty p)))) by (rewrite repeat_length; exact Hr).
          f_equal. now apply nth_repeat_gen.
        * intro l. rewrite Eo. discriminate.
      + right. left. split; [intros [H|(k & a & H)]; [contradiction|congruence]|]. destruct Hvp as (lv & Ev & Hsk). rewrite Ev in H2. cbn [alloc_at] in H2.
        destruct H2 as (l3 & E2 & Hk3). rewrite E2 in H3. destruct H3 as (l4 & E3 & Hk4). exists l4. split; [exact E3|].
        intro s. rewrite Hk4, Hk3, NK, Eo. cbn [okeys]. rewrite Hkeys, Hl2, (Hsk s). reflexivity.
      + exfalso. exact (wk_none _ _ _ Ho p Eo).
      + right. left. split; [intros [H|(k & a & H)]; [contradiction|congruence]|]. rewrite Hvp in H2. cbn [alloc_at] in H2.
        destruct H2 as (l3 & E2 & Hk3). rewrite E2 in H3. destruct H3 as (l4 & E3 & Hk4). exists l4. split; [exact E3|].
        intro s. rewrite Hk4, Hk3, NK, Eo. cbn [okeys]. rewrite Hkeys, Hl2. reflexivity.
    - rewrite H1 in H2.
      assert (NoKeys : forall s, ~ exists b l, In b (map w_batch ops) /\ at_path p b = Some (Node l) /\ In s (map fst l)).
      { intros s (b & l & Hb & E & _). rewrite Hnone in E by exact Hb. discriminate. }
      destruct (at_path p (w_batch o)) as [[k a|l|]|] eqn:Eo.
      + left. split; [right; eauto|]. destruct Hvp as (k' & Ev). rewrite Ev in H2. cbn [alloc_at] in H2. destruct H2 as (rs & x & Ex & E2).
        destruct (stacked_leaf v p _ _ Hv Ev) as [T _]. rewrite Ex in T. cbn in T. destruct T as (-> & _).
        rewrite (Hk p k' _ Ev) in E2 by (intros k2 a2; rewrite Em; discriminate). rewrite E2 in H3. cbn [padding] in H3. rewrite H3. do 3 f_equal.
        apply written_contents.
        * apply repeat_length.
        * intros r Hr _. rewrite latest_absent by exact L. rewrite (nth_error_nth' _ (padding (fst (ty p)) (snd (ty p)))) by (rewrite repeat_length; exact Hr).
          f_equal. now apply nth_repeat_gen.
        * intro l. rewrite Eo. discriminate.
      + right. left. split; [intros [H|(k & a & H)]; [contradiction|congruence]|]. destruct Hvp as (lv & Ev & Hsk). rewrite Ev in H2. cbn [alloc_at] in H2.
        destruct H2 as (l3 & E2 & Hk3). rewrite E2 in H3. destruct H3 as (l4 & E3 & Hk4). exists l4. split; [exact E3|].
        intro s. rewrite Hk4, Hk3, NK, Eo. cbn [okeys In]. rewrite (Hsk s). split; [intros [[]|H]; auto|intros [H|H]; [exfalso; exact (NoKeys s H)|auto]].
      + exfalso. exact (wk_none _ _ _ Ho p Eo).
      + right. right. split; [intros [H|(k & a & H)]; [contradiction|congruence]|]. split; [exact Hp|]. rewrite Hvp in H2. cbn [alloc_at] in H2.
        rewrite H2 in H3. auto. }
  split; [|split].
  - intros p l E. pose proof (Hset p) as H. destruct (at_path p m2) as [[k [c|rs x]|l2|]|] eqn:E2.
    + pose proof (m2_assignable p) as A. rewrite E2 in A. destruct A as (rs & l0 & A & _). discriminate.
    + rewrite E in H. discriminate.
    + destruct H as (l' & H & Hkk). rewrite E in H. injection H as <-. rewrite Hkk. exact (Hd2 p l2 E2).
    + pose proof (m2_assignable p) as A. rewrite E2 in A. contradiction.
    + rewrite E in H. discriminate.
  - destruct (Main []) as [[L E]|[[_ (l' & E & _)]|(_ & Hp & _)]].
    + exfalso. apply NL in L. destruct L as [(b & k & a & Hb & Eb)|(k & a & Eb)].
      * apply in_map_iff in Hb as (o' & <- & Ho'). rewrite Forall_forall in Hops. destruct (wk_node _ _ _ (Hops o' Ho')) as [l El]. rewrite El in Eb. discriminate.
      * destruct (wk_node _ _ _ Ho) as [l El]. rewrite El in Eb. discriminate.
    + cbn in E. injection E as ->. reflexivity.
    + congruence.
  - intro p. destruct (Main p) as [[L E]|[[L (l' & E & Hkk)]|(L & Hp & E & Eo & Hno)]].
    + split; [auto|]. split; [contradiction|]. intros Hp Hno. exfalso. destruct L as (b & k & a & Hb & Eb). rewrite Hno in Eb by exact Hb. discriminate.
    + split; [contradiction|]. split; [intros _ _; eauto|]. intros Hp Hno. exfalso.
      pose proof (Ha p) as H2. pose proof (At3 p) as H3. pose proof (at_m1 p) as H1.
      assert (X1 : forall b, In b (map w_batch ops) -> at_path p b = None) by (intros b Hb; apply Hno; rewrite map_app, in_app_iff; now left).
      assert (X2 : at_path p (w_batch o) = None) by (apply Hno; rewrite map_app, in_app_iff; right; now left).
      destruct Hm as (_ & _ & Hmp). destruct (Hmp p) as (_ & _ & G). rewrite (G Hp X1) in H1. rewrite H1 in H2.
      pose proof (Hv p) as Hvp. rewrite X2 in Hvp. rewrite Hvp in H2. cbn [alloc_at] in H2. rewrite H2 in H3. congruence.
    + split; [contradiction|]. split.
      * intros _ [H|(b & l & Hb & Eb)]; [contradiction|]. exfalso. rewrite map_app, in_app_iff in Hb. destruct Hb as [Hb|[<-|[]]]; [rewrite Hno in Eb by exact Hb|rewrite Eo in Eb]; discriminate.
      * auto.
Qed.
End Step.
Definition sv (o : wop) (b : bval) : bval := if w_single o then lift b else b.
Lemma sv_stacked ty size o b : wop_ok ty size o ->
  (forall p, match at_path p (w_batch o) with
              | Some (Leaf k a) => exists k', at_path p b = Some (Leaf k' a)
              | Some (Node l) => exists l', at_path p b = Some (Node l') /\ same_keys l l'
              | Some NoneV => True
              | None => at_path p b = None
              end) -> stacked o (sv o b).
Proof.
  intros Ho H p. specialize (H p). unfold sv. destruct (w_single o) eqn:Es.
  - rewrite at_lift. destruct (at_path p (w_batch o)) as [[k a|l|]|] eqn:E.
    + destruct H as (k' & ->). cbn. eauto.
    + destruct H as (l' & -> & Hk). cbn. eexists. split; [reflexivity|]. intro s. rewrite lift_keys. apply Hk.
    + exfalso. exact (wk_none _ _ _ Ho p E).
    + now rewrite H.
  - destruct (at_path p (w_batch o)) as [[k a|l|]|] eqn:E; auto. exfalso. exact (wk_none _ _ _ Ho p E).
Qed.
Lemma sv_bset ty size o m b : wop_ok ty size o -> distinct m ->
  (forall p k rs l k' x, at_path p m = Some (Leaf k (Ar rs l)) -> at_path p b = Some (Leaf k' x) -> exists k2, w_single o = true -> typed k2 rs x) ->
  bset m (IArr (map Z.of_nat (w_rows o))) b = bset m (IArr (map Z.of_nat (w_rows o))) (sv o b).
Proof.
  intros Ho Hd H. unfold sv. destruct (w_single o) eqn:Es; [|reflexivity].
  pose proof (wk_single _ _ _ Ho Es) as Hl. destruct (w_rows o) as [|r [|? ?]]; try discriminate. cbn [map].
  symmetry. apply bset_lift; [exact Hd|]. intros p k rs l k' x H1 H2. destruct (H p k rs l k' x H1 H2) as [k2 H3]. exists k2. auto.
Qed.
Lemma sv_create o b size : create_value b size (w_single o) = create_value (sv o b) size false.
Proof. unfold sv. destruct (w_single o); [now rewrite create_lift|reflexivity]. Qed.
Lemma sv_alloc o b size m : alloc b size (w_single o) m = alloc (sv o b) size false m.
Proof. unfold sv. destruct (w_single o); [now rewrite alloc_lift|reflexivity]. Qed.
Lemma sv_distinct o b : distinct b -> distinct (sv o b).
Proof. unfold sv. destruct (w_single o); [apply lift_distinct|auto]. Qed.
Lemma sv_node o b : is_node (sv o b) = is_node b.
Proof. unfold sv. destruct (w_single o); [apply is_node_lift|reflexivity]. Qed.

Lemma store_ok ty size ops o m : holds ty size ops m -> Forall (wop_ok ty size) ops -> wop_ok ty size o -> Forall (fun o' => fits_after o' o) ops ->
  exists m', store size (w_single o) m (map Z.of_nat (w_rows o)) (w_batch o) = Ok m' /\ holds ty size (ops ++ [o]) m'.
Proof.
  intros Hm Hops Ho Hfit. pose proof Hm as (Hdm & Nm & _). set (zs := map Z.of_nat (w_rows o)).
  pose proof (selected_nat size (w_rows o) (wk_rows _ _ _ Ho)) as Hsel. fold zs in Hsel.
  set (b := w_batch o). set (v := sv o b).
  assert (Sv : stacked o v).
  { apply (sv_stacked ty size o b Ho). intro p. subst b. destruct (at_path p (w_batch o)) as [[k a|l|]|]; auto.
    - eauto.
    - exists l. split; [reflexivity|]. intro s. reflexivity. }
  assert (E0 : bset m (IArr zs) b = bset m (IArr zs) v).
  { apply (sv_bset ty size o m b Ho Hdm). intros p k rs l k' x H1 H2.
    destruct (at_m ty size ops m Hm Hops p) as [[_ E]|[[_ (l2 & E & _)]|(_ & _ & _ & E)]]; rewrite E in H1; try discriminate.
    injection H1 as _ <- _. exists (fst (ty p)). intro Es. destruct (wk_leaf _ _ _ Ho p k' x H2) as [T _]. now rewrite Es in T. }
  destruct (bset_try size zs (w_rows o) m Hsel Hdm v (step_fit ty size ops o m Hm Hops Ho Hfit v Sv)) as (m1 & e & E1 & He & Ht & Hb).
  unfold store, store_st. fold zs b. rewrite E0, E1. destruct He as [-> | ->].
  - exists m1. split; [reflexivity|]. specialize (Hb eq_refl).
    assert (Ha : forall p, alloc_at size (at_path p m) (at_path p v) (at_path p m)).
    { intro p. specialize (Hb p). destruct (at_m ty size ops m Hm Hops p) as [[_ E]|[[_ (l2 & E & _)]|(_ & _ & _ & E)]]; rewrite E in *.
      - reflexivity.
      - destruct (at_path p v) as [[k a|l|]|] eqn:Ev; cbn [alloc_at].
        + destruct Hb as (k' & a' & H). discriminate.
        + destruct Hb as (l' & H & Hi). injection H as <-. exists l2. split; [reflexivity|]. intro s. cbn [okeys]. specialize (Hi s). tauto.
        + exfalso. exact (stacked_none o v p Sv Ev).
        + exists l2. split; [reflexivity|]. intro s. cbn. tauto.
      - destruct (at_path p v) as [[k a|l|]|] eqn:Ev; cbn [alloc_at].
        + destruct Hb as (k' & a' & H). discriminate.
        + destruct Hb as (l' & H & _). discriminate.
        + exfalso. exact (stacked_none o v p Sv Ev).
        + reflexivity. }
    assert (Hk : forall p k x, at_path p v = Some (Leaf k x) -> (forall k' a, at_path p m <> Some (Leaf k' a)) -> k = fst (ty p)).
    { intros p k x Ev Hno. specialize (Hb p). rewrite Ev in Hb. destruct Hb as (k' & a & H). exfalso. exact (Hno k' a H). }
    pose proof (m2_assignable ty size ops o m Hm Hops Ho Hfit m (touched_refl _ m) v m Sv Hk Ha) as Has.
    destruct (bset_ok size (IArr zs) (w_rows o) m Hsel Hdm v Has) as (m1' & E1' & Hset).
    rewrite E1 in E1'. injection E1' as <-.
    exact (step_holds ty size ops o m Hm Hops Ho Hfit m (touched_refl _ m) v m m1 Sv Hk Ha Hdm Hset).
  - destruct (cast_ok ty size o Ho) as (b' & Ec & Nb & Db & Hb'). fold b in Ec, Hb'. rewrite Ec. cbn [bind].
    set (v' := sv o b').
    assert (Sv' : stacked o v').
    { apply (sv_stacked ty size o b' Ho). intro p. specialize (Hb' p). fold b. destruct (at_path p b) as [[k a|l|]|]; eauto. }
    assert (Hk : forall p k x, at_path p v' = Some (Leaf k x) -> (forall k' a, at_path p m <> Some (Leaf k' a)) -> k = fst (ty p)).
    { intros p k x Ev _. destruct (stacked_leaf ty size o Ho v' p k x Sv' Ev) as (_ & k' & a & E). specialize (Hb' p). fold b in E. rewrite E in Hb'.
      unfold v', sv in Ev. destruct (w_single o); [rewrite at_lift, Hb' in Ev; cbn in Ev|rewrite Hb' in Ev]; injection Ev as <- _; reflexivity. }
    assert (N1 : exists l1, m1 = Node l1).
    { specialize (Ht []). cbn in Ht. destruct m; try discriminate. destruct Ht as (l' & H & _). injection H as ->. eauto. }
    destruct N1 as [l1 ->]. pose proof (m1_distinct ty size ops o m Hm Hops (Node l1) Ht) as Dm1.
    assert (X : exists m2, (match items (Node l1) with
                | [] => create_value b' size (w_single o)
                | l => let* l := alloc b' size (w_single o) l in Ok (Node l)
                end) = Ok m2 /\ distinct m2 /\ forall p, alloc_at size (at_path p (Node l1)) (at_path p v') (at_path p m2)).
    { cbn [items]. destruct l1 as [|kx l1].
      - rewrite sv_create. fold v'.
        destruct (create_ok size v' (sv_distinct o b' Db)) as (m2 & E2 & D2 & A2).
        { intro p. repeat split; try discriminate; [apply (stacked_none o v' p Sv')|].
          intros k a Ev. destruct (stacked_leaf ty size o Ho v' p k a Sv' Ev) as [T _]. destruct a as [c|rs x]; cbn in T; [contradiction|eauto]. }
        exists m2. split; [exact E2|]. split; [exact D2|]. intros [|s p]; [|exact (A2 (s :: p))].
        specialize (A2 []). cbn [at_path] in A2 |- *. assert (Nv : is_node v' = true) by (unfold v'; rewrite sv_node; exact Nb).
        destruct v'; try discriminate. exact A2.
      - set (L := kx :: l1) in *. rewrite sv_alloc. fold v'.
        destruct (alloc_ok size v' (sv_distinct o b' Db) ltac:(unfold v'; rewrite sv_node; exact Nb) L Dm1) as (lr & E2 & D2 & A2).
        { intro p. exact (m1_compat ty size ops o m Hm Hops Ho Hfit (Node L) Ht v' p Sv'). }
        exists (Node lr). rewrite E2. cbn [bind]. auto. }
    destruct X as (m2 & E2 & D2 & A2). rewrite E2. cbn [bind].
    pose proof (m2_assignable ty size ops o m Hm Hops Ho Hfit (Node l1) Ht v' m2 Sv' Hk A2) as Has.
    destruct (bset_ok size (IArr zs) (w_rows o) m2 Hsel D2 v' Has) as (m3 & E3 & Hset).
    assert (E4 : bset m2 (IArr zs) b' = bset m2 (IArr zs) v').
    { apply (sv_bset ty size o m2 b' Ho D2). intros p k rs l k' x H1 H2. exists k. intro Es. specialize (Has p). rewrite H1 in Has.
      destruct Has as (rs' & l' & H & _ & T). injection H as <- <-. unfold v', sv in T. rewrite Es, at_lift, H2 in T. cbn in T.
      destruct T as (<- & _ & T). now inversion T. }
    rewrite E4, E3. exists m3. split; [reflexivity|].
    exact (step_holds ty size ops o m Hm Hops Ho Hfit (Node l1) Ht v' m2 m3 Sv' Hk A2 D2 Hset).
Qed.

Lemma pairs_snoc {X} (R : X -> X -> Prop) l x : ForallOrdPairs R (l ++ [x]) -> ForallOrdPairs R l /\ Forall (fun y => R y x) l.
Proof.
  induction l as [|y l IH]; cbn; intro H; [split; constructor|]. inversion H as [|? ? H1 H2]; subst. destruct (IH H2) as [A B].
  apply Forall_app in H1 as [H1 H3]. inversion H3; subst. split; constructor; auto.
Qed.
(** C110.  After any history of admissible writes the storage has, at every path some written
    batch had an array, the array whose rows are the latest written ones, padding where nothing
    was written or the latest batch had nothing there; and no other paths. *)
Lemma C110_store_lemma : forall (ty : list string -> akind * list nat) (size : nat) (ops : list wop),
  ops <> [] -> Forall (wop_ok ty size) ops -> ForallOrdPairs fits_after ops ->
  exists meta, store_all size ops = Ok meta /\ merged ty (contents ty size ops) (map w_batch ops) meta.
Proof.
  intros ty size ops Hne Hok Hfit.
  assert (H : exists meta, store_all size ops = Ok meta /\ holds ty size ops meta).
  { clear Hne. induction ops as [|o ops IH] using rev_ind.
    - exists (Node []). split; [reflexivity|]. split; [intros [|s p] l Hp; [injection Hp as <-; constructor|discriminate]|]. split; [reflexivity|].
      intro p. split; [intros (b & k & a & [] & _)|]. split.
      + intros _ [->|(b & l & [] & _)]. exists []. split; [reflexivity|]. intro s. split; [intros []|]. intros (b & l & [] & _).
      + intros Hp _. destruct p; [congruence|reflexivity].
    - apply Forall_app in Hok as [Hok Ho]. inversion Ho as [|? ? Ho' _]; subst. apply pairs_snoc in Hfit as [Hf Hl].
      destruct (IH Hok Hf) as (m & E & Hm). destruct (store_ok ty size ops o m Hm Hok Ho' Hl) as (m' & E' & Hm').
      exists m'. split; [|exact Hm']. unfold store_all in *. rewrite foldM_app, E. cbn [bind foldM]. now rewrite E'. }
  destruct H as (meta & E & Hd & _ & H). exists meta. split; [exact E|]. split; [exact Hd|]. intro p. destruct (H p) as (H1 & H2 & H3).
  split; [exact H1|]. split; [intros L N; apply H2; auto|]. intro Hno. apply H3; [|exact Hno]. intros ->.
  destruct ops as [|o ops]; [congruence|]. specialize (Hno (w_batch o) (or_introl eq_refl)). discriminate.
Qed.

(** C110.  Reading a slot gives back the transition written to it, at every path it has an array. *)
Lemma C110_read_back_lemma : forall (ty : list string -> akind * list nat) (size : nat) (before after : list wop) (o : wop) (r : nat),
  Forall (wop_ok ty size) (before ++ o :: after) -> ForallOrdPairs fits_after (before ++ o :: after) ->
  w_single o = true -> w_rows o = [r] -> (forall o', In o' after -> ~ In r (w_rows o')) ->
  exists meta b, store_all size (before ++ o :: after) = Ok meta /\ bgetitem meta (IInt (Z.of_nat r)) = Ok b /\
    forall p k a, at_path p (w_batch o) = Some (Leaf k a) -> at_path p b = Some (Leaf (fst (ty p)) a).
Proof.
  intros ty size before after o r Hok Hfit Hs Hr Hafter. set (ops := before ++ o :: after) in *.
  assert (Hne : ops <> []) by (unfold ops; destruct before; discriminate).
  destruct (C110_store_lemma ty size ops Hne Hok Hfit) as (meta & E & Hd & Hm).
  assert (Hin : In o ops) by (unfold ops; apply in_app_iff; right; now left).
  rewrite Forall_forall in Hok. pose proof (Hok o Hin) as Ho.
  assert (Hrs : r < size) by (pose proof (wk_rows _ _ _ Ho) as H; rewrite Hr in H; now inversion H).
  assert (Hal : aligned size meta).
  { intros p k a Hp. destruct (Hm p) as (H1 & H2 & H3). destruct (some_leaf_dec p (map w_batch ops)) as [L|L].
    - rewrite (H1 L) in Hp. injection Hp as <- <-. eexists _, _. split; [reflexivity|]. unfold contents. now rewrite map_length, seq_length.
    - exfalso. destruct (node_dec p (map w_batch ops)) as [N|N].
      + destruct (H2 L N) as (l' & H & _). congruence.
      + rewrite H3 in Hp; [discriminate|]. intros b Hb. destruct (at_path p b) as [[k' a'|l|]|] eqn:Eb; [exfalso|exfalso; exact (N b l Hb Eb)|exfalso|reflexivity].
        * apply L. exists b, k', a'. auto.
        * apply in_map_iff in Hb as (o' & <- & Ho'). exact (wk_none _ _ _ (Hok o' Ho') _ Eb). }
  assert (Hb : In (w_batch o) (map w_batch ops)) by (now apply in_map).
  assert (Hroot : exists l0, meta = Node l0 /\ l0 <> []).
  { destruct (Hm ["rew"]) as (H1 & _). destruct (wk_rew _ _ _ Ho) as (_ & k & a & Er).
    rewrite at_node_gen in H1. specialize (H1 (ex_intro _ (w_batch o) (ex_intro _ k (ex_intro _ a (conj Hb Er))))).
    destruct meta as [|l0|]; try discriminate. exists l0. split; [reflexivity|]. intros ->. discriminate. }
  destruct Hroot as (l0 & -> & Hl0).
  assert (Hsel : selected size (IInt (Z.of_nat r)) = Some [r]).
  { cbn [selected]. unfold pick_one. replace ((- Z.of_nat size <=? Z.of_nat r) && (Z.of_nat r <? Z.of_nat size))%Z with true by lia.
    rewrite Z.mod_small by lia. cbn. now rewrite Nat2Z.id. }
  destruct (C19_getitem_lemma (Node l0) size (IInt (Z.of_nat r)) [r] l0 eq_refl Hl0 Hd Hal Hsel) as (b & Eb & Hg).
  exists (Node l0), b. split; [exact E|]. split; [exact Eb|]. intros p k a Hp. specialize (Hg p).
  destruct (Hm p) as (H1 & _). rewrite H1 in Hg by (exists (w_batch o), k, a; auto). rewrite Hg. do 2 f_equal. cbn [picked map nth].
  rewrite (nth_error_nth _ _ (Sc CNan) (nth_contents ty size ops p r Hrs)).
  unfold ops. rewrite rev_app_distr. cbn [rev]. rewrite <- app_assoc. cbn [app].
  assert (X : forall post rest, (forall o', In o' post -> ~ In r (w_rows o')) -> latest ty p (post ++ rest) r = latest ty p rest r).
  { clear. induction post as [|o' post IH]; intros rest H; [reflexivity|]. cbn [app latest]. rewrite write_at_notin by (apply H; now left).
    apply IH. intros. apply H. now right. }
  rewrite X by (intros o' Ho'; apply Hafter; now apply in_rev). cbn [latest]. unfold given. rewrite Hp, Hs, Hr.
  unfold write_at. cbn. now rewrite Nat.eqb_refl.
Qed.

(** C111.  The array for a key has the type of the first value: a later fraction loses its
    fractional part. *)
Definition tr_with (act : bval) : bval :=
  Node [("obs", Leaf KInt (Sc (CN (Q2Qc (5 # 1))))); ("act", act); ("rew", Leaf KFloat (Sc (CN 1%Qc)));
        ("terminated", Leaf KInt (Sc (CN 0%Qc))); ("truncated", Leaf KInt (Sc (CN 0%Qc))); ("done", Leaf KInt (Sc (CN 0%Qc)))].
(** C111.  The array for a key has the type of the first value: a later fraction loses its
    fractional part. *)
Lemma C111_first_type_refuted_lemma : exists meta b,
  store_all 2 [mkWop true [0] (tr_with (Leaf KInt (Sc (CN 1%Qc)))); mkWop true [1] (tr_with (Leaf KFloat (Sc (CN (Q2Qc (1 # 2))))))] = Ok meta
  /\ bgetitem meta (IInt 1) = Ok b /\ at_path ["act"] b = Some (Leaf KInt (Sc (CN 0%Qc))).
Proof. do 2 eexists. split; [vm_compute; reflexivity|]. split; vm_compute; reflexivity. Qed.

(** C112.  Whatever is written and whether or not it raises, every array of the storage keeps its
    rows other than those addressed. *)
Definition kept_rows (n : nat) (ps : list nat) (b b' : bval) : Prop :=
  forall p k a, at_path p b = Some (Leaf k a) ->
    match a with
    | Ar rs l => length l = n -> exists l', at_path p b' = Some (Leaf k (Ar rs l')) /\ length l' = length l /\ forall r, ~ In r ps -> nth_error l' r = nth_error l r
    | Sc _ => at_path p b' = Some (Leaf k a)
    end.
Lemma kept_refl n ps b : kept_rows n ps b b.
Proof. intros p k [c|rs l] E; [exact E|]. intros _. exists l. auto. Qed.
Lemma kept_trans n ps a b c : kept_rows n ps a b -> kept_rows n ps b c -> kept_rows n ps a c.
Proof.
  intros H1 H2 p k [x|rs l] E.
  - exact (H2 p k (Sc x) (H1 p k (Sc x) E)).
  - intro Hl. destruct (H1 p k (Ar rs l) E Hl) as (l1 & E1 & L1 & R1). destruct (H2 p k (Ar rs l1) E1 ltac:(lia)) as (l2 & E2 & L2 & R2).
    exists l2. split; [exact E2|]. split; [lia|]. intros r Hr. rewrite R2, R1 by exact Hr. reflexivity.
Qed.
Lemma nset_kept n ps zs k a x a' : selected n (IArr zs) = Some ps -> nset k a (IArr zs) x = Ok a' -> kept_rows n ps (Leaf k a) (Leaf k a').
Proof.
  intros Hs E [|s p] k0 a0 E0; [|discriminate]. injection E0 as <- <-. destruct a as [c|rs l]; [discriminate|]. intro Hl.
  cbn [nset] in E. rewrite positions_selected, Hl, Hs in E. cbn [bind] in E.
  destruct (broadcast (length ps :: rs) x) as [v|]; [|discriminate]. cbn [bind] in E. destruct (nmap (conv k) v) as [w|]; [|discriminate]. cbn [bind] in E.
  injection E as <-. cbn [at_path]. eexists. split; [reflexivity|]. split; [apply written_length|]. intros r Hr. now apply written_outside.
Qed.
Lemma bset_kept n ps zs b : selected n (IArr zs) = Some ps -> forall v b' e, bset b (IArr zs) v = (b', e) -> kept_rows n ps b b'.
Proof.
  intros Hs. induction b as [k a|l IH|] using bval_ind'; intros v b' e E.
  - cbn [bset] in E. destruct v as [k' x|lv|].
    + destruct (nset k a (IArr zs) x) as [a'|] eqn:En; injection E as <- _; [exact (nset_kept n ps zs k a x a' Hs En)|apply kept_refl].
    + injection E as <- _. apply kept_refl.
    + destruct (nset k a (IArr zs) (Sc (CO None))) as [a'|] eqn:En; injection E as <- _; [exact (nset_kept n ps zs k a _ a' Hs En)|apply kept_refl].
  - destruct v as [k' x|lv|]; [injection E as <- _; apply kept_refl| |injection E as <- _; apply kept_refl].
    destruct (forallb (fun k => has_key k l) (keys lv)) eqn:Ek.
    2: { cbn [bset] in E. rewrite Ek in E. injection E as <- _. apply kept_refl. }
    assert (Hi : incl (map fst lv) (map fst l)).
    { intros s Hin. rewrite forallb_forall in Ek. now apply has_key_spec, Ek. }
    rewrite bset_node in E by exact Hi. clear Ek Hi.
    assert (Hch : Forall (fun kx => kept_rows n ps (snd kx) (fst (set_one (IArr zs) lv kx))) l).
    { rewrite Forall_forall in IH |- *. intros [k x] Hin. unfold set_one. cbn [fst snd]. destruct (assoc k lv) as [w|].
      - destruct (bset x (IArr zs) w) as [x' e'] eqn:Ex. exact (IH (k, x) Hin w x' e' Ex).
      - destruct x as [kd a|lx|]; [|destruct (bset (Node lx) (IArr zs) (Node [])) as [x' e'] eqn:Ex; exact (IH (k, Node lx) Hin _ x' e' Ex)|apply kept_refl].
        destruct (nset kd a (IArr zs) (Sc (zero kd))) as [a'|] eqn:En; cbn [fst]; [exact (nset_kept n ps zs kd a _ a' Hs En)|apply kept_refl]. }
    assert (HM : forall k x, assoc k l = Some x -> exists x', assoc k (fst (set_all (set_one (IArr zs) lv) l)) = Some x' /\ kept_rows n ps x x').
    { clear -Hch. induction Hch as [|[k x] l Hx _ IHl]; intros k' x' Ex; [discriminate|]. cbn [assoc] in Ex. cbn [set_all fst snd] in *.
      destruct (set_one (IArr zs) lv (k, x)) as [y e] eqn:Ey. cbn [fst] in Hx. destruct e as [e|].
      - cbn [fst assoc]. destruct (String.eqb k' k); [injection Ex as <-; eauto|]. exists x'. split; [exact Ex|apply kept_refl].
      - destruct (set_all (set_one (IArr zs) lv) l) as [l' e'] eqn:El. cbn [fst assoc] in *. destruct (String.eqb k' k); [injection Ex as <-; eauto|]. now apply IHl. }
    destruct (set_all (set_one (IArr zs) lv) l) as [l' e'] eqn:El. injection E as <- _. cbn [fst] in HM.
    intros [|s p] k a Ep; [discriminate|]. rewrite at_cons in Ep. destruct (assoc s l) as [x|] eqn:Ex; [|discriminate].
    destruct (HM s x Ex) as (x' & Ex' & Hx). specialize (Hx p k a Ep). rewrite at_cons, Ex'. exact Hx.
  - destruct v; injection E as <- _; apply kept_refl.
Qed.
Lemma bset_is_node l ix v : exists l', fst (bset (Node l) ix v) = Node l'.
Proof.
  destruct v as [k a|lv|]; [exists l; reflexivity| |exists l; reflexivity].
  destruct (forallb (fun k => has_key k l) (keys lv)) eqn:Ek.
  - rewrite bset_node. 2: { intros s Hin. rewrite forallb_forall in Ek. now apply has_key_spec, Ek. }
    destruct (set_all (set_one ix lv) l) as [l' e]. now exists l'.
  - cbn [bset]. rewrite Ek. now exists l.
Qed.
Lemma put_leaf p k a s x m : (forall q k a, oat q (assoc s m) = Some (Leaf k a) -> at_path q x = Some (Leaf k a)) ->
  at_path p (Node m) = Some (Leaf k a) -> at_path p (Node (put s x m)) = Some (Leaf k a).
Proof.
  intros H E. destruct p as [|s' p]; [discriminate|]. rewrite at_node in *. rewrite assoc_put. destruct (String.eqb s' s) eqn:Es; [|exact E].
  apply String.eqb_eq in Es. subst s'. cbn [oat]. now apply H.
Qed.
Lemma alloc_kept v size stack : forall m m', alloc v size stack m = Ok m' ->
  forall p k a, at_path p (Node m) = Some (Leaf k a) -> at_path p (Node m') = Some (Leaf k a).
Proof.
  induction v as [kv av|lv IH|] using bval_ind'; intros m m' E; try discriminate. rewrite alloc_items in E.
  revert m E. induction IH as [|[s x] lv Hx _ IHl]; intros m E p k a Ep.
  - cbn in E. injection E as <-. exact Ep.
  - cbn [foldM] in E. destruct (alloc_one size stack m (s, x)) as [m1|] eqn:E1; [|discriminate]. cbn [bind] in E.
    apply (IHl m1 E p k a). clear IHl E. unfold alloc_one in E1. cbn [fst snd] in E1, Hx. destruct (assoc s m) as [[kd ad|lm|]|] eqn:Em.
    + injection E1 as <-. exact Ep.
    + destruct x as [kx ax|lx|].
      * destruct lm; [|injection E1 as <-; exact Ep]. destruct (create_value (Leaf kx ax) size stack); [|discriminate]. cbn in E1. injection E1 as <-.
        apply put_leaf; [|exact Ep]. rewrite Em. intros [|q0 q] kk aa F; discriminate.
      * destruct (alloc (Node lx) size stack lm) as [lm'|] eqn:El; [|discriminate]. cbn [bind] in E1. injection E1 as <-.
        apply put_leaf; [|exact Ep]. rewrite Em. intros q kk aa F. exact (Hx lm lm' El q kk aa F).
      * destruct lm; [|injection E1 as <-; exact Ep]. cbn in E1. injection E1 as <-.
        apply put_leaf; [|exact Ep]. rewrite Em. intros [|q0 q] kk aa F; discriminate.
    + injection E1 as <-. exact Ep.
    + destruct (create_value x size stack); [|discriminate]. cbn [bind] in E1. injection E1 as <-.
      apply put_leaf; [|exact Ep]. rewrite Em. intros q kk aa F. discriminate.
Qed.
(** C112.  Whatever is written and whether or not it raises, every array of the storage keeps its
    rows other than those addressed. *)
Lemma C112_other_rows_partial_lemma : forall (size : nat) (stack : bool) (l0 : list (string * bval)) (meta : bval) (zs : list Z) (ps : list nat) (b meta' : bval) (e : option exn),
  meta = Node l0 -> selected size (IArr zs) = Some ps -> aligned size meta -> store_st size stack meta zs b = (meta', e) ->
  forall p k rs l, at_path p meta = Some (Leaf k (Ar rs l)) ->
    exists l', at_path p meta' = Some (Leaf k (Ar rs l')) /\ length l' = length l /\ forall r, ~ In r ps -> nth_error l' r = nth_error l r.
Proof.
  intros size stack l0 meta zs ps b meta' e Hl0 Hs Hal E.
  assert (H : kept_rows size ps meta meta').
  { unfold store_st in E. destruct (bset meta (IArr zs) b) as [m1 e1] eqn:E1. pose proof (bset_kept size ps zs meta Hs b m1 e1 E1) as K1.
    assert (D : (e1 = Some ValueError /\ (match (let* b := cast b in
             let* m := match items m1 with
                       | [] => create_value b size stack
                       | l => let* l := alloc b size stack l in Ok (Node l)
                       end in
             Ok (m, b)) with
      | Err e => (m1, Some e)
      | Ok (m, b) => bset m (IArr zs) b
      end) = (meta', e)) \/ meta' = m1).
    { destruct e1 as [[]|]; try (injection E as <- _; now right). left. split; [reflexivity|exact E]. }
    clear E. destruct D as [[_ E]|E]; [|subst; exact K1].
    destruct (cast b) as [b'|]; [|injection E as <- _; exact K1]. cbn [bind] in E.
    destruct (items m1) as [|kx lx] eqn:Ei.
    - cbn [bind] in E. destruct (create_value b' size stack) as [m2|]; cbn [bind] in E; [|injection E as <- _; exact K1].
      apply (kept_trans size ps meta m1); [exact K1|].
      apply (kept_trans size ps m1 m2); [|exact (bset_kept size ps zs m2 Hs b' meta' e E)].
      intros p k a Ep. destruct m1 as [k1 a1|l1|]; cbn in Ei.
      + exfalso. subst meta. destruct (bset_is_node l0 (IArr zs) b) as (l' & H). rewrite E1 in H. discriminate.
      + subst l1. destruct p; discriminate.
      + destruct p; discriminate.
    - destruct m1 as [k1 a1|l1|]; try discriminate. cbn in Ei. subst l1.
      destruct (alloc b' size stack (kx :: lx)) as [l2|] eqn:El; cbn [bind] in E; [|injection E as <- _; exact K1].
      apply (kept_trans size ps meta (Node (kx :: lx))); [exact K1|].
      apply (kept_trans size ps (Node (kx :: lx)) (Node l2)); [|exact (bset_kept size ps zs (Node l2) Hs b' meta' e E)].
      intros p k [c|rs l] Ep; [exact (alloc_kept b' size stack _ _ El p k _ Ep)|]. intros _. exists l. split; [exact (alloc_kept b' size stack _ _ El p k _ Ep)|auto]. }
  intros p k rs l Ep. destruct (Hal p k (Ar rs l) Ep) as (rs' & l' & Ea & Hl). injection Ea as <- <-. exact (H p k (Ar rs l) Ep Hl).
Qed.

(** C112.  An [add] that raises has moved the bookkeeping on and may have written part of the row:
    here the action of the second transition has a new shape. *)
Definition add_two (act : bval) :=
  let r := add_st 0%Z Z.add (BufferModel.bst_init 0%Z 3) (Node []) 1%Z false (tr_with (Leaf KInt (Sc (CN 1%Qc)))) in
  (r, add_st 0%Z Z.add (fst (fst r)) (snd (fst r)) 1%Z false (tr_with act)).
(** C112.  An [add] that raises has moved the bookkeeping on and may have written part of the row:
    here the action of the second transition has a new shape. *)
Lemma C112_add_refuted_lemma : exists act s m s' m' e,
  add_two act = (s, m, None, (s', m', Some e)) /\ BufferModel.size s = 1 /\ BufferModel.size s' = 2
  /\ at_path ["obs"] m = Some (Leaf KInt (Ar [] [Sc (CN (Q2Qc (5 # 1))); Sc (CN 0%Qc); Sc (CN 0%Qc)]))
  /\ at_path ["obs"] m' = Some (Leaf KInt (Ar [] [Sc (CN (Q2Qc (5 # 1))); Sc (CN (Q2Qc (5 # 1))); Sc (CN 0%Qc)]))
  /\ at_path ["rew"] m' = Some (Leaf KFloat (Ar [] [Sc (CN 1%Qc); Sc (CN 0%Qc); Sc (CN 0%Qc)])).
Proof.
  exists (Leaf KInt (Ar [] [Sc (CN 1%Qc); Sc (CN 1%Qc)])). do 5 eexists.
  split; [vm_compute; reflexivity|]. split; [vm_compute; reflexivity|]. split; [vm_compute; reflexivity|].
  split; [vm_compute; reflexivity|]. split; vm_compute; reflexivity.
Qed.
