(** * Arithmetic and other small operations on batches *)
From Verif Require Import PyLemmas BatchModel BatchSpec BatchProofs BatchOpsModel BatchOpsSpec.
From Coq Require Import String.
Import List BatchModel.
Open Scope string_scope.
Open Scope list_scope.
Open Scope nat_scope.

(** ** Structural description of the results *)
Definition cop (o : arith) (c d : cell) : cell :=
  match c, d with
  | CN x, CN y => match o with
                  | OAdd => CN (x + y)%Qc | OMul => CN (x * y)%Qc
                  | ODiv => if Qc_eq_dec y 0%Qc then CNan else CN (x / y)%Qc
                  end
  | _, _ => CNan
  end.
Fixpoint pz (o : arith) (a b : nd) {struct a} : nd :=
  match a, b with
  | Sc c, Sc d => Sc (cop o c d)
  | Ar rs l, Ar _ l' => Ar rs ((fix go l l' := match l, l' with x :: l, y :: l' => pz o x y :: go l l' | _, _ => [] end) l l')
  | _, _ => a
  end.
Fixpoint zips (o : arith) (l l' : list nd) : list nd := match l, l' with x :: l, y :: l' => pz o x y :: zips o l l' | _, _ => [] end.
Lemma pz_Ar o rs l rs' l' : pz o (Ar rs l) (Ar rs' l') = Ar rs (zips o l l').
Proof. cbn [pz]. f_equal. revert l'. induction l as [|x l IH]; intros [|y l']; cbn; [reflexivity..|]. f_equal. apply IH. Qed.
Fixpoint nzips (f : cell -> cell -> res cell) (l l' : list nd) : res (list nd) :=
  match l, l' with x :: l, y :: l' => let* x := nzip f x y in let* l := nzips f l l' in Ok (x :: l) | _, _ => Ok [] end.
Lemma nzip_Ar f rs l rs' l' : nzip f (Ar rs l) (Ar rs' l') = let* l := nzips f l l' in Ok (Ar rs l).
Proof.
  cbn [nzip]. f_equal. revert l'. induction l as [|x l IH]; intros [|y l']; cbn; try reflexivity.
  destruct (nzip f x y); [|reflexivity]. cbn. now rewrite IH.
Qed.
Lemma cell_op_num o k k' c d : k <> KObj -> k' <> KObj -> cell_of k c -> cell_of k' d -> cell_op o c d = Ok (cop o c d).
Proof. intros Hk Hk' Hc Hd. destruct k, k'; try congruence; destruct c as [| |], d as [| |]; cbn in *; try contradiction; try reflexivity; now destruct o. Qed.
Lemma nzip_typed o k k' : k <> KObj -> k' <> KObj -> forall sh x y, typed k sh x -> typed k' sh y -> nzip (cell_op o) x y = Ok (pz o x y).
Proof.
  intros Hk Hk' sh x. revert sh. induction x as [c|rs l IH] using nd_ind'; intros [|n sh] y Hx Hy; cbn [typed] in Hx; try contradiction.
  - destruct y as [d|]; [|contradiction]. cbn. now rewrite (cell_op_num o k k').
  - destruct y as [|rs' l']; [contradiction|]. cbn [typed] in Hy. destruct Hx as (-> & Hl & Fx), Hy as (-> & Hl' & Fy).
    rewrite nzip_Ar, pz_Ar. assert (E : nzips (cell_op o) l l' = Ok (zips o l l')).
    { clear Hl Hl'. revert l' Fy. induction IH as [|x l Hx _ IHl]; intros [|y l'] Fy; try reflexivity. inversion Fx; inversion Fy; subst. cbn.
      rewrite (Hx sh y) by assumption. cbn. now rewrite IHl. }
    now rewrite E.
Qed.
Lemma bcast_scalar sh c : bcast sh (Sc c) = Ok (nfull sh c).
Proof. induction sh as [|n sh IH]; [reflexivity|]. cbn. now rewrite IH. Qed.
Lemma zips_length o l l' : length l = length l' -> length (zips o l l') = length l.
Proof. revert l'. induction l as [|x l IH]; intros [|y l'] H; cbn in *; try lia. f_equal. apply IH. lia. Qed.
Lemma nth_zips o l l' i : nth_error (zips o l l') i = match nth_error l i, nth_error l' i with Some x, Some y => Some (pz o x y) | _, _ => None end.
Proof.
  revert l' i. induction l as [|x l IH]; intros [|y l'] [|i]; cbn; try reflexivity; [now destruct (nth_error l i)|apply IH].
Qed.
Lemma cell_pz o k k' sh : forall x y q, typed k sh x -> typed k' sh y ->
  cell_at q (pz o x y) = match cell_at q x, cell_at q y with Some c, Some d => Some (cop o c d) | _, _ => None end.
Proof.
  induction sh as [|n sh IH]; intros x y q Hx Hy; cbn [typed] in *.
  - destruct x as [c|]; [|contradiction]. destruct y as [d|]; [|contradiction]. destruct q; reflexivity.
  - destruct x as [|rs l]; [contradiction|]. destruct y as [|rs' l']; [contradiction|]. destruct Hx as (-> & _ & Fx), Hy as (-> & _ & Fy).
    rewrite pz_Ar. destruct q as [|i q]; [reflexivity|]. cbn [cell_at]. rewrite nth_zips.
    destruct (nth_error l i) as [x|] eqn:Ex; [|now destruct (nth_error l' i)].
    destruct (nth_error l' i) as [y|] eqn:Ey; [|now destruct (cell_at q x)].
    rewrite Forall_forall in Fx, Fy. apply IH; [apply Fx|apply Fy]; eapply nth_error_In; eassumption.
Qed.
Lemma shape_pz o k k' sh x y : typed k sh x -> typed k' sh y -> shape (pz o x y) = shape x.
Proof.
  intros Hx Hy. destruct sh as [|n sh], x as [c|rs l]; try contradiction; destruct y as [d|rs' l']; try contradiction; [reflexivity|].
  destruct Hx as (-> & Hl & _), Hy as (-> & Hl' & _). rewrite pz_Ar. cbn. f_equal. apply zips_length. lia.
Qed.

(** ** Integers stay integers *)
Lemma int_iff (q : Qc) : Qden q = 1%positive <-> exists z, q = Q2Qc (inject_Z z).
Proof.
  split.
  - intro H. exists (Qnum q). rewrite <- (Qnum_int q H) at 1. rewrite H. now rewrite Z.quot_1_r.
  - intros [z ->]. unfold Q2Qc. cbn [this]. unfold inject_Z, Qred. pose proof (Z.ggcd_gcd z 1) as G. pose proof (Z.ggcd_correct_divisors z 1) as D.
    destruct (Z.ggcd z 1) as (g, (aa, bb)). cbn in *. rewrite Z.gcd_1_r in G. subst g. destruct D as [_ D]. rewrite Z.mul_1_l in D. now subst bb.
Qed.
Lemma int_add (x y : Qc) : Qden x = 1%positive -> Qden y = 1%positive -> Qden (x + y)%Qc = 1%positive.
Proof.
  rewrite !int_iff. intros [a ->] [b ->]. exists (a + b)%Z. apply Qc_is_canon. unfold Qcplus, Q2Qc. cbn [this]. rewrite !Qred_correct. rewrite inject_Z_plus. reflexivity.
Qed.
Lemma int_mul (x y : Qc) : Qden x = 1%positive -> Qden y = 1%positive -> Qden (x * y)%Qc = 1%positive.
Proof.
  rewrite !int_iff. intros [a ->] [b ->]. exists (a * b)%Z. apply Qc_is_canon. unfold Qcmult, Q2Qc. cbn [this]. rewrite !Qred_correct. rewrite inject_Z_mult. reflexivity.
Qed.
Lemma result_cases o k k' : k <> KObj -> k' = k \/ k' = KInt -> o <> ODiv -> akind_eqb (result_kind o k k') k = true.
Proof. intros H1 H2 H3. destruct o; try congruence; destruct H2 as [-> | ->]; destruct k; cbn; congruence. Qed.
Lemma cop_kind o k k' c d : k <> KObj -> k' <> KObj -> akind_eqb (result_kind o k k') k = true -> cell_of k c -> cell_of k' d -> cell_of k (cop o c d).
Proof.
  intros Hk Hk' Hr Hc Hd. destruct k; try congruence; destruct k'; try congruence; try discriminate; destruct c as [x| |]; try contradiction; destruct d as [y| |]; try contradiction; cbn in *;
    try exact Logic.I; destruct o; cbn in *; try exact Logic.I; try discriminate; try (now apply int_add); try (now apply int_mul); now destruct (Qc_eq_dec y 0%Qc).
Qed.
Lemma typed_pz o k k' sh : k <> KObj -> k' <> KObj -> akind_eqb (result_kind o k k') k = true -> forall x y, typed k sh x -> typed k' sh y -> typed k sh (pz o x y).
Proof.
  intros Hk Hk' Hr. induction sh as [|n sh IH]; intros x y Hx Hy; cbn [typed] in *.
  - destruct x as [c|]; [|contradiction]. destruct y as [d|]; [|contradiction]. cbn. now apply (cop_kind o k k').
  - destruct x as [|rs l]; [contradiction|]. destruct y as [|rs' l']; [contradiction|]. destruct Hx as (-> & Hl & Fx), Hy as (-> & Hl' & Fy).
    rewrite pz_Ar. split; [reflexivity|]. split; [rewrite zips_length; lia|]. clear Hl Hl'. revert l' Fy.
    induction l as [|x l IHl]; intros [|y l'] Fy; cbn; constructor; inversion Fx; inversion Fy; subst; auto.
Qed.

(** ** Addition of batches *)
Fixpoint zipb (b v : bval) {struct b} : bval :=
  match b, v with
  | Leaf k x, Leaf _ y => Leaf k (pz OAdd x y)
  | Node l, Node lv => Node ((fix go l lv := match l, lv with (k, x) :: l, (_, w) :: lv => (k, zipb x w) :: go l lv | _, _ => [] end) l lv)
  | _, _ => b
  end.
Fixpoint zipl (l lv : list (string * bval)) : list (string * bval) :=
  match l, lv with (k, x) :: l, (_, w) :: lv => (k, zipb x w) :: zipl l lv | _, _ => [] end.
Lemma zipb_Node l lv : zipb (Node l) (Node lv) = Node (zipl l lv).
Proof. reflexivity. Qed.
Fixpoint iadds (l lv : list (string * bval)) : list (string * bval) * option exn :=
  match l, lv with
  | [], [] => ([], None)
  | [], _ :: _ => ([], Some ValueError)
  | _ :: _, [] => (l, Some ValueError)
  | (k, x) :: l, (_, w) :: lv =>
      let '(x, e) := match x with Node [] => (x, None) | _ => iadd x w end in
      match e with
      | Some e => ((k, x) :: l, Some e)
      | None => let '(l, e) := iadds l lv in ((k, x) :: l, e)
      end
  end.
Lemma iadd_Node l lv : iadd (Node l) (Node lv) = let '(l, e) := iadds l lv in (Node l, e).
Proof. reflexivity. Qed.
Lemma alike_ind' (P : bval -> bval -> Prop) :
  (forall k k' sh x y, k <> KObj -> k' = k \/ k' = KInt -> typed k sh x -> typed k' sh y -> P (Leaf k x) (Leaf k' y)) ->
  (forall l lv, Forall2 (fun kx kv => fst kx = fst kv /\ alike (snd kx) (snd kv) /\ P (snd kx) (snd kv)) l lv -> P (Node l) (Node lv)) ->
  forall b v, alike b v -> P b v.
Proof.
  intros H1 H2. fix F 3. intros b v H. destruct H as [k k' sh x y Hk Hk' Hx Hy|l lv H]; [eapply H1; eassumption|].
  apply H2. induction H as [|kx kv l lv [E H] _ IH]; constructor; [|exact IH]. split; [exact E|]. split; [exact H|]. now apply F.
Qed.
Lemma int_not_obj k' k : k <> KObj -> k' = k \/ k' = KInt -> k' <> KObj.
Proof. intros H [-> | ->]; congruence. Qed.
Lemma iadd_alike b v : alike b v -> iadd b v = (zipb b v, None).
Proof.
  induction 1 as [k k' sh x y Hk Hk' Hx Hy|l lv H] using alike_ind'.
  - cbn [iadd zipb]. unfold inplace. rewrite result_cases by (assumption || discriminate).
    rewrite (typed_shape _ _ _ Hx), (typed_shape _ _ _ Hy), Nat.leb_refl. rewrite (typed_bcast k') by exact Hy. cbn [bind].
    rewrite (nzip_typed OAdd k k' Hk (int_not_obj k' k Hk Hk') sh) by assumption. reflexivity.
  - rewrite iadd_Node, zipb_Node. assert (E : iadds l lv = (zipl l lv, None)).
    { induction H as [|[k x] [k' w] l lv (E & Ha & Hx) _ IH]; [reflexivity|]. cbn [iadds zipl fst snd] in *. rewrite Hx, IH.
      destruct x as [|[|]|]; try reflexivity. inversion Ha as [|? ? H0]; subst. inversion H0. reflexivity. }
    now rewrite E.
Qed.
Lemma zipl_fst l lv : Forall2 (fun kx kv => fst kx = fst kv /\ alike (snd kx) (snd kv)) l lv -> map fst (zipl l lv) = map fst l.
Proof. induction 1 as [|[k x] [k' w] l lv [E _] _ IH]; [reflexivity|]. cbn in *. now rewrite IH. Qed.
Lemma assoc_zipl k l lv : Forall2 (fun kx kv => fst kx = fst kv /\ alike (snd kx) (snd kv)) l lv ->
  match assoc k l with
  | Some x => exists w, assoc k lv = Some w /\ alike x w /\ assoc k (zipl l lv) = Some (zipb x w)
  | None => assoc k (zipl l lv) = None
  end.
Proof.
  induction 1 as [|[k1 x] [k2 w] l lv [E H] _ IH]; [reflexivity|]. cbn in E, H. subst k2. cbn [assoc zipl].
  destruct (String.eqb k k1); [exists w; auto|exact IH].
Qed.
(** C113.  With the keys in the same order: element by element at every path. *)
Lemma C113_add_partial_lemma : forall (b v : bval), alike b v ->
  exists r, iadd b v = (r, None) /\ badd b v = Ok r /\
    leafwise b r (fun p q c => match number_at p q v with Some d => Some (csum c d) | None => None end).
Proof.
  intros b v H. exists (zipb b v). split; [now apply iadd_alike|]. split; [unfold badd; now rewrite iadd_alike|].
  intro p. revert b v H. induction p as [|s p IH]; intros b v H.
  - inversion H as [k k' sh x y Hk Hk' Hx Hy|l lv Hl]; subst; cbn [at_path].
    + exists (pz OAdd x y). split; [reflexivity|]. split; [now apply (shape_pz OAdd k k' sh)|]. intro q. rewrite (cell_pz OAdd k k' sh) by assumption.
      unfold number_at. cbn [at_path]. destruct (cell_at q x) as [c|]; [|reflexivity]. destruct (cell_at q y) as [d|]; [|reflexivity].
      destruct c, d; reflexivity.
    + rewrite zipb_Node. eexists. split; [reflexivity|]. now apply zipl_fst.
  - inversion H as [k k' sh x y Hk Hk' Hx Hy|l lv Hl]; subst; [reflexivity|].
    rewrite zipb_Node. rewrite !at_cons. unfold number_at. pose proof (assoc_zipl s l lv Hl) as Ha. destruct (assoc s l) as [x|].
    + destruct Ha as (w & Ew & Hw & Ez). rewrite Ez. specialize (IH x w Hw). unfold number_at in IH. rewrite at_cons, Ew. exact IH.
    + now rewrite Ha.
Qed.

(** ** A number applied to a batch *)
Inductive scalable (o : arith) (k' : akind) : bval -> Prop :=
| sc_leaf k sh x : k <> KObj -> akind_eqb (result_kind o k k') k = true -> typed k sh x -> scalable o k' (Leaf k x)
| sc_node l : Forall (fun kx => scalable o k' (snd kx)) l -> scalable o k' (Node l).
Lemma scalable_ind' o k' (P : bval -> Prop) :
  (forall k sh x, k <> KObj -> akind_eqb (result_kind o k k') k = true -> typed k sh x -> P (Leaf k x)) ->
  (forall l, Forall (fun kx => scalable o k' (snd kx)) l -> Forall (fun kx => P (snd kx)) l -> P (Node l)) ->
  forall b, scalable o k' b -> P b.
Proof.
  intros H1 H2. fix F 2. intros b H. destruct H as [k sh x Hk Hr Hx|l H]; [eapply H1; eassumption|].
  apply H2; [exact H|]. induction H as [|kx l H _ IH]; constructor; [now apply F|exact IH].
Qed.
Fixpoint smap (o : arith) (q : Qc) (b : bval) : bval :=
  match b with
  | Leaf k x => Leaf k (pz o x (nfull (shape x) (CN q)))
  | Node l => Node (map (fun kx => (fst kx, smap o q (snd kx))) l)
  | NoneV => NoneV
  end.
Fixpoint iscales (o : arith) (k' : akind) (q : Qc) (l : list (string * bval)) : list (string * bval) * option exn :=
  match l with
  | [] => ([], None)
  | (k, x) :: l =>
      let '(x, e) := match x with Node [] => (x, None) | _ => iscale o k' q x end in
      match e with
      | Some e => ((k, x) :: l, Some e)
      | None => let '(l, e) := iscales o k' q l in ((k, x) :: l, e)
      end
  end.
Lemma iscale_Node o k' q l : iscale o k' q (Node l) = let '(l, e) := iscales o k' q l in (Node l, e).
Proof.
  cbn [iscale]. match goal with |- (let '(_, _) := ?f l in _) = _ => assert (E : forall l, f l = iscales o k' q l) end.
  { clear l. induction l as [|[k x] l IH]; [reflexivity|]. cbn [iscales].
    destruct (match x with Node [] => (x, None) | _ => iscale o k' q x end) as [x' [e|]]; [reflexivity|]. now rewrite IH. }
  now rewrite E.
Qed.
Lemma typed_full k sh c : cell_of k c -> typed k sh (nfull sh c).
Proof. intro H. induction sh as [|n sh IH]; [exact H|]. cbn. split; [reflexivity|]. split; [apply repeat_length|]. apply Forall_forall. intros x Hx. apply repeat_spec in Hx. now subst. Qed.
Lemma iscale_ok o k' q b : k' <> KObj -> cell_of k' (CN q) -> scalable o k' b -> iscale o k' q b = (smap o q b, None).
Proof.
  intros Hk' Hq H. induction H as [k sh x Hk Hr Hx|l H IH] using scalable_ind'.
  - cbn [iscale smap]. unfold inplace. rewrite Hr. cbn [shape length]. replace (0 <=? length (shape x)) with true by reflexivity.
    rewrite bcast_scalar. cbn [bind]. rewrite (typed_shape _ _ _ Hx). rewrite (nzip_typed o k k' Hk Hk' sh) by (try exact Hx; now apply typed_full). reflexivity.
  - rewrite iscale_Node. cbn [smap]. assert (E : iscales o k' q l = (map (fun kx => (fst kx, smap o q (snd kx))) l, None)).
    { clear H. induction IH as [|[k x] l Hx _ IH]; [reflexivity|]. cbn [iscales map fst snd] in *. rewrite Hx, IH. destruct x as [|[|]|]; reflexivity. }
    now rewrite E.
Qed.
Lemma cell_full k sh c : forall x q d, typed k sh x -> cell_at q x = Some d -> cell_at q (nfull sh c) = Some c.
Proof.
  induction sh as [|n sh IH]; intros x q d Hx Hq; cbn [typed] in Hx.
  - destruct x; [|contradiction]. destruct q; [reflexivity|discriminate].
  - destruct x as [|rs l]; [contradiction|]. destruct Hx as (-> & Hl & Fx). destruct q as [|i q]; [discriminate|]. cbn [cell_at nfull] in *.
    destruct (nth_error l i) as [y|] eqn:Ey; [|discriminate]. assert (Hi : i < n) by (rewrite <- Hl; apply nth_error_Some; congruence).
    rewrite (nth_error_repeat _ Hi). apply (IH y q d); [|exact Hq]. rewrite Forall_forall in Fx. apply Fx. eapply nth_error_In. exact Ey.
Qed.
Lemma scale_leafwise o q b k' : k' <> KObj -> cell_of k' (CN q) -> scalable o k' b -> leafwise b (smap o q b) (fun _ _ c => Some (cop o c (CN q))).
Proof.
  intros Hk' Hq H p. revert b H. induction p as [|s p IH]; intros b H.
  - inversion H as [k sh x Hk Hr Hx|l Hl]; subst; cbn [at_path smap].
    + eexists. split; [reflexivity|]. rewrite (typed_shape _ _ _ Hx). pose proof (typed_full k' sh _ Hq) as Hf.
      split; [rewrite <- (typed_shape _ _ _ Hx) at 2; now apply (shape_pz o k k' sh)|]. intro r. rewrite (cell_pz o k k' sh) by assumption.
      destruct (cell_at r x) as [c|] eqn:Er; [|reflexivity]. now rewrite (cell_full k sh (CN q) x r c Hx Er).
    + eexists. split; [reflexivity|]. rewrite map_map. reflexivity.
  - inversion H as [k sh x Hk Hr Hx|l Hl]; subst; [reflexivity|]. cbn [smap]. rewrite !at_cons, (assoc_map (fun _ => smap o q) s l).
    destruct (assoc s l) as [x|] eqn:Ex; [|reflexivity]. apply IH. rewrite Forall_forall in Hl. exact (Hl _ (assoc_In _ _ _ Ex)).
Qed.
Lemma floats_ind' (P : bval -> Prop) : (forall sh x, typed KFloat sh x -> P (Leaf KFloat x)) ->
  (forall l, Forall (fun kx => floats (snd kx)) l -> Forall (fun kx => P (snd kx)) l -> P (Node l)) -> forall b, floats b -> P b.
Proof.
  intros H1 H2. fix F 2. intros b H. destruct H as [sh x Hx|l H]; [eapply H1; eassumption|].
  apply H2; [exact H|]. induction H as [|kx l H _ IH]; constructor; [now apply F|exact IH].
Qed.
Lemma twins_ind' (P : bval -> bval -> Prop) :
  (forall k sh x y, k <> KObj -> typed k sh x -> typed k sh y -> P (Leaf k x) (Leaf k y)) ->
  (forall l lv, Forall2 (fun kx kv => fst kx = fst kv /\ twins (snd kx) (snd kv) /\ P (snd kx) (snd kv)) l lv -> P (Node l) (Node lv)) ->
  forall b v, twins b v -> P b v.
Proof.
  intros H1 H2. fix F 3. intros b v H. destruct H as [k sh x y Hk Hx Hy|l lv H]; [eapply H1; eassumption|].
  apply H2. induction H as [|kx kv l lv [E H] _ IH]; constructor; [|exact IH]. split; [exact E|]. split; [exact H|]. now apply F.
Qed.
Lemma numeric_scalable o b : o <> ODiv -> numeric b -> scalable o KInt b.
Proof.
  unfold numeric. intros Ho. induction b as [k a|l IH|] using bval_ind'; intro H; inversion H as [k0 sh x y Hk Hx Hy|l0 lv H2]; subst.
  - apply (sc_leaf o KInt k sh a Hk); [|exact Hx]. apply result_cases; auto.
  - constructor. rewrite Forall_forall in IH |- *. intros kx Hin. apply (IH kx Hin). clear -H2 Hin.
    revert Hin. assert (G : forall l l' : list (string * bval), l = l' -> Forall2 (fun kx kv => fst kx = fst kv /\ twins (snd kx) (snd kv)) l l' -> In kx l -> twins (snd kx) (snd kx)).
    { intros l1 l2 E F. revert E. induction F as [|a b l1 l2 [_ T] _ IH]; intros E Hin; [destruct Hin|]. injection E as -> ->. destruct Hin as [<-|Hin]; [exact T|auto]. }
    exact (G l l eq_refl H2).
Qed.
Lemma floats_scalable o k' b : k' <> KObj -> floats b -> scalable o k' b.
Proof.
  intros Hk'. induction 1 as [sh x Hx|l H IH] using floats_ind'; [|now constructor].
  apply (sc_leaf o k' KFloat sh x); [discriminate| |exact Hx]. destruct k', o; cbn; congruence.
Qed.
Lemma number_ok o k' q b : o <> ODiv -> number_for k' q b -> k' <> KObj /\ cell_of k' (CN q) /\ scalable o k' b.
Proof.
  intros Ho [(-> & Hq & Hb)|(-> & Hb)]; (split; [discriminate|]).
  - split; [exact Hq|now apply numeric_scalable].
  - split; [exact Logic.I|now apply floats_scalable].
Qed.
(** C113.  Adding or multiplying by a number: every entry of every array. *)
Lemma C113_scale_lemma : forall (k' : akind) (q : Qc) (b : bval), number_for k' q b ->
  (exists r, iscale OAdd k' q b = (r, None) /\ leafwise b r (fun _ _ c => Some (csum c (CN q)))) /\
  (exists r, iscale OMul k' q b = (r, None) /\ leafwise b r (fun _ _ c => Some (cprod c (CN q)))).
Proof.
  intros k' q b H. split.
  - destruct (number_ok OAdd k' q b ltac:(discriminate) H) as (Hk & Hq & Hs). exists (smap OAdd q b). split; [now apply iscale_ok|].
    intro p. pose proof (scale_leafwise OAdd q b k' Hk Hq Hs p) as L. destruct (at_path p b) as [[k x|l|]|]; try exact L.
  - destruct (number_ok OMul k' q b ltac:(discriminate) H) as (Hk & Hq & Hs). exists (smap OMul q b). split; [now apply iscale_ok|].
    intro p. pose proof (scale_leafwise OMul q b k' Hk Hq Hs p) as L. destruct (at_path p b) as [[k x|l|]|]; try exact L.
Qed.

(** ** Laws *)
Lemma twins_alike b v : twins b v -> alike b v.
Proof.
  induction 1 as [k sh x y Hk Hx Hy|l lv H] using twins_ind'; [apply (al_leaf k k sh); auto|].
  constructor. induction H as [|kx kv l lv (E & _ & H) _ IH]; constructor; auto.
Qed.
Lemma twins_sym b v : twins b v -> twins v b.
Proof.
  induction 1 as [k sh x y Hk Hx Hy|l lv H] using twins_ind'; [apply (tw_leaf k sh); auto|].
  constructor. induction H as [|kx kv l lv (E & _ & H) _ IH]; constructor; auto.
Qed.
Lemma Qcadd_comm_cop c d : cop OAdd c d = cop OAdd d c.
Proof. destruct c, d; cbn; try reflexivity. now rewrite Qcplus_comm. Qed.
Lemma pz_comm k sh : forall x y, typed k sh x -> typed k sh y -> pz OAdd x y = pz OAdd y x.
Proof.
  induction sh as [|n sh IH]; intros x y Hx Hy; cbn [typed] in *.
  - destruct x as [c|]; [|contradiction]. destruct y as [d|]; [|contradiction]. cbn. now rewrite Qcadd_comm_cop.
  - destruct x as [|rs l]; [contradiction|]. destruct y as [|rs' l']; [contradiction|]. destruct Hx as (-> & _ & Fx), Hy as (-> & _ & Fy).
    rewrite !pz_Ar. f_equal. revert l' Fy. induction l as [|x l IHl]; intros [|y l'] Fy; try reflexivity.
    inversion Fx; inversion Fy; subst. cbn. f_equal; auto.
Qed.
Lemma cop_assoc c d e : cop OAdd (cop OAdd c d) e = cop OAdd c (cop OAdd d e).
Proof. destruct c, d, e; cbn; try reflexivity. now rewrite Qcplus_assoc. Qed.
Lemma pz_assoc k sh : forall x y z, typed k sh x -> typed k sh y -> typed k sh z -> pz OAdd (pz OAdd x y) z = pz OAdd x (pz OAdd y z).
Proof.
  induction sh as [|n sh IH]; intros x y z Hx Hy Hz; cbn [typed] in *.
  - destruct x as [c|]; [|contradiction]. destruct y as [d|]; [|contradiction]. destruct z as [e|]; [|contradiction]. cbn. now rewrite cop_assoc.
  - destruct x as [|rs l]; [contradiction|]. destruct y as [|rs' l']; [contradiction|]. destruct z as [|rs'' l'']; [contradiction|].
    destruct Hx as (-> & _ & Fx), Hy as (-> & _ & Fy), Hz as (-> & _ & Fz).
    rewrite !pz_Ar. f_equal. revert l' l'' Fy Fz. induction l as [|x l IHl]; intros [|y l'] [|z l''] Fy Fz; try reflexivity.
    inversion Fx; inversion Fy; inversion Fz; subst. cbn. f_equal; auto.
Qed.
Lemma zipb_comm a b : twins a b -> zipb a b = zipb b a.
Proof.
  induction 1 as [k sh x y Hk Hx Hy|l lv H] using twins_ind'; [cbn; f_equal; now apply (pz_comm k sh)|].
  rewrite !zipb_Node. f_equal. induction H as [|[k x] [k' y] l lv (E & _ & H) _ IH]; [reflexivity|]. cbn in *. subst k'. now rewrite H, IH.
Qed.
(** C114.  Addition is commutative. *)
Lemma C114_comm_lemma : forall (a b : bval), twins a b -> badd a b = badd b a.
Proof.
  intros a b H. unfold badd. rewrite (iadd_alike a b) by (now apply twins_alike). rewrite (iadd_alike b a) by (now apply twins_alike, twins_sym).
  cbn [out]. now rewrite zipb_comm.
Qed.
Lemma twins_zipb a b : twins a b -> twins (zipb a b) b.
Proof.
  induction 1 as [k sh x y Hk Hx Hy|l lv H] using twins_ind'.
  - cbn. apply (tw_leaf k sh); auto. apply (typed_pz OAdd k k); auto. apply result_cases; auto; discriminate.
  - rewrite zipb_Node. constructor. induction H as [|[k x] [k' y] l lv (E & _ & H) _ IH]; cbn; constructor; auto.
Qed.
Lemma twins_node_r a lb : twins a (Node lb) -> exists la, a = Node la /\ Forall2 (fun kx kv => fst kx = fst kv /\ twins (snd kx) (snd kv)) la lb.
Proof. intro H. inversion H; subst. eauto. Qed.
Lemma twins_node_l lb c : twins (Node lb) c -> exists lc, c = Node lc /\ Forall2 (fun kx kv => fst kx = fst kv /\ twins (snd kx) (snd kv)) lb lc.
Proof. intro H. inversion H; subst. eauto. Qed.
Lemma twins_leaf_r a k y : twins a (Leaf k y) -> exists sh x, a = Leaf k x /\ k <> KObj /\ typed k sh x /\ typed k sh y.
Proof. intro H. inversion H; subst. eauto 8. Qed.
Lemma twins_leaf_l k y c : twins (Leaf k y) c -> exists sh z, c = Leaf k z /\ k <> KObj /\ typed k sh y /\ typed k sh z.
Proof. intro H. inversion H; subst. eauto 8. Qed.
Lemma typed_unique k sh sh' y : typed k sh y -> typed k sh' y -> sh' = sh.
Proof. intros A B. rewrite <- (typed_shape _ _ _ A). symmetry. apply (typed_shape _ _ _ B). Qed.
Lemma twins_trans b : forall a c, twins a b -> twins b c -> twins a c.
Proof.
  induction b as [k y|lb IH|] using bval_ind'; intros a c H1 H2.
  - apply twins_leaf_r in H1 as (sh & x & -> & Hk & Hx & Hy). apply twins_leaf_l in H2 as (sh' & z & -> & _ & Hy' & Hz).
    rewrite (typed_unique k sh sh' y Hy Hy') in Hz. now apply (tw_leaf k sh).
  - apply twins_node_r in H1 as (la & -> & A). apply twins_node_l in H2 as (lc & -> & B). constructor. revert la lc A B.
    induction IH as [|[k x] lb Hx _ IHl]; intros l l' A B; inversion A as [|[k1 x1] ? ? ? [E1 T1]]; inversion B as [|? [k2 x2] ? ? [E2 T2]]; subst; constructor.
    + cbn in *. split; [congruence|]. now apply Hx.
    + now apply IHl.
  - inversion H1.
Qed.
Lemma zipb_assoc b : forall a c, twins a b -> twins b c -> zipb (zipb a b) c = zipb a (zipb b c).
Proof.
  induction b as [k y|lb IH|] using bval_ind'; intros a c H1 H2.
  - apply twins_leaf_r in H1 as (sh & x & -> & Hk & Hx & Hy). apply twins_leaf_l in H2 as (sh' & z & -> & _ & Hy' & Hz).
    rewrite (typed_unique k sh sh' y Hy Hy') in Hz. cbn. f_equal. now apply (pz_assoc k sh).
  - apply twins_node_r in H1 as (la & -> & A). apply twins_node_l in H2 as (lc & -> & B). rewrite !zipb_Node. f_equal. revert la lc A B.
    induction IH as [|[k x] lb Hx _ IHl]; intros l l' A B; inversion A as [|[k1 x1] ? ? ? [E1 T1]]; inversion B as [|? [k2 x2] ? ? [E2 T2]]; subst; [reflexivity|].
    cbn in *. rewrite Hx, IHl by assumption. reflexivity.
  - inversion H1.
Qed.
(** C114.  ... and associative. *)
Lemma C114_assoc_lemma : forall (a b c : bval), twins a b -> twins b c ->
  (let* r := badd a b in badd r c) = (let* r := badd b c in badd a r).
Proof.
  intros a b c H1 H2. unfold badd. rewrite (iadd_alike a b), (iadd_alike b c) by (now apply twins_alike). cbn [out bind].
  rewrite (iadd_alike (zipb a b) c), (iadd_alike a (zipb b c)).
  - cbn [out]. now rewrite zipb_assoc.
  - apply twins_alike. apply (twins_trans b); [exact H1|]. apply (twins_trans c); [exact H2|]. apply twins_sym. now apply twins_zipb.
  - apply twins_alike. apply (twins_trans b); [now apply twins_zipb|exact H2].
Qed.
Lemma zips_repeat o l y n : length l = n -> zips o l (repeat y n) = map (fun x => pz o x y) l.
Proof. intros <-. induction l as [|x l IH]; [reflexivity|]. cbn. now rewrite IH. Qed.
Lemma pz_double k sh : forall x, typed k sh x -> pz OAdd x x = pz OMul x (nfull sh (CN (Q2Qc 2))).
Proof.
  induction sh as [|n sh IH]; intros x Hx; cbn [typed] in Hx.
  - destruct x as [c|]; [|contradiction]. cbn. f_equal. destruct c as [q| |]; try reflexivity. cbn. f_equal.
    replace (Q2Qc 2) with (1 + 1)%Qc by (apply Qc_is_canon; reflexivity). ring.
  - destruct x as [|rs l]; [contradiction|]. destruct Hx as (-> & Hl & Fx). cbn [nfull]. rewrite !pz_Ar, zips_repeat by exact Hl. f_equal.
    clear Hl. induction Fx as [|x l Hx _ IHl]; [reflexivity|]. cbn. f_equal; auto.
Qed.
Lemma numeric_Forall l : numeric (Node l) -> Forall (fun kx => numeric (snd kx)) l.
Proof.
  intro H. apply twins_node_l in H as (lc & E & H). injection E as <-.
  assert (G : forall l l' : list (string * bval), Forall2 (fun kx kv => fst kx = fst kv /\ twins (snd kx) (snd kv)) l l' -> l = l' -> Forall (fun kx => numeric (snd kx)) l).
  { clear. induction 1 as [|a b l l' [_ T] _ IH]; intro E; [constructor|]. injection E as -> ->. constructor; auto. }
  exact (G l l H eq_refl).
Qed.
Lemma zipb_double b : numeric b -> zipb b b = smap OMul (Q2Qc 2) b.
Proof.
  induction b as [k a|l IH|] using bval_ind'; intro H.
  - apply twins_leaf_l in H as (sh & z & E & Hk & Hx & _). cbn. f_equal. rewrite (typed_shape _ _ _ Hx). now apply (pz_double k).
  - apply numeric_Forall in H. rewrite zipb_Node. cbn [smap]. f_equal. rewrite Forall_forall in IH, H.
    assert (G : forall m, incl m l -> zipl m m = map (fun kx => (fst kx, smap OMul (Q2Qc 2) (snd kx))) m).
    { induction m as [|[k x] m IHm]; intro Hi; [reflexivity|]. cbn. rewrite IHm by (intros y Hy; apply Hi; now right).
      pose proof (Hi (k, x) (or_introl eq_refl)) as Hin. pose proof (IH (k, x) Hin (H (k, x) Hin)) as E. cbn in E. now rewrite E. }
    apply G. apply incl_refl.
  - inversion H.
Qed.
(** C114.  [b + b] is [b * 2]. *)
Lemma C114_double_lemma : forall (b : bval), numeric b -> badd b b = bscale OMul KInt (Q2Qc 2) b.
Proof.
  intros b H. unfold badd, bscale. rewrite (iadd_alike b b) by (now apply twins_alike).
  rewrite (iscale_ok OMul KInt (Q2Qc 2) b ltac:(discriminate) eq_refl (numeric_scalable OMul b ltac:(discriminate) H)).
  cbn [out]. now rewrite zipb_double.
Qed.
Lemma scalable_twins o k' a b : twins a b -> scalable o k' a -> scalable o k' b.
Proof.
  induction 1 as [k sh x y Hk Hx Hy|l lv H] using twins_ind'; intro S; inversion S; subst.
  - apply (sc_leaf o k' k sh); assumption.
  - constructor. match goal with F : Forall _ l |- _ => revert F end. clear S. induction H as [|kx kv l lv (E & _ & H) _ IH]; intro F; constructor; inversion F; subst; auto.
Qed.
Lemma cop_distr c d q : cop OMul (cop OAdd c d) (CN q) = cop OAdd (cop OMul c (CN q)) (cop OMul d (CN q)).
Proof. destruct c, d; cbn; try reflexivity. f_equal. ring. Qed.
Lemma pz_distr k sh q : forall x y, typed k sh x -> typed k sh y ->
  pz OMul (pz OAdd x y) (nfull sh (CN q)) = pz OAdd (pz OMul x (nfull sh (CN q))) (pz OMul y (nfull sh (CN q))).
Proof.
  induction sh as [|n sh IH]; intros x y Hx Hy; cbn [typed] in Hx, Hy.
  - destruct x as [c|]; [|contradiction]. destruct y as [d|]; [|contradiction]. cbn [pz nfull]. now rewrite cop_distr.
  - destruct x as [|rs l]; [contradiction|]. destruct y as [|rs' l']; [contradiction|]. destruct Hx as (-> & Hl & Fx), Hy as (-> & Hl' & Fy).
    cbn [nfull]. rewrite !pz_Ar. rewrite !zips_repeat by (rewrite ?zips_length; lia). f_equal. clear Hl Hl'. revert l' Fy.
    induction Fx as [|x l Hx _ IHl]; intros [|y l'] Fy; try reflexivity. inversion Fy; subst. cbn. f_equal; auto.
Qed.
Lemma shape_zip k sh x y : typed k sh x -> typed k sh y -> shape (pz OAdd x y) = sh.
Proof. intros Hx Hy. rewrite (shape_pz OAdd k k sh x y Hx Hy). now apply (typed_shape k). Qed.
Lemma smap_zipb q a b : twins a b -> smap OMul q (zipb a b) = zipb (smap OMul q a) (smap OMul q b).
Proof.
  induction 1 as [k sh x y Hk Hx Hy|l lv H] using twins_ind'.
  - cbn. rewrite (shape_zip k sh x y Hx Hy), (typed_shape _ _ _ Hx), (typed_shape _ _ _ Hy). f_equal. now apply (pz_distr k).
  - rewrite zipb_Node. cbn [smap]. rewrite zipb_Node. f_equal. induction H as [|[k x] [k' y] l lv (E & _ & H) _ IH]; [reflexivity|]. cbn in *. now rewrite H, IH.
Qed.
Lemma smap_twins o k' q a b : k' <> KObj -> cell_of k' (CN q) -> twins a b -> scalable o k' a -> twins (smap o q a) (smap o q b).
Proof.
  intros Hk' Hq. induction 1 as [k sh x y Hk Hx Hy|l lv H] using twins_ind'; intro S; inversion S; subst; cbn [smap].
  - rewrite (typed_shape _ _ _ Hx), (typed_shape _ _ _ Hy). apply (tw_leaf k sh); [exact Hk| |]; apply (typed_pz o k k'); auto; now apply typed_full.
  - constructor. match goal with F : Forall _ l |- _ => revert F end. clear S.
    induction H as [|[k x] [k1 y] l lv (E & _ & H) _ IH]; intro F; cbn; constructor; inversion F; subst; auto.
Qed.
(** C114.  Multiplication by a number distributes over addition. *)
Lemma C114_distr_lemma : forall (a b : bval) (k' : akind) (q : Qc), twins a b -> number_for k' q a ->
  (let* r := badd a b in bscale OMul k' q r) = (let* x := bscale OMul k' q a in let* y := bscale OMul k' q b in badd x y).
Proof.
  intros a b k' q H N. destruct (number_ok OMul k' q a ltac:(discriminate) N) as (Hk & Hq & Hs).
  pose proof (scalable_twins OMul k' a b H Hs) as Hsb. unfold badd, bscale.
  rewrite (iadd_alike a b) by (now apply twins_alike). rewrite (iscale_ok OMul k' q a), (iscale_ok OMul k' q b) by assumption. cbn [out bind].
  rewrite (iadd_alike (smap OMul q a)) by (apply twins_alike; now apply (smap_twins OMul k')).
  rewrite (iscale_ok OMul k' q (zipb a b)) by (try assumption; (apply (scalable_twins OMul k' b); [apply twins_sym; now apply twins_zipb|exact Hsb])).
  cbn [out]. now rewrite smap_zipb.
Qed.
Lemma cop_muldiv q c : cell_of KFloat c -> q <> 0%Qc -> cop ODiv (cop OMul c (CN q)) (CN q) = c.
Proof.
  intros Hc Hq. destruct c as [x| |]; cbn in *; [|reflexivity|contradiction]. destruct (Qc_eq_dec q 0%Qc); [contradiction|].
  f_equal. field. exact Hq.
Qed.
Lemma pz_muldiv q sh : q <> 0%Qc -> forall x, typed KFloat sh x -> pz ODiv (pz OMul x (nfull sh (CN q))) (nfull sh (CN q)) = x.
Proof.
  intro Hq. induction sh as [|n sh IH]; intros x Hx; cbn [typed] in Hx.
  - destruct x as [c|]; [|contradiction]. cbn [pz nfull]. now rewrite cop_muldiv.
  - destruct x as [|rs l]; [contradiction|]. destruct Hx as (-> & Hl & Fx). cbn [nfull]. rewrite !pz_Ar. rewrite !zips_repeat by (rewrite ?map_length, ?zips_length; rewrite ?repeat_length; auto). f_equal.
    rewrite map_map. clear Hl. induction Fx as [|x l Hx _ IHl]; [reflexivity|]. cbn. f_equal; auto.
Qed.
Lemma smap_floats o k' q b : k' <> KObj -> cell_of k' (CN q) -> floats b -> floats (smap o q b).
Proof.
  intros Hk' Hq. induction 1 as [sh x Hx|l H IH] using floats_ind'; cbn.
  - rewrite (typed_shape _ _ _ Hx). apply (fl_leaf sh). apply (typed_pz o KFloat k'); auto; [discriminate|destruct o, k'; cbn; congruence|now apply typed_full].
  - constructor. clear H. induction IH; cbn; constructor; auto.
Qed.
(** Dividing a batch of floats: every entry; multiplying and dividing by the same number gives the
    batch back. *)
Lemma C116_floats_partial_lemma : forall (b : bval) (k' : akind) (q : Qc), floats b -> cell_of k' (CN q) -> k' <> KObj -> q <> 0%Qc ->
  (exists r, iscale ODiv k' q b = (r, None) /\ leafwise b r (fun _ _ c => Some (cquot c (CN q)))) /\
  (let* r := bscale OMul k' q b in bscale ODiv k' q r) = Ok b.
Proof.
  intros b k' q Hb Hc Hk Hq. split.
  - exists (smap ODiv q b). split; [apply iscale_ok; auto; now apply floats_scalable|]. intro p.
    pose proof (scale_leafwise ODiv q b k' Hk Hc (floats_scalable ODiv k' b Hk Hb) p) as L. destruct (at_path p b) as [[k x|l|]|]; try exact L.
    destruct L as (z & E & S & L). exists z. split; [exact E|]. split; [exact S|]. intro r. rewrite L. destruct (cell_at r x) as [[y| |]|]; try reflexivity.
    cbn. now destruct (Qc_eq_dec q 0%Qc).
  - unfold bscale. rewrite (iscale_ok OMul k' q b) by (auto; now apply floats_scalable). cbn [out bind].
    rewrite (iscale_ok ODiv k' q) by (auto; apply floats_scalable; auto; now apply (smap_floats OMul k')). cbn [out]. f_equal.
    induction Hb as [sh x Hx|l H IH] using floats_ind'; cbn.
    + rewrite (typed_shape _ _ _ Hx). rewrite (shape_pz OMul KFloat k' sh) by (try exact Hx; now apply typed_full). rewrite (typed_shape _ _ _ Hx). f_equal. now apply pz_muldiv.
    + f_equal. rewrite map_map. cbn. clear H. induction IH as [|[k x] l Hx _ IH]; [reflexivity|]. cbn in *. now rewrite Hx, IH.
Qed.
(** C116.  Integers cannot be divided, not even into a new batch. *)
Lemma C116_ints_refuted_lemma : exists b, numeric b /\ bscale ODiv KInt (Q2Qc 2) b = Err TypeError.
Proof.
  exists (Node [("a", Leaf KInt (Ar [] [Sc (CN (Q2Qc 2)); Sc (CN (Q2Qc 4))]))]). split; [|vm_compute; reflexivity].
  constructor. constructor; [|constructor]. split; [reflexivity|]. apply (tw_leaf KInt [2]); [discriminate| |]; cbn; repeat constructor.
Qed.
Definition int1 (z : Z) : bval := Leaf KInt (Ar [] [Sc (CN (Q2Qc (inject_Z z)))]).
(** C113.  Values are paired by position: with the keys in another order unrelated values are added; a
    batch added to an empty one is ignored. *)
Lemma C113_order_refuted_lemma :
  (exists b v r, numeric b /\ numeric v /\ badd b v = Ok r /\ b = Node [("x", int1 1); ("y", int1 2)] /\ v = Node [("y", int1 10); ("x", int1 20)] /\
     r = Node [("x", int1 11); ("y", int1 22)]) /\
  (exists r, badd (Node [("x", Node [])]) (Node [("x", Node [("z", int1 1)])]) = Ok r /\ r = Node [("x", Node [])]).
Proof.
  assert (N : forall s t z w, numeric (Node [(s, int1 z); (t, int1 w)])).
  { intros. constructor. constructor; [|constructor; [|constructor]]; (split; [reflexivity|]); apply (tw_leaf KInt [1]); try discriminate; cbn;
      (split; [reflexivity|]; split; [reflexivity|]; constructor; [|constructor]; apply int_iff; eauto). }
  split; [do 3 eexists; split; [apply N|]; split; [apply N|]; split; [|split; [reflexivity|split; reflexivity]]; vm_compute; reflexivity|].
  eexists. split; reflexivity.
Qed.

(** ** Operations that raise *)
Lemma layout_refl b : same_layout b b.
Proof. intro p. destruct (at_path p b) as [[k x|l|]|]; eauto. Qed.
Lemma layout_node l l' : Forall2 (fun kx ky => fst kx = fst ky /\ same_layout (snd kx) (snd ky)) l l' -> same_layout (Node l) (Node l').
Proof.
  intro H. intros [|s p].
  - cbn. exists l'. split; [reflexivity|]. induction H as [|kx ky l l' [E _] _ IH]; [reflexivity|]. cbn. now rewrite E, IH.
  - rewrite !at_cons. assert (A : match assoc s l with Some x => exists y, assoc s l' = Some y /\ same_layout x y | None => assoc s l' = None end).
    { induction H as [|[k x] [k' y] l l' [E H] _ IH]; [reflexivity|]. cbn in E, H. subst k'. cbn [assoc]. destruct (String.eqb s k); eauto. }
    destruct (assoc s l) as [x|]; [|now rewrite A]. destruct A as (y & -> & H'). apply H'.
Qed.
Lemma layout_leaf k a z : shape z = shape a -> same_layout (Leaf k a) (Leaf k z).
Proof. intros H [|s p]; cbn; eauto. Qed.
Lemma bcast_shape sh x z : bcast sh x = Ok z -> shape z = sh.
Proof.
  destruct sh as [|n sh]; cbn.
  - destruct x; [|discriminate]. intro H. now injection H as <-.
  - destruct (length (shape x) <=? length sh).
    + destruct (bcast sh x); [|discriminate]. cbn. intro H. injection H as <-. cbn. now rewrite repeat_length.
    + destruct x as [|rs l]; [discriminate|]. destruct (Nat.eqb_spec (length l) n) as [Hl|Hl].
      * destruct (mapM (bcast sh) l) as [l'|] eqn:E; [|discriminate]. cbn. intro H. injection H as <-. cbn. f_equal. rewrite (mapM_length _ _ _ E). exact Hl.
      * destruct l as [|y [|? ?]]; try discriminate. destruct (bcast sh y); [|discriminate]. cbn. intro H. injection H as <-. cbn. now rewrite repeat_length.
Qed.
Lemma nzips_length f : forall l l' z, length l = length l' -> nzips f l l' = Ok z -> length z = length l.
Proof.
  induction l as [|x l IH]; intros [|y l'] z Hl H; cbn in *; try lia; [now injection H as <-|].
  destruct (nzip f x y); [|discriminate]. cbn in H. destruct (nzips f l l') as [z'|] eqn:E; [|discriminate]. injection H as <-. cbn. f_equal. apply (IH l'); [lia|exact E].
Qed.
Lemma inplace_shape o k a k' x z : inplace o k a k' x = Ok z -> shape z = shape a.
Proof.
  unfold inplace. destruct (akind_eqb _ _); [|discriminate]. destruct (_ <=? _); [|discriminate].
  destruct (bcast (shape a) x) as [y|] eqn:E; [|discriminate]. cbn [bind]. apply bcast_shape in E. destruct a as [c|rs l], y as [d|rs' l']; try discriminate.
  - cbn. destruct (cell_op o c d); [|discriminate]. intro H. now injection H as <-.
  - rewrite nzip_Ar. destruct (nzips (cell_op o) l l') as [w|] eqn:Ew; [|discriminate]. cbn [bind]. intro H. injection H as <-. cbn in *. injection E as E _.
    f_equal. now apply (nzips_length _ _ l' _ (eq_sym E)) in Ew.
Qed.
Lemma layout_all l : Forall2 (fun kx ky : string * bval => fst kx = fst ky /\ same_layout (snd kx) (snd ky)) l l.
Proof. induction l; constructor; [split; [reflexivity|apply layout_refl]|assumption]. Qed.
Lemma iadd_layout b : forall v r e, iadd b v = (r, e) -> same_layout b r.
Proof.
  induction b as [k a|l IH|] using bval_ind'; intros v r e E.
  - destruct v as [k' x|lv|]; cbn in E; [|injection E as <- _; apply layout_refl..].
    destruct (inplace OAdd k a k' x) as [z|] eqn:Ez; injection E as <- _; [|apply layout_refl]. apply layout_leaf. now apply inplace_shape in Ez.
  - destruct v as [k' x|lv|]; [injection E as <- _; apply layout_refl| |injection E as <- _; apply layout_refl].
    rewrite iadd_Node in E. destruct (iadds l lv) as [l' e'] eqn:El. injection E as <- _. apply layout_node. revert lv l' e' El.
    induction IH as [|[k x] l Hx _ IHl]; intros [|[k' w] lv] l' e' El; cbn [iadds] in El; try (injection El as <- _; apply layout_all).
    cbn in Hx. destruct (match x with Node [] => (x, None) | _ => iadd x w end) as [x' ex] eqn:Ex.
    assert (Lx : same_layout x x') by (destruct x as [|[|]|]; try (apply (Hx w x' ex Ex)); injection Ex as <- _; apply layout_refl).
    destruct ex as [ex|]; [injection El as <- _; constructor; [auto|apply layout_all]|].
    destruct (iadds l lv) as [l2 e2] eqn:E2. injection El as <- _. constructor; [auto|]. exact (IHl lv l2 e2 E2).
  - cbn in E. injection E as <- _. apply layout_refl.
Qed.
Lemma iscale_layout o k' q b : forall r e, iscale o k' q b = (r, e) -> same_layout b r.
Proof.
  induction b as [k a|l IH|] using bval_ind'; intros r e E.
  - cbn in E. destruct (inplace o k a k' (Sc (CN q))) as [z|] eqn:Ez; injection E as <- _; [|apply layout_refl]. apply layout_leaf. now apply inplace_shape in Ez.
  - rewrite iscale_Node in E. destruct (iscales o k' q l) as [l' e'] eqn:El. injection E as <- _. apply layout_node. revert l' e' El.
    induction IH as [|[k x] l Hx _ IHl]; intros l' e' El; cbn [iscales] in El; [injection El as <- _; constructor|].
    cbn in Hx. destruct (match x with Node [] => (x, None) | _ => iscale o k' q x end) as [x' ex] eqn:Ex.
    assert (Lx : same_layout x x') by (destruct x as [|[|]|]; try (apply (Hx x' ex Ex)); injection Ex as <- _; apply layout_refl).
    destruct ex as [ex|]; [injection El as <- _; constructor; [auto|apply layout_all]|].
    destruct (iscales o k' q l) as [l2 e2] eqn:E2. injection El as <- _. constructor; [auto|]. exact (IHl l2 e2 eq_refl).
  - cbn in E. injection E as <- _. apply layout_refl.
Qed.
(** C115.  Whether or not they raise, in-place operations keep the keys, kinds and shapes. *)
Lemma C115_layout_partial_lemma :
  (forall (b v r : bval) (e : option exn), iadd b v = (r, e) -> same_layout b r) /\
  (forall (o : arith) (k' : akind) (q : Qc) (b r : bval) (e : option exn), iscale o k' q b = (r, e) -> same_layout b r).
Proof. split; [exact iadd_layout|exact iscale_layout]. Qed.
(** C115.  An in-place operation that raises has changed the values before: a missing key is noticed
    after all others were added; a None after the values before it. *)
Lemma C115_raises_refuted_lemma :
  (exists b v r e, iadd b v = (r, Some e) /\ at_path ["x"] b = Some (int1 1) /\ at_path ["x"] r = Some (int1 11)) /\
  (exists b r e, iscale OMul KInt (Q2Qc 2) b = (r, Some e) /\ at_path ["x"] b = Some (int1 1) /\ at_path ["x"] r = Some (int1 2)).
Proof.
  split.
  - exists (Node [("x", int1 1)]), (Node [("x", int1 10); ("y", int1 20)]). do 2 eexists. split; [vm_compute; reflexivity|]. split; [reflexivity|]. vm_compute. reflexivity.
  - exists (Node [("x", int1 1); ("y", NoneV)]). do 2 eexists. split; [vm_compute; reflexivity|]. split; [reflexivity|]. vm_compute. reflexivity.
Qed.

(** ** empty_ *)
Fixpoint empties (ix : option index) (l : list (string * bval)) : list (string * bval) * option exn :=
  match l with
  | [] => ([], None)
  | (k, x) :: l =>
      let '(x, e) := empty_ ix x in
      match e with
      | Some e => ((k, x) :: l, Some e)
      | None => let '(l, e) := empties ix l in ((k, x) :: l, e)
      end
  end.
Lemma empty_Node ix l : empty_ ix (Node l) = let '(l, e) := empties ix l in (Node l, e).
Proof.
  cbn [empty_]. match goal with |- (let '(_, _) := ?f l in _) = _ => assert (E : forall l, f l = empties ix l) end.
  { clear l. induction l as [|[k x] l IH]; [reflexivity|]. cbn [empties]. destruct (empty_ ix x) as [x' [e|]]; [reflexivity|]. now rewrite IH. }
  now rewrite E.
Qed.
Lemma empty_setitem ix b : match b with Node _ => distinct b -> no_none b -> empty_ (Some ix) b = bset b ix (Node []) | _ => True end.
Proof.
  induction b as [k a|l IH|] using bval_ind'; [exact Logic.I| |exact Logic.I]. intros Hd Hno.
  rewrite empty_Node. rewrite bset_node by (intros s []).
  assert (Hch : Forall (fun kx => empty_ (Some ix) (snd kx) = set_one ix [] kx) l).
  { rewrite Forall_forall in IH |- *. intros [k x] Hin. unfold set_one. cbn [fst snd assoc].
    pose proof (In_assoc k x l (Hd [] l eq_refl) Hin) as Ex. destruct x as [kd a|lx|].
    - cbn. reflexivity.
    - apply (IH (k, Node lx) Hin).
      + now apply (distinct_child (Node l) k (Node lx) l).
      + intros p Hp. apply (Hno (k :: p)). now rewrite at_cons, Ex.
    - exfalso. apply (Hno [k]). now rewrite at_cons, Ex. }
  assert (E : empties (Some ix) l = set_all (set_one ix []) l).
  { clear -Hch. induction Hch as [|[k x] l Hx _ IH]; [reflexivity|]. cbn [empties set_all fst snd] in *. rewrite <- Hx.
    destruct (empty_ (Some ix) x) as [x' [e|]]; [reflexivity|]. now rewrite IH. }
  now rewrite E.
Qed.
(** C117.  On a batch without None, emptying rows is assigning an empty batch to them. *)
Lemma C117_setitem_lemma : forall (l : list (string * bval)) (ix : index), distinct (Node l) -> no_none (Node l) -> empty_ (Some ix) (Node l) = bset (Node l) ix (Node []).
Proof. intros l ix. exact (empty_setitem ix (Node l)). Qed.
Lemma not_written (x : nd) ps r : ~ In r ps -> write_at ps (repeat x (length ps)) r = None.
Proof.
  intro H. unfold write_at. destruct (find _ _) as [[i y]|] eqn:E; [|reflexivity]. exfalso. apply find_some in E as [Hi E].
  cbn in E. apply Nat.eqb_eq in E. subst i. apply in_rev in Hi. apply in_combine_l in Hi. contradiction.
Qed.
(** Rows [ps] become padding, the others stay. *)
Lemma cleared_rows k rs l ps r : r < length l ->
  nth_error (written ps (repeat (padding k rs) (length ps)) l) r = if in_dec Nat.eq_dec r ps then Some (padding k rs) else nth_error l r.
Proof.
  intro Hr. rewrite written_nth by exact Hr. destruct (in_dec Nat.eq_dec r ps) as [H|H].
  - unfold write_at. now rewrite find_combine_repeat.
  - now rewrite not_written.
Qed.
Lemma empty_rows n ix ps b : selected n ix = Some ps -> distinct b -> aligned n b ->
  exists b', empty_ (Some ix) b = (b', None) /\ cleared ps b b'.
Proof.
  intros Hs. induction b as [k a|l IH|] using bval_ind'; intros Hd Ha.
  - destruct (Ha [] k a eq_refl) as (rs & l & -> & Hl). cbn [empty_]. rewrite (nset_zero k rs l ix ps) by now rewrite Hl.
    eexists. split; [reflexivity|]. intros [|s p]; cbn; [|reflexivity]. eexists. split; [reflexivity|]. split; [apply written_length|].
    intros r Hr. now apply cleared_rows.
  - rewrite empty_Node.
    assert (Hch : Forall (fun kx => exists x', empty_ (Some ix) (snd kx) = (x', None) /\ cleared ps (snd kx) x') l).
    { rewrite Forall_forall in IH |- *. intros [k x] Hin. pose proof (In_assoc k x l (Hd [] l eq_refl) Hin) as Ek. apply (IH (k, x) Hin); cbn [snd].
      - now apply (distinct_child (Node l) k x l).
      - intros p k' a Hp. apply (Ha (k :: p) k' a). now rewrite at_cons, Ek. }
    assert (HM : exists l', empties (Some ix) l = (l', None) /\ map fst l' = map fst l /\
               forall k, match assoc k l with Some x => exists x', assoc k l' = Some x' /\ cleared ps x x' | None => assoc k l' = None end).
    { clear -Hch. induction Hch as [|[k x] l (r & Hr & Hg) _ (l' & HM & Hk & Hl)].
      - exists []. repeat split.
      - exists ((k, r) :: l'). cbn [empties snd] in *. rewrite Hr, HM. split; [reflexivity|].
        cbn. split; [now rewrite Hk|]. intro k'. destruct (String.eqb k' k) eqn:E; [|apply Hl]. eauto. }
    destruct HM as (l' & HM & Hk & Hl). rewrite HM. eexists. split; [reflexivity|]. intros [|k p].
    + cbn. eauto.
    + rewrite !at_cons. specialize (Hl k). destruct (assoc k l) as [x|].
      * destruct Hl as (r & -> & Hg). exact (Hg p).
      * now rewrite Hl.
  - exists NoneV. split; [reflexivity|]. intros [|s p]; reflexivity.
Qed.
Lemma empty_all b : exists b', empty_ None b = (b', None) /\ wiped b b'.
Proof.
  induction b as [k a|l IH|] using bval_ind'.
  - cbn. rewrite nfull_padding. eexists. split; [reflexivity|]. intros [|s p]; reflexivity.
  - rewrite empty_Node.
    assert (HM : exists l', empties None l = (l', None) /\ map fst l' = map fst l /\
               forall k, match assoc k l with Some x => exists x', assoc k l' = Some x' /\ wiped x x' | None => assoc k l' = None end).
    { induction IH as [|[k x] l (r & Hr & Hg) _ (l' & HM & Hk & Hl)].
      - exists []. repeat split.
      - exists ((k, r) :: l'). cbn [empties snd] in *. rewrite Hr, HM. split; [reflexivity|].
        cbn. split; [now rewrite Hk|]. intro k'. destruct (String.eqb k' k) eqn:E; [|apply Hl]. eauto. }
    destruct HM as (l' & HM & Hk & Hl). rewrite HM. eexists. split; [reflexivity|]. intros [|k p].
    + cbn. eauto.
    + rewrite !at_cons. specialize (Hl k). destruct (assoc k l) as [x|].
      * destruct Hl as (r & -> & Hg). exact (Hg p).
      * now rewrite Hl.
  - exists NoneV. split; [reflexivity|]. intros [|s p]; reflexivity.
Qed.
(** C117.  empty_ turns the selected rows (without index: everything) into padding and changes nothing else. *)
Lemma C117_empty_lemma :
  (forall (n : nat) (ix : index) (ps : list nat) (b : bval), selected n ix = Some ps -> distinct b -> aligned n b ->
     exists b', empty_ (Some ix) b = (b', None) /\ cleared ps b b') /\
  (forall b : bval, exists b', empty_ None b = (b', None) /\ wiped b b').
Proof. split; [exact empty_rows|exact empty_all]. Qed.

(** ** set_array_at_key *)
Lemma assoc_put {X} k (x : X) l : assoc k (put k x l) = Some x.
Proof. induction l as [|[k' y] l IH]; cbn; [now rewrite String.eqb_refl|]. destruct (String.eqb k k') eqn:E; cbn; [now rewrite String.eqb_refl|now rewrite E]. Qed.
Lemma assoc_put_other {X} k k' (x : X) l : k' <> k -> assoc k' (put k x l) = assoc k' l.
Proof.
  intro H. apply String.eqb_neq in H as H'. induction l as [|[k2 y] l IH]; cbn; [now rewrite H'|].
  destruct (String.eqb k k2) eqn:E; cbn; [apply String.eqb_eq in E; subst; now rewrite H'|]. now rewrite IH.
Qed.
Lemma put_keys {X} k (x y : X) l : assoc k l = Some y -> map fst (put k x l) = map fst l.
Proof.
  induction l as [|[k' z] l IH]; cbn; [discriminate|]. destruct (String.eqb k k') eqn:E; cbn; [apply String.eqb_eq in E; now subst|]. intro H. now rewrite IH.
Qed.
Lemma put_keys_new {X} k (x : X) l : assoc k l = None -> map fst (put k x l) = map fst l ++ [k].
Proof.
  induction l as [|[k' z] l IH]; cbn; [reflexivity|]. destruct (String.eqb k k') eqn:E; [discriminate|]. cbn. intro H. now rewrite IH.
Qed.
Lemma put_put {X} k (x y : X) l : put k x (put k y l) = put k x l.
Proof. induction l as [|[k' z] l IH]; cbn; [now rewrite String.eqb_refl|]. destruct (String.eqb k k') eqn:E; cbn; [now rewrite String.eqb_refl|]. now rewrite E, IH. Qed.
(** C118.  With an index, an existing array gets the rows. *)
Lemma C118_existing_lemma : forall (k kd : akind) (arr : nd) (key : string) (ix : index) (ps rs : list nat) (rows : list nd) (d : cell) (l : list (string * bval)),
  assoc key l = Some (Leaf kd (Ar rs rows)) -> selected (length rows) ix = Some ps -> typed kd (value_shape ix rs (length ps)) arr ->
  exists l' rows', set_array_at_key k arr key (Some ix) d l = (l', None) /\ map fst l' = map fst l /\
    (forall k', k' <> key -> assoc k' l' = assoc k' l) /\ assoc key l' = Some (Leaf kd (Ar rs rows')) /\ length rows' = length rows /\
    forall r, r < length rows -> nth_error rows' r = match write_at ps (new_rows ix kd rs (length ps) (Some (Leaf kd arr))) r with Some x => Some x | None => nth_error rows r end.
Proof.
  intros k kd arr key ix ps rs rows d l Hk Hs Ht. unfold set_array_at_key. rewrite Hk, (nset_value kd rs rows ix ps arr Hs Ht).
  do 2 eexists. split; [reflexivity|]. split; [eapply put_keys; exact Hk|]. split; [intros k' Hk'; now apply assoc_put_other|].
  split; [apply assoc_put|]. split; [apply written_length|]. intros r Hr. now apply written_nth.
Qed.
(** C118.  With an index, a missing key is created with the default value in the other rows. *)
Lemma C118_missing_lemma : forall (k : akind) (arr : nd) (key : string) (ix : index) (ps : list nat) (n : nat) (d c : cell) (l : list (string * bval)),
  assoc key l = None -> blen (Node l) = Ok n -> conv k d = Ok c -> selected n ix = Some ps -> typed k (value_shape ix [] (length ps)) arr ->
  exists l' rows', set_array_at_key k arr key (Some ix) d l = (l', None) /\ map fst l' = map fst l ++ [key] /\
    (forall k', k' <> key -> assoc k' l' = assoc k' l) /\ assoc key l' = Some (Leaf k (Ar [] rows')) /\ length rows' = n /\
    forall r, r < n -> nth_error rows' r = match write_at ps (new_rows ix k [] (length ps) (Some (Leaf k arr))) r with Some x => Some x | None => Some (Sc c) end.
Proof.
  intros k arr key ix ps n d c l Hk Hn Hc Hs Ht. unfold set_array_at_key. rewrite Hk, Hn. cbn [bind].
  assert (E : (let* c0 := match n with 0 => Ok d | S _ => conv k d end in Ok (nfull [n] c0)) = Ok (Ar [] (repeat (Sc c) n))).
  { destruct n; [reflexivity|]. rewrite Hc. reflexivity. }
  rewrite E. rewrite (nset_value k [] _ ix ps arr) by (rewrite ?repeat_length; assumption).
  do 2 eexists. split; [reflexivity|]. split; [rewrite put_put; now apply put_keys_new|]. split; [intros k' Hk'; now rewrite !assoc_put_other|].
  split; [apply assoc_put|]. split; [rewrite written_length; apply repeat_length|]. intros r Hr. rewrite written_nth by now rewrite repeat_length.
  destruct (write_at _ _ r); [reflexivity|]. rewrite nth_error_repeat by exact Hr. reflexivity.
Qed.
(** C118.  With an index, a key that holds a nested batch (or None) raises and nothing changes. *)
Lemma C118_nested_lemma : forall (k : akind) (arr : nd) (key : string) (ix : index) (d : cell) (l : list (string * bval)),
  ((exists sub, assoc key l = Some (Node sub)) -> set_array_at_key k arr key (Some ix) d l = (l, Some ValueError)) /\
  (assoc key l = Some NoneV -> set_array_at_key k arr key (Some ix) d l = (l, Some TypeError)) /\
  (forall kd a l' e, assoc key l = Some (Leaf kd a) -> set_array_at_key k arr key (Some ix) d l = (l', Some e) -> l' = l).
Proof.
  intros k arr key ix d l. unfold set_array_at_key. split; [intros [sub ->]; reflexivity|]. split; [intros ->; reflexivity|].
  intros kd a l' e ->. destruct (nset kd a ix arr); congruence.
Qed.
(** C118.  Without an index the array becomes the value of the key exactly when it has the length of the batch. *)
Lemma C118_whole_lemma : forall (k : akind) (rs : list nat) (rows : list nd) (key : string) (d : cell) (l : list (string * bval)) (n : nat),
  blen (Node l) = Ok n ->
  (length rows = n -> exists l', set_array_at_key k (Ar rs rows) key None d l = (l', None) /\ assoc key l' = Some (Leaf k (Ar rs rows)) /\
     forall k', k' <> key -> assoc k' l' = assoc k' l) /\
  (length rows <> n -> set_array_at_key k (Ar rs rows) key None d l = (l, Some ValueError)).
Proof.
  intros k rs rows key d l n Hn. unfold set_array_at_key. rewrite Hn. split; intro H.
  - apply Nat.eqb_eq in H as ->. eexists. split; [reflexivity|]. split; [apply assoc_put|]. intros k' Hk'. now apply assoc_put_other.
  - apply Nat.eqb_neq in H as ->. reflexivity.
Qed.
(** C118.  A two-dimensional array cannot be stored under a missing key with an index: the call raises,
    although one-dimensional ones are stored, and leaves the key in the batch. *)
Lemma C118_dimensions_refuted_lemma :
  exists (l l' : list (string * bval)) (arr : nd), typed KInt [1; 2] arr /\ blen (Node l) = Ok 2 /\ assoc "x" l = None /\
    set_array_at_key KInt arr "x" (Some (IArr [0%Z])) (CN 0%Qc) l = (l', Some ValueError) /\ assoc "x" l' <> None.
Proof.
  exists [("a", Leaf KInt (Ar [] [Sc (CN 0%Qc); Sc (CN 1%Qc)]))]. eexists. exists (Ar [2] [Ar [] [Sc (CN 1%Qc); Sc (CN 1%Qc)]]).
  split; [cbn; repeat (constructor || split)|]. split; [reflexivity|]. split; [reflexivity|]. split; [vm_compute; reflexivity|]. vm_compute. discriminate.
Qed.

(** ** shape and len *)
Fixpoint shapes (l : list (string * bval)) : list (list nat) := match l with [] => [] | (_, x) :: l => bshape x :: shapes l end.
Lemma bshape_Node l : bshape (Node l) = match shapes l with [] => [] | s :: ss => fold_left min_zip ss s end.
Proof. reflexivity. Qed.
Fixpoint lens (l : list (string * bval)) : res (list nat) :=
  match l with
  | [] => Ok []
  | (_, x) :: l =>
      match x with
      | NoneV => lens l
      | Node _ => let* n := blen x in let* ns := lens l in Ok (if n =? 0 then ns else n :: ns)
      | Leaf _ _ => let* n := blen x in let* ns := lens l in Ok (n :: ns)
      end
  end.
Lemma blen_Node l : blen (Node l) = let* ls := lens l in Ok (match ls with [] => 0 | n :: ns => fold_left Nat.min ns n end).
Proof. reflexivity. Qed.
Lemma heads_fold ns : forall (ss : list (list nat)) n s, Forall2 (fun s n => exists t, s = n :: t) ss ns ->
  exists t, fold_left min_zip ss (n :: s) = fold_left Nat.min ns n :: t.
Proof.
  induction ns as [|m ns IH]; intros ss n s H; inversion H as [|s' m' ss' ns' [t ->] Hss]; subst; cbn; eauto.
Qed.
Lemma fold_min_le ns n : fold_left Nat.min ns n <= n /\ (forall m, In m ns -> fold_left Nat.min ns n <= m) /\ (fold_left Nat.min ns n = n \/ In (fold_left Nat.min ns n) ns).
Proof.
  revert n. induction ns as [|m ns IH]; intro n; cbn; [split; [lia|split; [intros ? []|auto]]|].
  destruct (IH (Nat.min n m)) as (A & B & C). split; [lia|]. split.
  - intros x [<-|H]; [lia|auto].
  - destruct C as [C|C]; [|auto]. destruct (Nat.min_spec n m) as [[_ E]|[_ E]]; rewrite E in C at 2; auto.
Qed.
Lemma solid_child l k x : solid (Node l) -> assoc k l = Some x -> solid x.
Proof. intros H E p. specialize (H (k :: p)). now rewrite at_cons, E in H. Qed.
Lemma solid_len b : solid b -> distinct b -> exists n s, 0 < n /\ bshape b = n :: s /\ blen b = Ok n /\ shortest b n.
Proof.
  induction b as [k a|l IH|] using bval_ind'; intros Hb Hd.
  - specialize (Hb []). cbn in Hb. destruct a as [|rs l]; [contradiction|]. exists (length l), rs. split; [destruct l; [easy|cbn; lia]|].
    split; [reflexivity|]. split; [reflexivity|]. split.
    + intros [|s p] k' rs' l'; [|discriminate]. intro H. injection H as <- <- <-. lia.
    + now exists [], k, rs, l.
  - assert (H : exists ns, lens l = Ok ns /\ Forall2 (fun s n => exists t, s = n :: t) (shapes l) ns /\ Forall (fun n => 0 < n) ns /\
                  Forall2 (fun kx n => shortest (snd kx) n) l ns).
    { assert (Hch : Forall (fun kx => solid (snd kx) /\ distinct (snd kx)) l).
      { apply Forall_forall. intros [k x] Hin. pose proof (In_assoc k x l (Hd [] l eq_refl) Hin) as Ek. split; cbn [snd].
        - now apply (solid_child l k). - now apply (distinct_child (Node l) k x l). }
      clear Hb Hd. induction IH as [|[k x] l Hx _ IHl]; [exists []; repeat constructor|].
      inversion Hch as [|? ? [Hs Hdx] Hch']; subst. cbn [snd] in *. destruct (IHl Hch') as (ns & En & H1 & H2 & H3).
      destruct (Hx Hs Hdx) as (n & t & Hn & Esh & El & Hmin). exists (n :: ns).
      split; [|split; [cbn; constructor; eauto|split; [now constructor|now constructor]]].
      cbn [lens]. rewrite El, En. cbn [bind]. destruct x; [reflexivity| |].
      + destruct n; [lia|reflexivity]. + specialize (Hs []). contradiction. }
    destruct H as (ns & En & Hsh & Hpos & Hmin). specialize (Hb []). cbn in Hb.
    rewrite bshape_Node, blen_Node, En. cbn [bind].
    destruct ns as [|n ns]; [inversion Hmin; subst; contradiction|]. destruct (shapes l) as [|s ss]; [inversion Hsh|].
    inversion Hsh as [|? ? ? ? [t ->] Hss]; subst. destruct (heads_fold ns ss n t Hss) as (t' & Et).
    destruct (fold_min_le ns n) as (L1 & L2 & L3). exists (fold_left Nat.min ns n), t'.
    assert (Hle : forall m, In m (n :: ns) -> fold_left Nat.min ns n <= m) by (intros m [<-|Hm]; auto).
    assert (Hin : In (fold_left Nat.min ns n) (n :: ns)) by (destruct L3 as [->|]; [now left|now right]).
    split; [rewrite Forall_forall in Hpos; now apply Hpos|]. split; [exact Et|]. split; [reflexivity|].
    revert Hle Hin. generalize (fold_left Nat.min ns n). intros m Hle Hin. clear -Hmin Hle Hin Hd. split.
    + intros [|k p] k' rs l' H; [discriminate|]. rewrite at_cons in H. destruct (assoc k l) as [x|] eqn:Ek; [|discriminate].
      apply assoc_In in Ek. revert Ek H. clear -Hmin Hle. induction Hmin as [|kx n0 l ns0 [Hx _] _ IH]; [intros []|]. intros [->|Hi] H.
      * cbn in Hx. specialize (Hx p k' rs l' H). specialize (Hle n0 (or_introl eq_refl)). lia.
      * apply IH; auto. intros q Hq. apply Hle. now right.
    + assert (Hx : exists k x, In (k, x) l /\ shortest x m).
      { clear -Hmin Hin. induction Hmin as [|[k x] n0 l ns0 Hx _ IH]; [destruct Hin|]. destruct Hin as [->|Hin].
        - exists k, x. split; [now left|exact Hx]. - destruct (IH Hin) as (k' & x' & H & H'). exists k', x'. split; [now right|exact H']. }
      destruct Hx as (k & x & Hi & _ & p & k' & rs & l' & Hp & Hl). exists (k :: p), k', rs, l'. split; [|exact Hl].
      rewrite at_cons, (In_assoc k x l (Hd [] l eq_refl) Hi). exact Hp.
  - specialize (Hb []). contradiction.
Qed.
(** Deciding [distinct] for concrete batches. *)
Fixpoint distinctb (b : bval) : bool :=
  match b with
  | Node l => (fix go l := match l with [] => true | (k, x) :: l => negb (existsb (String.eqb k) (map fst l)) && distinctb x && go l end) l
  | _ => true
  end.
Lemma distinctb_ok b : distinctb b = true -> distinct b.
Proof.
  induction b as [k a|l IH|] using bval_ind'; intro H; [intros [|s p] l; discriminate| |intros [|s p] l; discriminate].
  assert (G : NoDup (map fst l) /\ Forall (fun kx => distinct (snd kx)) l).
  { cbn in H. induction IH as [|[k x] l Hx _ IHl]; [split; constructor|]. rewrite !andb_true_iff in H. destruct H as [[Hk H] Hl].
    destruct (IHl Hl) as [Hn Hf]. split; [|constructor; [exact (Hx H)|exact Hf]]. cbn. constructor; [|exact Hn]. intro Hi. apply negb_true_iff in Hk.
    assert (E : existsb (String.eqb k) (map fst l) = true); [|congruence]. apply existsb_exists. exists k. split; [exact Hi|apply String.eqb_refl]. }
  destruct G as [Hn Hf]. intros [|s p] l' E; [cbn in E; now injection E as <-|]. rewrite at_cons in E. destruct (assoc s l) as [x|] eqn:Ex; [|discriminate].
  apply assoc_In in Ex. rewrite Forall_forall in Hf. exact (Hf (s, x) Ex p l' E).
Qed.
(** C119.  In a batch without None, empty batches and empty arrays the length is the first entry of
    the shape and the number of rows of the shortest array. *)
Lemma C119_shape_lemma : forall b : bval, solid b -> distinct b ->
  exists (n : nat) (s : list nat), 0 < n /\ bshape b = n :: s /\ blen b = Ok n /\ shortest b n.
Proof. exact solid_len. Qed.
(** C119.  A None makes the shape empty and an array without rows in a nested batch makes it start with 0;
    the length ignores both. *)
Lemma C119_shape_refuted_lemma :
  (exists b, distinct b /\ blen b = Ok 2 /\ bshape b = []) /\
  (exists b, distinct b /\ no_none b /\ blen b = Ok 2 /\ bshape b = [0]).
Proof.
  split.
  - exists (Node [("a", Leaf KInt (Ar [] [Sc (CN 0%Qc); Sc (CN 1%Qc)])); ("b", NoneV)]).
    split; [now apply distinctb_ok|split; reflexivity].
  - exists (Node [("a", Leaf KInt (Ar [] [Sc (CN 0%Qc); Sc (CN 1%Qc)])); ("b", Node [("c", Leaf KInt (Ar [] []))])]).
    split; [now apply distinctb_ok|split; [|split; reflexivity]].
    intros [|s [|s' [|? ?]]]; cbn; try discriminate; repeat (match goal with |- context [if ?c then _ else _] => destruct c end; cbn; try discriminate).
Qed.

(** ** replace_empty_batches_by_none *)
Fixpoint replaces (l : list (string * bval)) : list (string * bval) :=
  match l with [] => [] | (k, x) :: l => (k, match x with Node [] => NoneV | _ => replace_empty x end) :: replaces l end.
Lemma replace_Node l : replace_empty (Node l) = Node (replaces l).
Proof. reflexivity. Qed.
(** C120.  Every empty batch below the root becomes None and everything else stays as it was. *)
Lemma C120_replace_lemma : forall b : bval, unemptied b (replace_empty b).
Proof.
  intro b. induction b as [k a|l IH|] using bval_ind'.
  - intros [|s p]; reflexivity.
  - rewrite replace_Node. intros [|s p].
    + cbn. destruct l as [|[k x] l]; [reflexivity|]. cbn. eexists. split; [reflexivity|]. cbn. f_equal. clear. induction l as [|[k x] l IH]; [reflexivity|]. cbn. now rewrite IH.
    + rewrite !at_cons. assert (A : assoc s (replaces l) = option_map (fun x => match x with Node [] => NoneV | _ => replace_empty x end) (assoc s l)).
      { clear. induction l as [|[k x] l IH]; [reflexivity|]. cbn. destruct (String.eqb s k); [reflexivity|exact IH]. }
      rewrite A. destruct (assoc s l) as [x|] eqn:E; [|reflexivity]. cbn [option_map]. apply assoc_In in E. rewrite Forall_forall in IH. specialize (IH (s, x) E p). cbn [snd] in IH.
      destruct x as [k a|[|kx lx]|].
      * destruct p; [reflexivity|exact IH].
      * destruct p; reflexivity.
      * destruct p as [|s' p]; [exact IH|]. exact IH.
      * destruct p; [reflexivity|exact IH].
  - intros [|s p]; reflexivity.
Qed.
