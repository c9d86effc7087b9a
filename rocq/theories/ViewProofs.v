(** * Proofs about distributions in batches and the comparison of batches *)
From Verif Require Import Py PyLemmas Num BatchModel BatchSpec BatchProofs ViewModel ViewSpec.
From Coq Require Import Lia.
Open Scope nat_scope.

(** ** Slicing distributions *)
Lemma eqb_eq x y : Qceqb x y = true -> x = y.
Proof. intros H. destruct (Qceqb_spec x y) as [E|]; [exact E | discriminate H]. Qed.
Lemma normalise_Ar n rs l : normalise (Ar (n :: rs) l) = let* l := mapM normalise l in Ok (Ar (n :: rs) l).
Proof.
  cbn [normalise]. match goal with |- bind (?f l) _ = _ => assert (G : forall l, f l = mapM normalise l) end.
  { clear. induction l as [|x l IH]; [reflexivity|]. cbn [mapM]. rewrite <- IH. reflexivity. }
  rewrite G. reflexivity.
Qed.
Lemma normalise_id : forall bs c p, typed KFloat (bs ++ [c]) p -> stochastic bs p -> (forall q, cell_at q p <> Some CNan) -> normalise p = Ok p.
Proof.
  induction bs as [|n bs IH]; intros c p T S N.
  - destruct p as [x|rs l]; [destruct T|]. cbn in T. destruct T as (-> & HL & F). cbn [stochastic] in S. cbn [normalise].
    rewrite S. change (Qceqb 1 0) with false. cbn iota.
    f_equal. f_equal. rewrite <- (map_id l) at 2. apply map_ext_in. intros x Hx.
    destruct (In_nth_error _ _ Hx) as [i Hi]. rewrite Forall_forall in F. specialize (F x Hx). specialize (N [i]). cbn in N. rewrite Hi in N.
    destruct x as [[q| |o]|]; try contradiction. cbn [qof]. f_equal. f_equal.
    unfold Qcdiv. change (/ 1)%Qc with 1%Qc. ring.
  - destruct p as [x|rs l]; [destruct T|]. cbn [typed app] in T. destruct T as (-> & HL & F). cbn [stochastic] in S.
    destruct (bs ++ [c]) as [|m sh] eqn:E; [destruct bs; discriminate E|]. rewrite normalise_Ar, mapM_id; [reflexivity|].
    rewrite Forall_forall in *. intros x Hx. destruct (In_nth_error _ _ Hx) as [i Hi].
    apply (IH c); [rewrite E; exact (F x Hx) | exact (S x Hx) | intros q; specialize (N (i :: q)); cbn in N; rewrite Hi in N; exact N].
Qed.
Lemma nth_pick (l : list nd) ps j p : nth_error ps j = Some p -> p < length l -> nth_error (map (fun i => nth i l (Sc CNan)) ps) j = nth_error l p.
Proof. intros E H. rewrite nth_error_map, E. cbn. symmetry. apply nth_error_nth'. exact H. Qed.
Lemma selected_int n i ps : selected n (IInt i) = Some ps -> exists p, ps = [p].
Proof. cbn. destruct (pick_one n i) as [p|]; intros H; [injection H as <-; eauto | discriminate H]. Qed.
Lemma pick_ok k n sh a ix ps : typed k (n :: sh) a -> selected n ix = Some ps ->
  exists a', nget a ix = Ok a' /\ typed k (new_shape ix sh ps) a'
    /\ (forall q, cell_at q a' = match source ix ps q with Some q0 => cell_at q0 a | None => None end).
Proof.
  intros T S. destruct a as [c|rs l]; [destruct T|]. cbn [typed] in T. destruct T as (-> & HL & F).
  exists (picked ix sh l ps). split; [rewrite nget_spec, HL, S; reflexivity|].
  assert (Hp : Forall (fun x => x < length l) ps) by (rewrite HL; eapply selected_lt; eauto).
  rewrite Forall_forall in *. unfold new_shape, source. destruct (scalar_index ix) eqn:Eix.
  - destruct ix as [i| |]; try discriminate Eix. destruct (selected_int _ _ _ S) as (p & ->).
    specialize (Hp p (or_introl eq_refl)). cbn [picked map nth]. split; [apply F, nth_In, Hp|].
    intros q. cbn [nth_error option_map cell_at]. rewrite (nth_error_nth' l (Sc CNan) Hp). reflexivity.
  - assert (E : picked ix sh l ps = Ar sh (map (fun i => nth i l (Sc CNan)) ps)) by (destruct ix; [discriminate Eix|reflexivity|reflexivity]).
    rewrite E. split.
    + cbn [typed]. rewrite map_length. split; [reflexivity|]. split; [reflexivity|]. apply Forall_forall. intros x Hx. apply in_map_iff in Hx.
      destruct Hx as (i & <- & Hi). apply F, nth_In, Hp, Hi.
    + intros [|j q]; [reflexivity|]. cbn [cell_at]. destruct (nth_error ps j) as [p|] eqn:Ej; cbn [option_map].
      * rewrite (nth_pick l ps j p Ej); [reflexivity|]. apply Hp. eapply nth_error_In; eauto.
      * rewrite nth_error_map, Ej. reflexivity.
Qed.
Lemma pick_stochastic n bs c a ix ps a' : typed KFloat (n :: bs ++ [c]) a -> selected n ix = Some ps -> nget a ix = Ok a' ->
  stochastic (n :: bs) a -> stochastic (new_shape ix bs ps) a'.
Proof.
  intros T S G H. destruct a as [x|rs l]; [destruct T|]. cbn [typed] in T. destruct T as (-> & HL & F). cbn [stochastic] in H.
  rewrite nget_spec, HL, S in G. injection G as <-.
  assert (Hp : Forall (fun x => x < length l) ps) by (rewrite HL; eapply selected_lt; eauto). rewrite Forall_forall in Hp, H.
  unfold new_shape. destruct (scalar_index ix) eqn:Eix.
  - destruct ix as [i| |]; try discriminate Eix. destruct (selected_int _ _ _ S) as (p & ->). cbn [picked map nth].
    apply H, nth_In, Hp. left. reflexivity.
  - assert (E : picked ix (bs ++ [c]) l ps = Ar (bs ++ [c]) (map (fun i => nth i l (Sc CNan)) ps)) by (destruct ix; [discriminate Eix|reflexivity|reflexivity]).
    rewrite E. cbn [stochastic]. apply Forall_forall. intros x Hx. apply in_map_iff in Hx. destruct Hx as (i & <- & Hi). apply H, nth_In, Hp, Hi.
Qed.
Lemma wf_shape : forall d bs, wf bs d -> batch_shape d = bs.
Proof.
  induction d as [p|l s|d IH k|bs' i]; intros bs H; cbn [wf] in H; cbn [batch_shape].
  - destruct H as (c & T & _ & _). rewrite (typed_shape _ _ _ T). apply removelast_last.
  - destruct H as (T & _). exact (typed_shape _ _ _ T).
  - destruct H as (es & HL & W). rewrite (IH _ W), app_length, HL, Nat.add_sub, firstn_app, Nat.sub_diag, firstn_O, app_nil_r, firstn_all. reflexivity.
  - destruct H.
Qed.
Lemma indep_ok bs es d k : wf (bs ++ es) d -> length es = k -> indep_new d k = Ok (Indep d k).
Proof. intros W <-. unfold indep_new. rewrite (wf_shape _ _ W), app_length. replace (_ <=? _) with true by (symmetry; apply Nat.leb_le; lia). reflexivity. Qed.
Lemma new_shape_app ix bs es ps : new_shape ix (bs ++ es) ps = new_shape ix bs ps ++ es.
Proof. unfold new_shape. destruct (scalar_index ix); reflexivity. Qed.
(** C261. Slicing a distribution over a batch selects elements of the batch: the result is of the same class and each of its elements has exactly
    the parameters of the element that the index selects; an index out of range raises IndexError. The length of the slice is the number of
    selected elements. *)
Lemma C261_slice_lemma : forall (d : dist) (n : nat) (bs : list nat) (ix : index), wf (n :: bs) d ->
  match selected n ix with
  | None => sliced d ix = Err IndexError
  | Some ps =>
      exists d', sliced d ix = Ok d' /\ wf (new_shape ix bs ps) d' /\ same_class d d'
        /\ batch_shape d' = new_shape ix bs ps
        /\ (scalar_index ix = false -> dist_len d' = Ok (length ps))
        /\ (forall which q, par which d' q = match source ix ps q with Some q0 => par which d q0 | None => None end)
  end.
Proof.
  intros d n bs ix W.
  assert (K : match selected n ix with
    | None => sliced d ix = Err IndexError
    | Some ps => exists d', sliced d ix = Ok d' /\ wf (new_shape ix bs ps) d' /\ same_class d d'
        /\ (forall which q, par which d' q = match source ix ps q with Some q0 => par which d q0 | None => None end) end).
  { revert bs W. induction d as [p|l s|d IH k|bs' i]; intros bs W; cbn [wf] in W.
    - destruct W as (c & T & S & N). destruct p as [x|rs l]; [destruct T|]. destruct (selected n ix) as [ps|] eqn:E.
      + destruct (pick_ok KFloat n (bs ++ [c]) _ ix ps T E) as (a' & G & T' & Q).
        assert (S' := pick_stochastic n bs c _ ix ps a' T E G S).
        assert (N' : forall q, cell_at q a' <> Some CNan) by (intros q; rewrite Q; destruct (source ix ps q); [apply N | discriminate]).
        exists (Cat a'). cbn [sliced]. rewrite G. cbn [bind]. unfold cat_new. rewrite new_shape_app in T'.
        rewrite (normalise_id _ c _ T' S' N'). split; [reflexivity|]. split; [exists c; auto|]. split; [exact Logic.I|].
        intros which q. cbn [par]. apply Q.
      + cbn [sliced]. cbn [typed app] in T. destruct T as (-> & HL & _). rewrite nget_spec, HL, E. reflexivity.
    - destruct W as (T & T'). destruct (selected n ix) as [ps|] eqn:E.
      + destruct (pick_ok KFloat n bs _ ix ps T E) as (a & G & T1 & Q). destruct (pick_ok KFloat n bs _ ix ps T' E) as (a' & G' & T1' & Q').
        exists (Norm a a'). cbn [sliced]. rewrite G, G'. split; [reflexivity|]. split; [split; assumption|]. split; [exact Logic.I|].
        intros [|] q; cbn [par]; [apply Q | apply Q'].
      + cbn [sliced]. destruct l as [x|rs l]; [destruct T|]. cbn [typed] in T. destruct T as (-> & HL & _). rewrite nget_spec, HL, E. reflexivity.
    - destruct W as (es & HL & W). specialize (IH (bs ++ es) W). destruct (selected n ix) as [ps|] eqn:E.
      + destruct IH as (d' & G & W' & C & Q). rewrite new_shape_app in W'. exists (Indep d' k). cbn [sliced]. rewrite G. cbn [bind].
        split; [exact (indep_ok _ _ _ _ W' HL)|]. split; [exists es; auto|]. split; [split; auto|]. exact Q.
      + cbn [sliced]. rewrite IH. reflexivity.
    - destruct W. }
  destruct (selected n ix) as [ps|]; [|exact K]. destruct K as (d' & G & W' & C & Q). exists d'.
  split; [exact G|]. split; [exact W'|]. split; [exact C|]. assert (B := wf_shape _ _ W'). split; [exact B|]. split; [|exact Q].
  intros Hs. unfold dist_len. rewrite B. unfold new_shape. rewrite Hs. reflexivity.
Qed.
(** C261. Refuted for a distribution without batch: slicing does not fail as it does for an array without axes. A slice of a Categorical keeps some
    of the classes and scales their probabilities up, and is again a distribution without batch; so does a slice of an Independent one keep some
    of the components. *)
Lemma C261_unbatched_refuted_lemma : forall (l : list nd) (loc scale : list nd) (a b : nat) (ps ps' : list nat),
  selected (length l) (ISlice a b) = Some ps -> qsum (map (fun i => qof (nth i l (Sc CNan))) ps) <> 0%Qc ->
  selected (length loc) (ISlice a b) = Some ps' -> length scale = length loc ->
  (exists d', sliced (Cat (Ar [] l)) (ISlice a b) = Ok d' /\ batch_shape d' = []
     /\ forall j i, nth_error ps j = Some i ->
          par true d' [j] = Some (CN (qof (nth i l (Sc CNan)) / qsum (map (fun i => qof (nth i l (Sc CNan))) ps))%Qc))
  /\ (exists d', sliced (Indep (Norm (Ar [] loc) (Ar [] scale)) 1) (ISlice a b) = Ok d' /\ batch_shape d' = []
     /\ forall which j, par which d' [j] = match nth_error ps' j with Some i => par which (Norm (Ar [] loc) (Ar [] scale)) [i] | None => None end)
  /\ (forall ix x y, sliced (Norm (Sc x) (Sc y)) ix = Err IndexError).
Proof.
  intros l loc scale a b ps ps' S NZ S' HL. split; [|split].
  - eexists. split; [cbn [sliced]; rewrite nget_spec, S; cbn [bind picked]; unfold cat_new; cbn [normalise]; rewrite map_map;
      destruct (Qceqb _ _) eqn:EQ; [exfalso; exact (NZ (eqb_eq _ _ EQ))|]; cbn [bind]; reflexivity|].
    split; [reflexivity|]. intros j i Hj. cbn [par cell_at]. rewrite map_map, nth_error_map, Hj. reflexivity.
  - assert (P : Forall (fun x => x < length loc) ps') by (eapply selected_lt; eauto). rewrite Forall_forall in P.
    eexists. split; [cbn [sliced]; rewrite !nget_spec, HL, S'; cbn [bind picked]; unfold indep_new; cbn [batch_shape shape length Nat.leb guard]; reflexivity|].
    split; [reflexivity|]. intros which j. destruct (nth_error ps' j) as [i|] eqn:E.
    + assert (Hi := P i (nth_error_In _ _ E)). destruct which; cbn [par cell_at]; rewrite nth_error_map, E; cbn [option_map];
        [rewrite (nth_error_nth' loc (Sc CNan) Hi) | rewrite (nth_error_nth' scale (Sc CNan)) by (rewrite HL; exact Hi)]; reflexivity.
    + destruct which; cbn [par cell_at]; rewrite nth_error_map, E; reflexivity.
  - reflexivity.
Qed.

(** ** At least one axis *)
Lemma unsqueeze_typed k sh a : typed k sh a -> typed k (1 :: sh) (unsqueeze a).
Proof. intros T. unfold unsqueeze. cbn [typed]. rewrite (typed_shape _ _ _ T). split; [reflexivity|]. split; [reflexivity|]. constructor; [exact T | constructor]. Qed.
(** C262. Without event axes, a distribution without batch becomes one over a batch of one, whose only element it is; a distribution over a batch
    is left alone. *)
Lemma C262_dist_lemma : forall (d : dist) (n : nat) (bs : list nat),
  (wf [] d -> no_event d -> exists d', dist_2d d = Ok d' /\ wf [1] d' /\ dist_len d' = Ok 1 /\ sliced d' (IInt 0) = Ok d /\ dist_2d d' = Ok d')
  /\ (wf (n :: bs) d -> dist_2d d = Ok d).
Proof.
  assert (B : forall d n bs, wf (n :: bs) d -> dist_2d d = Ok d).
  { intros d n bs W. assert (E := wf_shape _ _ W). destruct d; cbn [dist_2d]; rewrite E; reflexivity. }
  intros d n bs. split; [|apply B]. intros W V.
  assert (K : exists d', dist_2d d = Ok d' /\ wf [1] d' /\ sliced d' (IInt 0) = Ok d).
  { induction d as [p|l s|d IH k|bs' i]; cbn [dist_2d]; rewrite (wf_shape _ _ W).
    - cbn [wf] in W. destruct W as (c & T & S & N).
      assert (T' : typed KFloat ([1] ++ [c]) (unsqueeze p)) by exact (unsqueeze_typed _ _ _ T).
      assert (N' : forall q, cell_at q (unsqueeze p) <> Some CNan).
      { intros [|[|i] q]; cbn; [discriminate | apply N | destruct i; discriminate]. }
      assert (S' : stochastic [1] (unsqueeze p)) by (cbn; constructor; [exact S | constructor]).
      exists (Cat (unsqueeze p)). unfold cat_new. rewrite (normalise_id [1] c _ T' S' N'). split; [reflexivity|]. split; [exists c; auto|].
      cbn. unfold cat_new. rewrite (normalise_id [] c _ T S N). reflexivity.
    - cbn [wf] in W. destruct W as (T & T'). exists (Norm (unsqueeze l) (unsqueeze s)). split; [reflexivity|].
      split; [split; apply unsqueeze_typed; assumption | reflexivity].
    - cbn [wf no_event] in *. destruct W as (es & HL & W). destruct V as (-> & V). destruct es; [|discriminate HL]. cbn [app] in W.
      destruct (IH W V) as (d' & G & W' & R). exists (Indep d' 0). rewrite G. cbn [bind]. rewrite (indep_ok [1] [] _ 0 W' eq_refl).
      split; [reflexivity|]. split; [exists []; auto|]. cbn [sliced]. rewrite R. cbn [bind]. exact (indep_ok [] [] _ 0 W eq_refl).
    - destruct W. }
  destruct K as (d' & G & W' & R). exists d'. split; [exact G|]. split; [exact W'|]. split; [unfold dist_len; rewrite (wf_shape _ _ W'); reflexivity|].
  split; [exact R | exact (B _ _ _ W')].
Qed.
(** C262. Refuted with event axes, as in the Gaussian distributions that the policies use: Independent(Normal, 1) without batch comes back unchanged,
    still without batch. *)
Lemma C262_event_refuted_lemma : forall (d : dist) (k : nat), wf [] (Indep d k) -> 1 <= k ->
  dist_2d (Indep d k) = Ok (Indep d k) /\ batch_shape (Indep d k) = [] /\ dist_len (Indep d k) = Err TypeError.
Proof.
  intros d k W Hk. assert (E := wf_shape _ _ W). split; [|split; [exact E | unfold dist_len; rewrite E; reflexivity]].
  cbn [dist_2d]. rewrite E. cbn [wf app] in W. destruct W as (es & HL & W).
  assert (G : dist_2d d = Ok d).
  { assert (E' := wf_shape _ _ W). destruct es as [|e es]; [cbn in HL; lia|]. destruct d; cbn [dist_2d]; rewrite E'; reflexivity. }
  rewrite G. cbn [bind]. exact (indep_ok [] es d k W HL).
Qed.

(** ** Batches *)
Lemma bv_ind' (P : bv -> Prop) :
  (forall k a, P (VArr k a)) -> (forall k a, P (VTen k a)) -> (forall d, P (VDist d)) -> (forall n d, P (VBoxed n d)) -> P VNone ->
  (forall l, Forall (fun kx => P (snd kx)) l -> P (VNode l)) -> forall v, P v.
Proof.
  intros H1 H2 H3 H4 H5 H6. fix IH 1. intros [k a|k a|d|n d| |l]; [apply H1|apply H2|apply H3|apply H4|apply H5|apply H6].
  induction l as [|[k x] l IHl]; constructor; [apply IH|exact IHl].
Qed.
Lemma vat_cons k p l : vat (k :: p) (VNode l) = match assoc k l with Some x => vat p x | None => None end.
Proof. cbn. rewrite find_assoc. destruct (assoc k l); reflexivity. Qed.
Lemma batch_2d_keys : forall l l', batch_2d l = Ok l' -> map fst l' = map fst l
  /\ forall k v, assoc k l = Some v -> exists x, assoc k l' = Some x /\ match v with VDist d => exists d', dist_2d d = Ok d' /\ x = VDist d' | _ => x = to_2d v end.
Proof.
  induction l as [|[k v] l IH]; intros l' H; cbn [batch_2d] in H.
  - injection H as <-. split; [reflexivity|]. intros k v Q. discriminate Q.
  - assert (G : exists x, match v with VDist d => let* d := dist_2d d in Ok (VDist d) | _ => Ok (to_2d v) end = Ok x
        /\ match v with VDist d => exists d', dist_2d d = Ok d' /\ x = VDist d' | _ => x = to_2d v end).
    { destruct v; try (eexists; split; reflexivity). destruct (dist_2d d) as [d'|]; [|discriminate H]. cbn [bind]. eexists. split; [reflexivity|]. eauto. }
    destruct G as (x & Gx & Hx). rewrite Gx in H. cbn [bind] in H. destruct (batch_2d l) as [l1|] eqn:E; [|discriminate H]. injection H as <-.
    destruct (IH l1 eq_refl) as (K & A). split; [cbn; rewrite K; reflexivity|]. intros k' v' Q. cbn [assoc] in *.
    destruct (String.eqb k' k); [injection Q as <-; eauto | exact (A k' v' Q)].
Qed.
Lemma vat_to_2d : forall p v x, vat p v = Some x -> (forall l, x <> VNode l) -> vat p (to_2d v) = Some (to_2d x).
Proof.
  induction p as [|k p IH]; intros v x H N; [injection H as <-; reflexivity|]. destruct v; try discriminate H. rewrite vat_cons in H.
  cbn [to_2d]. rewrite vat_cons, (assoc_map (fun _ => to_2d)). destruct (assoc k l) as [y|]; [|discriminate H]. cbn [option_map]. exact (IH y x H N).
Qed.
(** C262. Refuted for nested batches: a distribution inside a nested batch is not converted but put into an array of objects of shape (1, 1); a tensor
    anywhere becomes a numpy array. *)
Lemma C262_nested_refuted_lemma : forall (l l' : list (string * bv)) (key k : string) (p : list string) (d : dist) (ak : akind) (a : nd),
  batch_2d l = Ok l' ->
  (vat (key :: k :: p) (VNode l) = Some (VDist d) -> vat (key :: k :: p) (VNode l') = Some (VBoxed 2 d))
  /\ (vat (key :: p) (VNode l) = Some (VTen ak a) -> ak <> KObj -> vat (key :: p) (VNode l') = Some (VArr ak (at2d a))).
Proof.
  intros l l' key k p d ak a H. destruct (batch_2d_keys _ _ H) as (_ & A). split.
  - intros V. rewrite vat_cons in V. rewrite vat_cons. destruct (assoc key l) as [v|] eqn:E; [|discriminate V].
    destruct (A key v E) as (x & -> & Hx). destruct v as [| | | | |m]; try discriminate V. rewrite Hx. apply (vat_to_2d (k :: p) _ (VDist d) V). discriminate.
  - intros V NO. rewrite vat_cons in V. rewrite vat_cons. destruct (assoc key l) as [v|] eqn:E; [|discriminate V].
    destruct (A key v E) as (x & -> & Hx). assert (R : vat p (to_2d v) = Some (VArr ak (at2d a))).
    { rewrite (vat_to_2d p v (VTen ak a) V) by discriminate. cbn [to_2d]. destruct ak; [reflexivity|reflexivity|congruence]. }
    destruct v; try (rewrite Hx; exact R). destruct p; discriminate V.
Qed.
(** C262. On the batch itself, keys stay, arrays get at least two axes and distributions are converted. *)
Lemma C262_batch_lemma : forall (l l' : list (string * bv)) (key : string),
  batch_2d l = Ok l' ->
  map fst l' = map fst l
  /\ (forall d, vat [key] (VNode l) = Some (VDist d) -> exists d', dist_2d d = Ok d' /\ vat [key] (VNode l') = Some (VDist d'))
  /\ (forall ak a, ak <> KObj -> vat [key] (VNode l) = Some (VArr ak a) -> exists a', vat [key] (VNode l') = Some (VArr ak a')
        /\ 2 <= length (shape a')
        /\ match shape a with [] => shape a' = [1; 1] | [n] => shape a' = [1; n] | sh => shape a' = sh end).
Proof.
  intros l l' key H. destruct (batch_2d_keys _ _ H) as (K & A). split; [exact K|]. split.
  - intros d V. rewrite vat_cons in V. destruct (assoc key l) as [v|] eqn:E; [|discriminate V]. injection V as ->. destruct (A key _ E) as (x & Ex & d' & G & ->).
    exists d'. split; [exact G|]. rewrite vat_cons, Ex. reflexivity.
  - intros ak a NO V. rewrite vat_cons in V. destruct (assoc key l) as [v|] eqn:E; [|discriminate V]. injection V as ->. destruct (A key _ E) as (x & Ex & ->).
    exists (at2d a). split; [rewrite vat_cons, Ex; destruct ak; [reflexivity|reflexivity|congruence]|].
    destruct a as [c|[|n rs] rows]; cbn; repeat split; lia.
Qed.

(** ** Rows of a batch made two-dimensional and put together again *)
(** C263. Concatenating the rows of an array after to_at_least_2d gives back the array exactly if it has two axes; if it has one, the result has
    a second axis of length one. *)
Lemma C263_rows_lemma : forall (m : nat) (l : list nd), l <> [] ->
  ((forall x, In x l -> exists r, x = Ar [] r /\ length r = m) -> nconcat (map at2d l) = Ok ([m], l))
  /\ ((forall x, In x l -> exists c, x = Sc c) -> nconcat (map at2d l) = Ok ([1], map (fun x => Ar [] [x]) l)).
Proof.
  intros m l NE. split; intros H.
  - induction l as [|x l IH]; [congruence|]. destruct (H x (or_introl eq_refl)) as (r & -> & Hr). destruct l as [|y l].
    + cbn. rewrite Hr. reflexivity.
    + assert (G : nconcat (map at2d (y :: l)) = Ok ([m], y :: l)) by (apply IH; [discriminate | intros z Hz; apply H; right; exact Hz]).
      change (map at2d (Ar [] r :: y :: l)) with (Ar [length r] [Ar [] r] :: map at2d (y :: l)). rewrite Hr.
      destruct (map at2d (y :: l)) as [|z zs] eqn:Ez; [discriminate Ez|]. cbn [nconcat]. change (nconcat (z :: zs)) with (nconcat (z :: zs)) in G.
      cbn [nconcat] in G. rewrite G. cbn [bind fst snd]. destruct (list_eq_dec Nat.eq_dec [m] [m]); [reflexivity|congruence].
  - induction l as [|x l IH]; [congruence|]. destruct (H x (or_introl eq_refl)) as (c & ->). destruct l as [|y l]; [reflexivity|].
    assert (G : nconcat (map at2d (y :: l)) = Ok ([1], map (fun x => Ar [] [x]) (y :: l))) by (apply IH; [discriminate | intros z Hz; apply H; right; exact Hz]).
    change (map at2d (Sc c :: y :: l)) with (Ar [1] [Ar [] [Sc c]] :: map at2d (y :: l)).
    destruct (map at2d (y :: l)) as [|z zs] eqn:Ez; [discriminate Ez|]. cbn [nconcat] in *. rewrite G. reflexivity.
Qed.
(** C263. Refuted for three and more axes: the first two are merged, so an array of n images with h rows each comes back with n*h rows. *)
Lemma C263_images_refuted_lemma : forall (h w : nat) (rs : list nat) (l : list nd), l <> [] ->
  (forall x, In x l -> exists r, x = Ar (w :: rs) r /\ length r = h) ->
  exists r, nconcat (map at2d l) = Ok (w :: rs, r) /\ length r = length l * h.
Proof.
  intros h w rs l NE H. induction l as [|x l IH]; [congruence|]. destruct (H x (or_introl eq_refl)) as (r & -> & Hr). destruct l as [|y l].
  - exists r. split; [reflexivity|]. cbn. lia.
  - destruct IH as (r' & G & HL); [discriminate | intros z Hz; apply H; right; exact Hz|].
    exists (r ++ r'). change (map at2d (Ar (w :: rs) r :: y :: l)) with (Ar (w :: rs) r :: map at2d (y :: l)).
    destruct (map at2d (y :: l)) as [|z zs] eqn:Ez; [discriminate Ez|]. cbn [nconcat] in *. rewrite G. cbn [bind fst snd].
    destruct (list_eq_dec Nat.eq_dec (w :: rs) (w :: rs)); [|congruence]. split; [reflexivity|]. rewrite app_length, HL, Hr. cbn. lia.
Qed.

(** ** Equality *)
Definition prep (v : bv) : bv := to_1d (numpy v).
Lemma prep_node l : prep (VNode l) = VNode (map (fun kx => (fst kx, prep (snd kx))) l).
Proof. unfold prep. cbn [numpy to_1d]. rewrite map_map. reflexivity. Qed.
Definition kids (v : bv) : list (string * bv) := match v with VNode l => l | _ => [] end.
Lemma vat_kids k p v : vat (k :: p) v = match assoc k (kids v) with Some x => vat p x | None => None end.
Proof. destruct v; try reflexivity. apply vat_cons. Qed.
Lemma prep_looked v : match looked_at v with
  | AnArray k a => prep v = VArr k a
  | ADist n d => prep v = VBoxed n d
  | ADict => prep v = VNode (map (fun kx => (fst kx, prep (snd kx))) (kids v)) end.
Proof.
  destruct v as [k a|k a|d|n d| |l]; try reflexivity.
  - destruct k, a as [c|rs [|x r]]; reflexivity.
  - destruct k, a as [c|rs [|x r]]; reflexivity.
  - destruct n; reflexivity.
  - apply prep_node.
Qed.
Lemma kids_NoDup v : vdistinct v -> NoDup (map fst (kids v)).
Proof. intros H. destruct v; try apply NoDup_nil. exact (H [] l eq_refl). Qed.
Lemma kids_distinct v k x : vdistinct v -> assoc k (kids v) = Some x -> vdistinct x.
Proof. intros H E p l Hp. apply (H (k :: p)). rewrite vat_kids, E. exact Hp. Qed.
Lemma keys_map {X Y} (f : X -> Y) (l : list (string * X)) : keys (map (fun kx => (fst kx, f (snd kx))) l) = keys l.
Proof. unfold keys. rewrite map_map. reflexivity. Qed.
Section Eq.
Variable same : akind -> nd -> akind -> nd -> bool.
Variable samed : dist -> dist -> bool.
Lemma deq_node l l' : deq same samed (VNode l) (VNode l') =
  forallb (fun k => has_key k l) (keys l') && forallb (fun kx => match assoc (fst kx) l' with Some y => deq same samed (snd kx) y | None => false end) l.
Proof.
  cbn [deq]. f_equal. induction l as [|[k x] l IH]; [reflexivity|]. cbn [forallb fst snd]. rewrite <- IH. reflexivity.
Qed.
Definition eq_spec (v : bv) : Prop := forall w, vdistinct v -> vdistinct w ->
  (deq same samed (prep v) (prep w) = true <-> forall p, agree same samed (vat p v) (vat p w)).
Lemma eq_step v : Forall (fun kx => eq_spec (snd kx)) (kids v) -> eq_spec v.
Proof.
  intros IH w Dv Dw. assert (Pv := prep_looked v). assert (Pw := prep_looked w).
  assert (L : forall k p, assoc k (kids v) = None -> assoc k (kids w) = None -> agree same samed (vat (k :: p) v) (vat (k :: p) w)).
  { intros k p E E'. rewrite !vat_kids, E, E'. exact Logic.I. }
  assert (N : forall u, looked_at u <> ADict -> kids u = []).
  { intros u Hu. destruct u; try reflexivity. exfalso. apply Hu. reflexivity. }
  destruct (looked_at v) as [k a|n d|] eqn:Ev; destruct (looked_at w) as [k' a'|n' d'|] eqn:Ew; rewrite Pv, Pw;
    try (split; [intros H; discriminate H | intros H; specialize (H []); cbn [vat] in H; unfold agree in H; cbn [option_map] in H; rewrite Ev, Ew in H; destruct H]).
  - cbn [deq]. split.
    + intros H [|k0 p]; [cbn [vat]; unfold agree; cbn [option_map]; rewrite Ev, Ew; exact H|].
      apply L; [rewrite (N v) by (rewrite Ev; discriminate) | rewrite (N w) by (rewrite Ew; discriminate)]; reflexivity.
    + intros H. specialize (H []). cbn [vat] in H. unfold agree in H. cbn [option_map] in H. rewrite Ev, Ew in H. exact H.
  - cbn [deq]. rewrite Bool.andb_true_iff, Nat.eqb_eq. split.
    + intros H [|k0 p]; [cbn [vat]; unfold agree; cbn [option_map]; rewrite Ev, Ew; exact H|].
      apply L; [rewrite (N v) by (rewrite Ev; discriminate) | rewrite (N w) by (rewrite Ew; discriminate)]; reflexivity.
    + intros H. specialize (H []). cbn [vat] in H. unfold agree in H. cbn [option_map] in H. rewrite Ev, Ew in H. exact H.
  - rewrite deq_node, Bool.andb_true_iff, !forallb_forall, keys_map. rewrite Forall_forall in IH. split.
    + intros [HK HV] [|k p]; [cbn [vat]; unfold agree; cbn [option_map]; rewrite Ev, Ew; exact Logic.I|]. rewrite !vat_kids.
      destruct (assoc k (kids v)) as [x|] eqn:E.
      * assert (I := assoc_In _ _ _ E). specialize (HV (k, prep x)). cbn [fst snd] in HV.
        rewrite (assoc_map (fun _ => prep)) in HV. destruct (assoc k (kids w)) as [y|] eqn:E'; cbn [option_map] in HV.
        -- refine (proj1 (IH (k, x) I y (kids_distinct _ _ _ Dv E) (kids_distinct _ _ _ Dw E')) _ p).
           apply HV. apply in_map_iff. exists (k, x). split; [reflexivity | exact I].
        -- exfalso. assert (F : false = true); [|discriminate F]. apply HV. apply in_map_iff. exists (k, x). split; [reflexivity | exact I].
      * destruct (assoc k (kids w)) as [y|] eqn:E'; [|exact Logic.I]. exfalso.
        assert (I : In k (keys (kids w))) by (apply assoc_Some_key; eauto). specialize (HK k I). unfold has_key in HK. rewrite keys_map in HK.
        assert (I' : In k (map fst (kids v))) by (apply (has_key_spec k (kids v)); exact HK).
        apply (proj1 (assoc_None k (kids v)) E I').
    + intros H. split.
      * intros k I. destruct (proj1 (assoc_Some_key k (kids w)) I) as (y & E'). specialize (H [k]). rewrite !vat_kids, E' in H.
        destruct (assoc k (kids v)) as [x|] eqn:E; [|cbn in H; destruct (looked_at y); destruct H].
        unfold has_key. rewrite keys_map. apply (has_key_spec k (kids v)). apply assoc_Some_key. eauto.
      * intros [k x'] I. apply in_map_iff in I. destruct I as ([k0 x] & Q & I). injection Q as <- <-. cbn [fst snd] in *.
        assert (E := In_assoc _ _ _ (kids_NoDup _ Dv) I). rewrite (assoc_map (fun _ => prep)).
        destruct (assoc k0 (kids w)) as [y|] eqn:E'; cbn [option_map].
        -- apply (proj2 (IH (k0, x) I y (kids_distinct _ _ _ Dv E) (kids_distinct _ _ _ Dw E'))).
           intros p. specialize (H (k0 :: p)). rewrite !vat_kids, E, E' in H. exact H.
        -- specialize (H [k0]). rewrite !vat_kids, E, E' in H. cbn in H. destruct (looked_at x); destruct H.
Qed.
Lemma eq_all v : eq_spec v.
Proof. induction v using bv_ind'; apply eq_step; cbn [kids]; try apply Forall_nil. assumption. Qed.
End Eq.
(** C264. Two batches are equal exactly if the same paths lead to values in both, and at each path the arrays, as DeepDiff compares them, agree; the
    order of the keys and whether a value is a tensor or an array do not matter. *)
Lemma C264_eq_lemma : forall (same : akind -> nd -> akind -> nd -> bool) (samed : dist -> dist -> bool) (l l' : list (string * bv)),
  vdistinct (VNode l) -> vdistinct (VNode l') ->
  (batch_eq same samed l l' = true <-> forall p, agree same samed (vat p (VNode l)) (vat p (VNode l'))).
Proof. intros same samed l l' D D'. exact (eq_all same samed (VNode l) (VNode l') D D'). Qed.
(** C264. So equality is an equivalence if the comparison of arrays is one, and only the empty batch equals the empty batch. *)
Lemma C264_equivalence_lemma : forall (same : akind -> nd -> akind -> nd -> bool) (samed : dist -> dist -> bool) (l1 l2 l3 : list (string * bv)),
  (forall k a, same k a k a = true) -> (forall k a k' a', same k a k' a' = true -> same k' a' k a = true) ->
  (forall k a k' a' k'' a'', same k a k' a' = true -> same k' a' k'' a'' = true -> same k a k'' a'' = true) ->
  (forall d, samed d d = true) -> (forall d d', samed d d' = true -> samed d' d = true) ->
  (forall d d' d'', samed d d' = true -> samed d' d'' = true -> samed d d'' = true) ->
  vdistinct (VNode l1) -> vdistinct (VNode l2) -> vdistinct (VNode l3) ->
  batch_eq same samed l1 l1 = true
  /\ (batch_eq same samed l1 l2 = true -> batch_eq same samed l2 l1 = true)
  /\ (batch_eq same samed l1 l2 = true -> batch_eq same samed l2 l3 = true -> batch_eq same samed l1 l3 = true)
  /\ (batch_eq same samed l1 [] = true <-> l1 = []).
Proof.
  intros same samed l1 l2 l3 R S T Rd Sd Td D1 D2 D3.
  assert (D0 : vdistinct (VNode [])).
  { intros [|k p] l H; [injection H as <-; apply NoDup_nil | discriminate H]. }
  rewrite !C264_eq_lemma by assumption. split; [|split; [|split]].
  - intros p. unfold agree. destruct (vat p (VNode l1)) as [v|]; cbn [option_map]; [|exact Logic.I]. destruct (looked_at v); auto.
  - intros H p. specialize (H p). unfold agree in *. destruct (vat p (VNode l1)) as [v|], (vat p (VNode l2)) as [w|]; cbn [option_map] in *; try exact H;
      [destruct (looked_at v), (looked_at w); try exact H; [apply S, H | destruct H; split; auto] | destruct (looked_at v); destruct H | destruct (looked_at w); destruct H].
  - intros H H' p. specialize (H p). specialize (H' p). unfold agree in *.
    destruct (vat p (VNode l1)) as [v|], (vat p (VNode l2)) as [w|], (vat p (VNode l3)) as [u|]; cbn [option_map] in *; try exact Logic.I;
      repeat match goal with x : bv |- _ => destruct (looked_at x); clear x end; try contradiction; try exact Logic.I; eauto.
    destruct H, H'. split; [congruence | eauto].
  - split; [|intros ->; intros p; unfold agree; destruct (vat p (VNode [])) as [v|]; cbn [option_map]; [destruct (looked_at v); auto | exact Logic.I]].
    intros H. destruct l1 as [|[k x] l1]; [reflexivity|]. exfalso. specialize (H [k]). cbn in H. rewrite String.eqb_refl in H. cbn in H. destruct (looked_at x); exact H.
Qed.
(** C264. Refuted as a comparison of shapes: a number equals the array with that one number, None equals the array with one None, an empty array of
    objects equals an empty batch; so a row of a batch of numbers equals the batch with only that row, although the row has no length. *)
Lemma C264_scalar_refuted_lemma : forall (same : akind -> nd -> akind -> nd -> bool) (samed : dist -> dist -> bool) (key : string) (k : akind) (c : cell) (rs : list nat),
  (forall k a, same k a k a = true) ->
  batch_eq same samed [(key, VArr k (Sc c))] [(key, VArr k (Ar [] [Sc c]))] = true
  /\ batch_eq same samed [(key, VNone)] [(key, VArr KObj (Ar [] [Sc (CO None)]))] = true
  /\ batch_eq same samed [(key, VNode [])] [(key, VArr KObj (Ar rs []))] = true
  /\ (forall l i ps, selected (length l) (IInt i) = Some ps -> (forall x, In x l -> exists c, x = Sc c) -> exists x y,
        nget (Ar [] l) (IInt i) = Ok x /\ nget (Ar [] l) (IArr [i]) = Ok y /\ batch_eq same samed [(key, VArr k x)] [(key, VArr k y)] = true
        /\ shape x = [] /\ shape y = [1]).
Proof.
  intros same samed key k c rs R.
  assert (A : forall k c, batch_eq same samed [(key, VArr k (Sc c))] [(key, VArr k (Ar [] [Sc c]))] = true).
  { intros k0 c0. unfold batch_eq. destruct k0; cbn; unfold has_key; cbn; rewrite String.eqb_refl; cbn; rewrite R; reflexivity. }
  split; [apply A|]. split; [|split].
  - unfold batch_eq. cbn. unfold has_key. cbn. rewrite String.eqb_refl. cbn. rewrite R. reflexivity.
  - unfold batch_eq. cbn. unfold has_key. cbn. rewrite String.eqb_refl. reflexivity.
  - intros l i ps S H. rewrite !nget_spec, S. assert (S' : selected (length l) (IArr [i]) = Some ps).
    { cbn in *. destruct (pick_one (length l) i); [exact S | discriminate S]. }
    rewrite S'. destruct (selected_int _ _ _ S) as (p & ->). cbn [picked map nth].
    assert (P := selected_lt _ _ _ S). rewrite Forall_forall in P. destruct (H (nth p l (Sc CNan)) (nth_In _ _ (P p (or_introl eq_refl)))) as (x & ->).
    exists (Sc x), (Ar [] [Sc x]). split; [reflexivity|]. split; [reflexivity|]. split; [apply A|]. split; reflexivity.
Qed.
(** C264. What to_numpy makes of the values: at every path arrays for tensors, no tensor is left, arrays of objects without rows become
    empty batches (all values are parsed again), everything else and all keys stay. *)
Lemma C264_numpy_lemma : forall (v : bv) (p : list string),
  match vat p v with
  | Some (VTen k a) => vat p (numpy v) = Some (VArr k a)
  | Some (VArr k a) => vat p (numpy v) = Some (if match k, a with KObj, Ar _ [] => true | _, _ => false end then VNode [] else VArr k a)
  | Some (VNode l) => exists l', vat p (numpy v) = Some (VNode l') /\ map fst l' = map fst l
  | Some x => vat p (numpy v) = Some x
  | None => vat p (numpy v) = None
  end /\ forall k a, vat p (numpy v) <> Some (VTen k a).
Proof.
  intros v p. revert v. induction p as [|s p IH]; intro v.
  - cbn [vat]. destruct v as [k a|k a|d|n d| |l]; cbn [numpy]; (split; [try reflexivity|try discriminate]).
    + unfold parse_arr. destruct k; try reflexivity. destruct a as [|rs [|]]; reflexivity.
    + unfold parse_arr. destruct k; try discriminate. destruct a as [|rs [|]]; discriminate.
    + eexists. split; [reflexivity|]. now rewrite map_map.
  - destruct v as [k a|k a|d|n d| |l]; cbn [numpy]; try (cbn [vat]; split; [reflexivity|discriminate]).
    + assert (E : vat (s :: p) (parse_arr k a) = None) by (unfold parse_arr; destruct k; try reflexivity; destruct a as [|rs [|]]; reflexivity).
      rewrite E. cbn [vat]. split; [reflexivity|discriminate].
    + rewrite !vat_cons, (assoc_map (fun _ => numpy)). destruct (assoc s l) as [x|]; cbn [option_map]; [apply IH|]. split; [reflexivity|discriminate].
Qed.
