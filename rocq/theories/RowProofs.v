(** * Proofs: arithmetic of batches row by row *)
From Verif Require Import Py PyLemmas BatchModel BatchSpec BatchProofs BatchOpsModel BatchOpsSpec BatchOpsProofs.
From Coq Require Import String.
Import List BatchModel.
Open Scope string_scope.
Open Scope list_scope.
Open Scope nat_scope.

Fixpoint bgets (l : list (string * bval)) (ix : index) : res (list (string * bval)) :=
  match l with [] => Ok [] | (k, x) :: l => let* x := bget x ix in let* l := bgets l ix in Ok ((k, x) :: l) end.
Lemma bget_Node l ix : bget (Node l) ix = let* l := bgets l ix in Ok (Node l).
Proof.
  destruct l as [|kx l]; [reflexivity|].
  change (bget (Node (kx :: l)) ix) with (let* l := (fix go l := match l with [] => Ok [] | (k, x) :: l => let* x := bget x ix in let* l := go l in Ok ((k, x) :: l) end) (kx :: l) in Ok (Node l)).
  f_equal. set (m := kx :: l). clearbody m. clear kx l.
  induction m as [|[k x] m IH]; [reflexivity|]. cbn [bgets]. destruct (bget x ix); [|reflexivity]. cbn [bind]. rewrite <- IH. reflexivity.
Qed.

Lemma rows_zips o (ps : list nat) : forall l l', length l = length l' ->
  rows (zips o l l') ps = let* r := rows l ps in let* r' := rows l' ps in Ok (zips o r r').
Proof.
  intros l l' L. unfold rows. induction ps as [|i ps IH]; [reflexivity|]. cbn [mapM]. rewrite nth_zips.
  destruct (nth_error l i) as [x|] eqn:E.
  - assert (Hi : i < length l') by (rewrite <- L; apply nth_error_Some; congruence). apply nth_error_Some in Hi. destruct (nth_error l' i) as [y|]; [|contradiction].
    cbn [bind]. rewrite IH. clear IH. destruct (mapM _ ps) as [a|]; [|reflexivity]. cbn [bind]. destruct (mapM _ ps) as [c|]; reflexivity.
  - cbn [bind]. apply nth_error_None in E. rewrite L in E. destruct (nth_error l' i); reflexivity.
Qed.
Lemma rows_facts {X} (P : X -> Prop) (l : list X) (ps : list nat) r : rows l ps = Ok r -> Forall P l -> length r = length ps /\ Forall P r.
Proof.
  unfold rows. revert r. induction ps as [|i ps IH]; intros r E F; cbn [mapM] in E.
  - injection E as <-. split; [reflexivity|constructor].
  - destruct (nth_error l i) as [x|] eqn:Ex; [|discriminate]. cbn [bind] in E. destruct (mapM _ ps) as [r'|]; [|discriminate]. injection E as <-.
    destruct (IH r' eq_refl F) as [L F']. split; [cbn; congruence|]. constructor; [|exact F']. rewrite Forall_forall in F. apply F. eapply nth_error_In; exact Ex.
Qed.
Lemma rows_same {X Y} (l : list X) (l' : list Y) (ps : list nat) : length l = length l' ->
  match rows l ps, rows l' ps with Ok r, Ok r' => length r = length r' | Err e, Err e' => e = e' | _, _ => False end.
Proof.
  intros L. unfold rows. induction ps as [|i ps IH]; [reflexivity|]. cbn [mapM].
  destruct (nth_error l i) eqn:E, (nth_error l' i) eqn:E'; cbn [bind]; try reflexivity.
  - destruct (mapM _ ps), (mapM _ ps); cbn in *; congruence || contradiction.
  - assert (i < length l) by (apply nth_error_Some; congruence). apply nth_error_None in E'. lia.
  - assert (i < length l') by (apply nth_error_Some; congruence). apply nth_error_None in E. lia.
Qed.

Lemma nget_pz o k k' sh x y ix : typed k sh x -> typed k' sh y ->
  match nget x ix with
  | Ok x1 => exists sh1 y1, nget y ix = Ok y1 /\ typed k sh1 x1 /\ typed k' sh1 y1 /\ nget (pz o x y) ix = Ok (pz o x1 y1)
  | Err e => nget y ix = Err e /\ nget (pz o x y) ix = Err e
  end.
Proof.
  intros Hx Hy. destruct sh as [|n sh]; cbn [typed] in Hx, Hy.
  - destruct x; [|contradiction]. destruct y; [|contradiction]. cbn. auto.
  - destruct x as [|rs l]; [contradiction|]. destruct y as [|rs' l']; [contradiction|]. destruct Hx as (-> & Lx & Fx), Hy as (-> & Ly & Fy).
    rewrite pz_Ar. cbn [nget]. rewrite zips_length, Ly, Lx by congruence.
    destruct (positions n ix) as [ps|e] eqn:Ep; [|cbn; auto]. cbn [bind]. rewrite rows_zips by congruence.
    pose proof (rows_same l l' ps ltac:(congruence)) as S.
    destruct (rows l ps) as [r|e] eqn:Er, (rows l' ps) as [r'|e'] eqn:Er'; cbn [bind] in *; try contradiction; [|subst; auto].
    destruct (rows_facts (typed k sh) l ps r Er Fx) as [Lr Fr]. destruct (rows_facts (typed k' sh) l' ps r' Er' Fy) as [Lr' Fr'].
    assert (G : exists sh1 y1, Ok (Ar sh r') = Ok y1 /\ typed k sh1 (Ar sh r) /\ typed k' sh1 y1 /\ Ok (Ar sh (zips o r r')) = Ok (pz o (Ar sh r) y1)).
    { exists (length r :: sh), (Ar sh r'). rewrite pz_Ar. cbn. repeat split; auto. }
    destruct ix as [i|il|a b]; [|exact G|exact G].
    destruct r as [|x1 [|x2 r]], r' as [|y1 [|y2 r']]; try discriminate S; [exact G| |exact G].
    cbn [zips]. exists sh, y1. inversion Fr; inversion Fr'; subst. auto.
Qed.
Lemma nget_scale o k k' q sh x ix : cell_of k' (CN q) -> typed k sh x ->
  match nget x ix with
  | Ok x1 => exists sh1, typed k sh1 x1 /\ nget (pz o x (nfull (shape x) (CN q))) ix = Ok (pz o x1 (nfull (shape x1) (CN q)))
  | Err e => nget (pz o x (nfull (shape x) (CN q))) ix = Err e
  end.
Proof.
  intros Hq Hx. rewrite (typed_shape _ _ _ Hx). pose proof (nget_pz o k k' sh x (nfull sh (CN q)) ix Hx (typed_full k' sh _ Hq)) as G.
  assert (N : forall y1, nget (nfull sh (CN q)) ix = Ok y1 -> forall sh1, typed k' sh1 y1 -> y1 = nfull sh1 (CN q)).
  { intros y1 E sh1 T. destruct sh as [|n sh]; [discriminate|]. cbn [nfull nget] in E. rewrite repeat_length in E. destruct (positions n ix) as [ps|]; [|discriminate]. cbn [bind] in E.
    destruct (rows _ ps) as [r|] eqn:Er; [|discriminate]. cbn [bind] in E.
    assert (A : forall r, rows (repeat (nfull sh (CN q)) n) ps = Ok r -> r = repeat (nfull sh (CN q)) (length ps)).
    { clear. unfold rows. induction ps as [|i ps IH]; intros r E; cbn [mapM] in E; [injection E as <-; reflexivity|].
      destruct (nth_error _ i) as [x|] eqn:Ex; [|discriminate]. cbn [bind] in E. destruct (mapM _ ps) as [r'|]; [|discriminate]. injection E as <-.
      cbn [length repeat]. f_equal; [|apply IH; reflexivity]. apply nth_error_In in Ex. apply repeat_spec in Ex. exact Ex. }
    apply A in Er. subst r.
    assert (Q : Ok (Ar sh (repeat (nfull sh (CN q)) (length ps))) = Ok y1 -> y1 = nfull sh1 (CN q)).
    { intros E'. injection E' as <-. destruct sh1 as [|m sh1]; [contradiction|]. destruct T as (-> & L & _). rewrite repeat_length in L. subst m. reflexivity. }
    destruct ix; [|apply Q, E|apply Q, E]. destruct (length ps) as [|[|m]]; cbn [repeat] in *; [apply Q, E| |apply Q, E].
    injection E as <-. pose proof (typed_shape _ _ _ T) as S1. pose proof (typed_shape _ _ _ (typed_full k' sh (CN q) Hq)) as S2. rewrite <- S1, S2. reflexivity. }
  destruct (nget x ix) as [x1|e]; [|apply G]. destruct G as (sh1 & y1 & Ey & T1 & T2 & E). exists sh1. split; [exact T1|]. rewrite E. f_equal. f_equal.
  rewrite (typed_shape _ _ _ T1). apply N; assumption.
Qed.

(** The rows of a sum. *)
Lemma bget_zip b v ix : alike b v ->
  match bget b ix with
  | Ok b1 => exists v1, bget v ix = Ok v1 /\ alike b1 v1 /\ bget (zipb b v) ix = Ok (zipb b1 v1)
  | Err e => bget (zipb b v) ix = Err e
  end.
Proof.
  induction 1 as [k k' sh x y Hk Hk' Hx Hy|l lv H] using alike_ind'.
  - cbn [bget zipb]. pose proof (nget_pz OAdd k k' sh x y ix Hx Hy) as G. destruct (nget x ix) as [x1|e]; cbn [bind].
    + destruct G as (sh1 & y1 & -> & T1 & T2 & ->). cbn [bind]. exists (Leaf k' y1). split; [reflexivity|]. split; [apply (al_leaf k k' sh1); assumption|reflexivity].
    + destruct G as [_ ->]. reflexivity.
  - rewrite zipb_Node, !bget_Node.
    assert (G : match bgets l ix with
                | Ok l1 => exists lv1, bgets lv ix = Ok lv1 /\ Forall2 (fun kx kv => fst kx = fst kv /\ alike (snd kx) (snd kv)) l1 lv1 /\ bgets (zipl l lv) ix = Ok (zipl l1 lv1)
                | Err e => bgets (zipl l lv) ix = Err e end).
    { induction H as [|[k x] [k' w] l lv (E & Ha & Hx) _ IH]; [exists []; repeat split; constructor|]. cbn [fst snd] in *. subst k'. cbn [bgets zipl].
      destruct (bget x ix) as [x1|e]; cbn [bind]; [|rewrite Hx; reflexivity]. destruct Hx as (w1 & -> & A1 & ->). cbn [bind].
      destruct (bgets l ix) as [l1|e]; cbn [bind]; [|rewrite IH; reflexivity]. destruct IH as (lv1 & -> & A2 & ->). cbn [bind].
      exists ((k, w1) :: lv1). split; [reflexivity|]. split; [constructor; [split; [reflexivity|exact A1]|exact A2]|reflexivity]. }
    destruct (bgets l ix) as [l1|e]; cbn [bind]; [|rewrite G; reflexivity]. destruct G as (lv1 & -> & A & ->). cbn [bind].
    exists (Node lv1). split; [reflexivity|]. split; [constructor; exact A|reflexivity].
Qed.
Lemma bget_smap o k' q b ix : cell_of k' (CN q) -> scalable o k' b ->
  match bget b ix with
  | Ok b1 => scalable o k' b1 /\ bget (smap o q b) ix = Ok (smap o q b1)
  | Err e => bget (smap o q b) ix = Err e
  end.
Proof.
  intros Hq. induction 1 as [k sh x Hk Hr Hx|l H IH] using scalable_ind'.
  - cbn [bget smap]. pose proof (nget_scale o k k' q sh x ix Hq Hx) as G. destruct (nget x ix) as [x1|e]; cbn [bind]; [|rewrite G; reflexivity].
    destruct G as (sh1 & T & ->). split; [apply (sc_leaf o k' k sh1); assumption|reflexivity].
  - cbn [smap]. rewrite !bget_Node. clear H.
    assert (G : match bgets l ix with
                | Ok l1 => Forall (fun kx => scalable o k' (snd kx)) l1 /\ bgets (map (fun kx => (fst kx, smap o q (snd kx))) l) ix = Ok (map (fun kx => (fst kx, smap o q (snd kx))) l1)
                | Err e => bgets (map (fun kx => (fst kx, smap o q (snd kx))) l) ix = Err e end).
    { induction IH as [|[k x] l Hx _ IH]; [split; [constructor|reflexivity]|]. cbn [bgets map fst snd] in *.
      destruct (bget x ix) as [x1|e]; cbn [bind]; [|rewrite Hx; reflexivity]. destruct Hx as (A1 & ->). cbn [bind].
      destruct (bgets l ix) as [l1|e]; cbn [bind]; [|rewrite IH; reflexivity]. destruct IH as (A2 & ->). cbn [bind].
      split; [constructor; assumption|reflexivity]. }
    destruct (bgets l ix) as [l1|e]; cbn [bind]; [|rewrite G; reflexivity]. destruct G as (A & ->). cbn [bind]. split; [constructor; exact A|reflexivity].
Qed.

(** C355.  The rows of a sum of batches are the sums of their rows, for every kind of index, and a row can be read exactly
    if the row of the first batch can. *)
Lemma C355_add_lemma : forall (b v : bval) (ix : index), alike b v ->
  exists c, badd b v = Ok c /\ bget c ix = (let* b1 := bget b ix in let* v1 := bget v ix in badd b1 v1).
Proof.
  intros b v ix H. exists (zipb b v). unfold badd at 1. rewrite iadd_alike by exact H. split; [reflexivity|].
  pose proof (bget_zip b v ix H) as G. destruct (bget b ix) as [b1|e]; cbn [bind]; [|exact G]. destruct G as (v1 & -> & A & ->). cbn [bind].
  unfold badd. rewrite iadd_alike by exact A. reflexivity.
Qed.
(** C355.  Likewise for a number added to or multiplied with a batch, *)
Lemma C355_scale_lemma : forall (o : arith) (k' : akind) (q : Qc) (b : bval) (ix : index), o <> ODiv -> number_for k' q b ->
  exists c, bscale o k' q b = Ok c /\ bget c ix = (let* b1 := bget b ix in bscale o k' q b1).
Proof.
  intros o k' q b ix Ho H. destruct (number_ok o k' q b Ho H) as (Hk & Hq & Hs). exists (smap o q b). unfold bscale at 1. rewrite iscale_ok by assumption. split; [reflexivity|].
  pose proof (bget_smap o k' q b ix Hq Hs) as G. destruct (bget b ix) as [b1|e]; cbn [bind]; [|exact G]. destruct G as (A & ->).
  unfold bscale. rewrite iscale_ok by assumption. reflexivity.
Qed.
(** C355.  and for the division of floats by a number. *)
Lemma C355_divide_lemma : forall (k' : akind) (q : Qc) (b : bval) (ix : index), k' <> KObj -> cell_of k' (CN q) -> floats b ->
  exists c, bscale ODiv k' q b = Ok c /\ bget c ix = (let* b1 := bget b ix in bscale ODiv k' q b1).
Proof.
  intros k' q b ix Hk Hq H. pose proof (floats_scalable ODiv k' b Hk H) as Hs. exists (smap ODiv q b). unfold bscale at 1. rewrite iscale_ok by assumption. split; [reflexivity|].
  pose proof (bget_smap ODiv k' q b ix Hq Hs) as G. destruct (bget b ix) as [b1|e]; cbn [bind]; [|exact G]. destruct G as (A & ->).
  unfold bscale. rewrite iscale_ok by assumption. reflexivity.
Qed.
