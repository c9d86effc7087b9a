From Verif Require Import Py PyLemmas BufferModel BufferSpec ManagerModel ManagerSpec ManagerProofs CachedModel TatSpec SnapModel SnapSpec SnapProofs HloadModel.
From Coq Require Import Lia ZArith.
Open Scope nat_scope.

Section S.
Context {Ob A Inf R : Type}.
Variable r0 : R.
Variable radd : R -> R -> R.
Variable last_frame : Ob -> Ob.
Notation trans := (trans Ob A Inf R).
Notation slot := (slot Ob A Inf R).
Notation bst := (bst R).
Notation buf := (buf Ob A Inf R).
Notation mgr := (mgr Ob A Inf R).
Notation vbuf := (vbuf Ob A Inf R).
Notation hbuf := (hbuf Ob A Inf R).
Notation m_add := (m_add r0 radd last_frame).

Definition cids (N : nat) (ids : option (list Z)) : list Z := match ids with None => map Z.of_nat (seq 1 (N - 1)) | Some ids => map (fun i => i + 1)%Z ids end.
Lemma cids_pos N ids ts (ops : list (option (list Z) * list trans)) : caches_only ((ids, ts) :: ops) -> forall i, In i (cids N ids) -> (1 <= i)%Z.
Proof.
  intros HC i Hi. destruct ids as [ids|]; cbn in Hi; apply in_map_iff in Hi as (j & <- & Hj).
  - pose proof (HC ids ts (or_introl eq_refl) j Hj). lia.
  - apply in_seq in Hj. lia.
Qed.
Lemma moved_pos (ids : list Z) (done : list bool) : (forall i, In i ids -> (1 <= i)%Z) -> forall i, In i (map fst (filter snd (combine ids done))) -> (1 <= i)%Z.
Proof. intros H i Hi. apply in_map_iff in Hi as ([j d] & <- & Hj). apply filter_In in Hj as [Hj _]. apply in_combine_l in Hj. apply H, Hj. Qed.
Lemma add_loop_hd (s : bst) : forall xs ss last lens bufs' last' lens' rs,
  add_loop (Ob := Ob) (A := A) (Inf := Inf) r0 radd (s :: ss) last lens xs = Ok (bufs', last', lens', rs) -> (forall x, In x xs -> (1 <= fst x)%Z) ->
  (exists ss', bufs' = s :: ss') /\ forall r, In r rs -> maxsize s <= fst (fst (fst r)).
Proof.
  induction xs as [|[id t] xs IH]; intros ss last lens bufs' last' lens' rs H Hx; cbn [add_loop] in H.
  - injection H as <- <- <- <-. split; [eauto|intros r []].
  - destruct (norm_index _ _) as [k|] eqn:Ek; [|discriminate]. cbn [bind] in H. destruct (nth_error (s :: ss) k) as [sk|] eqn:Es; [|discriminate].
    destruct (update_state_pre_add _ _ _ _ _) as [[s' [[[i ret] len] st]]|]; [|discriminate]. cbn [bind] in H.
    assert (Hk : 1 <= k) by (apply (norm_pos r0 radd (length (s :: ss)) id k (Hx (id, t) (or_introl eq_refl)) Ek)).
    destruct k as [|k]; [lia|]. cbn [upd] in H.
    destruct (add_loop _ _ (s :: upd ss k s') _ _ xs) as [[[[b1 l1] n1] r1]|] eqn:E; [|discriminate]. cbn [bind] in H. injection H as <- <- <- <-.
    destruct (IH _ _ _ _ _ _ _ E) as [P Q]; [intros x Hi; apply Hx; now right|].
    split; [exact P|]. intros r [<-|Hr]; [|apply Q, Hr]. cbn [fst map offsets nth].
    cbn in Es. assert (Hl : k < length (map (@maxsize R) ss)) by (rewrite map_length; apply nth_error_Some; congruence).
    pose proof (nth_error_offsets (map (@maxsize R) ss) (maxsize s) k Hl) as X. apply nth_error_nth with (d := 0) in X. rewrite X. lia.
Qed.
(** ** buffers[0] and its rows stay as they were *)
Definition still (s : bst) (l : list (option slot)) (h : hbuf) : Prop :=
  (exists ss, m_bufs (v_m (h_v h)) = s :: ss) /\ firstn (maxsize s) (storage (v_m (h_v h))) = l.
Lemma still_move s l (h h' : hbuf) id r : (1 <= id)%Z -> m_meta (v_m (h_v h)) <> None -> still s l h -> h_move r0 h id = Ok (h', r) -> still s l h' /\ m_meta (v_m (h_v h')) <> None.
Proof.
  intros Hid HM [[ss B] L] H. unfold h_move in H. rewrite B in H. destruct (norm_index _ id) as [k|] eqn:Ek; [|discriminate]. cbn [bind] in H.
  apply (norm_pos r0 radd) in Ek; [|exact Hid]. destruct (nth_error _ k) as [src|]; [|discriminate]. destruct (update _ src) as [[main' ix]|]; [|discriminate].
  cbn [bind] in H. injection H as <- _. cbn [h_v v_m m_meta]. split; [|exact HM]. unfold still, storage in *. cbn [h_v v_m m_meta m_bufs].
  destruct k as [|k]; [lia|]. cbn [upd]. split; [eauto|]. destruct (m_meta (v_m (h_v h))); [exact L|congruence].
Qed.
Lemma still_moves s l ids : forall (h h' : hbuf) r, (forall i, In i ids -> (1 <= i)%Z) -> m_meta (v_m (h_v h)) <> None -> still s l h -> h_moves r0 h ids = Ok (h', r) -> still s l h'.
Proof.
  induction ids as [|id ids IH]; intros h h' r Hi HM F H; cbn [h_moves] in H; [congruence|].
  destruct (h_move r0 h id) as [[h1 r1]|] eqn:E; [|discriminate]. cbn [bind fst snd] in H. destruct (h_moves r0 h1 ids) as [[h2 r2]|] eqn:E2; [|discriminate].
  cbn in H. injection H as <- _. destruct (still_move s l h h1 id r1 (Hi id (or_introl eq_refl)) HM F E) as [F1 M1]. eapply IH; [|exact M1|exact F1|exact E2]. intros i Hx. apply Hi. now right.
Qed.
Lemma still_vadd s l o (v v' : vbuf) b ids ts rs : (forall i, In i ids -> (1 <= i)%Z) -> still s l (mkH v b) -> v_add r0 radd last_frame o v (Some ids) ts = Ok (v', rs) ->
  still s l (mkH v' b) /\ m_meta (v_m v') <> None.
Proof.
  intros Hi [[ss B] L]. cbn [h_v] in *. unfold v_add. unfold ManagerModel.m_add, guard. destruct (length ids <=? length ts); [|discriminate].
  rewrite B. destruct (add_loop _ _ _ _ _ _) as [[[[b1 l1] n1] r1]|] eqn:E; [|discriminate]. cbn [bind].
  destruct (negb _); [|discriminate]. destruct (_ =? _); [|discriminate]. destruct (forallb _ _) eqn:F; [|discriminate].
  cbn [bind fst snd]. intro H. injection H as <- _.
  destruct (add_loop_hd s _ _ _ _ _ _ _ _ E) as [[ss' ->] Q]; [intros [i t] Hx; apply in_combine_l in Hx; apply Hi, Hx|].
  split; [|discriminate]. split; [exists ss'; reflexivity|]. unfold storage at 1. cbn [h_v v_m m_meta meta_rows]. rewrite fold_upd_firstn; [exact L|].
  intros [i y] Hx. apply in_combine_l in Hx. apply in_map_iff in Hx as (r & <- & Hr). apply Q, Hr.
Qed.
Lemma still_run s l o ops : forall (h h' : hbuf) r, caches_only ops -> still s l h -> h_run r0 radd last_frame o h ops = Ok (h', r) -> still s l h'.
Proof.
  induction ops as [|[ids ts] ops IH]; intros h h' r HC F H; cbn [h_run] in H; [congruence|].
  destruct (h_add r0 radd last_frame o h ids ts) as [[h1 r1]|] eqn:E; [|discriminate]. cbn [bind fst snd] in H.
  destruct (h_run r0 radd last_frame o h1 ops) as [[h2 r2]|] eqn:E2; [|discriminate]. cbn in H. injection H as <- _.
  apply (IH h1 h2 r2); [intros a b Hab; apply (HC a b); now right| |exact E2].
  unfold h_add in E. fold (cids (length (m_bufs (v_m (h_v h)))) ids) in E. pose proof (cids_pos (length (m_bufs (v_m (h_v h)))) ids ts ops HC) as HP.
  destruct (v_add r0 radd last_frame o (h_v h) _ ts) as [[v3 r3]|] eqn:E3; [|discriminate]. cbn [bind fst snd] in E.
  destruct (h_moves r0 _ _) as [[h4 r4]|] eqn:E4; [|discriminate]. cbn [bind fst snd] in E. injection E as <- _.
  destruct (still_vadd s l o (h_v h) v3 (h_main h) _ ts r3 HP) as [F3 M3]; [destruct h; exact F|exact E3|].
  refine (still_moves s l _ _ _ _ _ _ F3 E4); [apply moved_pos, HP|exact M3].
Qed.

(** ** Sampling *)
Lemma mapM_In {X Y} (f : X -> res Y) (l : list X) : forall r y, mapM f l = Ok r -> In y r -> exists x, In x l /\ f x = Ok y.
Proof.
  induction l as [|x l IH]; intros r y H Hy; cbn in H; [injection H as <-; destruct Hy|].
  destruct (f x) as [a|] eqn:E; [|discriminate]. cbn [bind] in H. destruct (mapM f l) as [r'|] eqn:E2; [|discriminate]. cbn in H. injection H as <-.
  destruct Hy as [<-|Hy]; [exists x; split; [now left|exact E]|]. destruct (IH r' y eq_refl Hy) as (z & Hz & Ez). exists z. split; [now right|exact Ez].
Qed.
Lemma choice_In {T} rnd (l : list T) k r x : choice rnd l k = Ok r -> In x r -> In x l.
Proof.
  unfold choice. destruct (_ && _); [discriminate|]. intros H Hx. destruct (mapM_In _ _ _ _ H Hx) as (j & _ & E).
  destruct (nth_error l _) as [y|] eqn:N; [|discriminate]. injection E as <-. eapply nth_error_In, N.
Qed.
Lemma all_lt (s : bst) i : ins s <= size s -> In i (all_indices s) -> i < size s.
Proof. unfold all_indices, arange. rewrite in_app_iff, !in_seq. lia. Qed.
Lemma sample_lt o (b : buf) rnd n l i : ins (b_st b) <= size (b_st b) -> sample_indices o b rnd n = Ok l -> In i l -> i < size (b_st b).
Proof.
  intros W H Hi. unfold sample_indices in H. set (bs := match n with Some _ => _ | None => _ end) in H. destruct (_ || _).
  - destruct (0 <? bs)%Z; [apply (choice_In _ _ _ _ _ H) in Hi; apply in_seq in Hi; lia|]. destruct (bs =? 0)%Z; injection H as <-; [apply all_lt; assumption|destruct Hi].
  - destruct (bs <? 0)%Z; [injection H as <-; destruct Hi|].
    destruct (prev_n _ _ _) as [pi|]; [|discriminate]. cbn [bind] in H. destruct (prev b pi) as [pp|]; [|discriminate]. cbn [bind] in H.
    apply all_lt; [exact W|]. set (l' := map fst _) in H. assert (Hl : In i l') by (destruct (0 <? bs)%Z; [apply (choice_In _ _ _ _ _ H Hi)|injection H as <-; exact Hi]).
    subst l'. apply in_map_iff in Hl as ([j p] & <- & Hj). apply filter_In in Hj as [Hj _]. apply in_combine_l in Hj. exact Hj.
Qed.
Lemma offsets_ge : forall (l : list nat) acc x, In x (offsets acc l) -> acc <= x.
Proof. induction l as [|n l IH]; intros acc x H; [destruct H|]. cbn in H. destruct H as [<-|H]; [lia|]. apply IH in H. lia. Qed.
Lemma vsample_lt o (v : vbuf) s ss b bs rb rnd n l i : m_bufs (v_m v) = s :: ss -> v_children v = b :: bs -> b_st b = s -> ins s <= size s ->
  v_sample_indices o v rb rnd n = Ok l -> In i l -> i < maxsize s -> i < size s.
Proof.
  intros B C E W H Hi Hm. unfold v_sample_indices in H. destruct (match n with Some z => (z <? 0)%Z | None => false end); [injection H as <-; destruct Hi|].
  assert (OF : m_offsets (v_m v) = 0 :: offsets (maxsize s) (map (@maxsize R) ss)) by (unfold m_offsets, m_sizes; rewrite B; reflexivity).
  rewrite OF, C, B in H. destruct (sample_avail o && _).
  - destruct (mapM _ _) as [ll|] eqn:EM; [|discriminate]. cbn [bind] in H.
    assert (Hl : In i (concat ll)) by (destruct (match n with Some z => (z =? 0)%Z | None => false end); [injection H as <-; exact Hi|apply (choice_In _ _ _ _ _ H Hi)]).
    apply in_concat in Hl as (u & Hu & Hiu). destruct (mapM_In _ _ _ _ EM Hu) as (x & Hx & Ex). cbn [length seq combine] in Hx. destruct Hx as [<-|Hx].
    + cbn [fst snd] in Ex. destruct (sample_indices _ _ _ _) as [w|] eqn:Ew; [|discriminate]. cbn in Ex. injection Ex as <-. apply in_map_iff in Hiu as (j & <- & Hj).
      rewrite <- E in *. pose proof (sample_lt o b _ _ _ j W Ew Hj). lia.
    + destruct x as [k [off c]]. apply in_combine_r in Hx. apply in_combine_l in Hx. apply offsets_ge in Hx. cbn [fst snd] in Ex.
      destruct (sample_indices _ _ _ _) as [w|]; [|discriminate]. cbn in Ex. injection Ex as <-. apply in_map_iff in Hiu as (j & <- & Hj). lia.
  - match type of H with bind ?a _ = _ => destruct a as [[|n0 nums]|] end; [| |discriminate]; cbn [bind length seq combine] in H.
    + cbn in H. injection H as <-. destruct Hi.
    + destruct (mapM _ _) as [ll|] eqn:EM; [|discriminate]. cbn [bind] in H. injection H as <-. apply in_concat in Hi as (u & Hu & Hiu).
      destruct (mapM_In _ _ _ _ EM Hu) as (x & Hx & Ex). destruct Hx as [<-|Hx].
      * destruct (sample_indices _ _ _ _) as [w|] eqn:Ew; [|discriminate]. cbn in Ex. injection Ex as <-. apply in_map_iff in Hiu as (j & <- & Hj).
        rewrite <- E in *. pose proof (sample_lt o b _ _ _ j W Ew Hj). lia.
      * destruct x as [k [off [c z]]]. apply in_combine_r in Hx. apply in_combine_l in Hx. apply offsets_ge in Hx.
        destruct (sample_indices _ _ _ _) as [w|]; [|discriminate]. cbn in Ex. injection Ex as <-. apply in_map_iff in Hiu as (j & <- & Hj). lia.
Qed.
(** The sub-buffers stay as many as there are. *)
Lemma fit_hmoves ids : forall (h h' : hbuf) r, kids_fit (h_v h) -> h_moves r0 h ids = Ok (h', r) -> kids_fit (h_v h').
Proof.
  induction ids as [|id ids IH]; intros h h' r F H; cbn [h_moves] in H; [congruence|].
  destruct (h_move r0 h id) as [[h1 r1]|] eqn:E; [|discriminate]. cbn [bind fst snd] in H. destruct (h_moves r0 h1 ids) as [[h2 r2]|] eqn:E2; [|discriminate].
  cbn in H. injection H as <- _. apply (IH h1 h2 r2); [|exact E2]. unfold h_move in E. destruct (norm_index _ id) as [k|]; [|discriminate]. cbn [bind] in E.
  destruct (nth_error _ k) as [src|]; [|discriminate]. destruct (update _ src) as [[main' ix]|]; [|discriminate]. cbn [bind] in E. injection E as <- _.
  unfold kids_fit in *. cbn [h_v v_kids v_m m_bufs]. rewrite upd_length. exact F.
Qed.
Lemma fit_hrun o ops : forall (h h' : hbuf) r, kids_fit (h_v h) -> h_run r0 radd last_frame o h ops = Ok (h', r) -> kids_fit (h_v h').
Proof.
  induction ops as [|[ids ts] ops IH]; intros h h' r F H; cbn [h_run] in H; [congruence|].
  destruct (h_add r0 radd last_frame o h ids ts) as [[h1 r1]|] eqn:E; [|discriminate]. cbn [bind fst snd] in H.
  destruct (h_run r0 radd last_frame o h1 ops) as [[h2 r2]|] eqn:E2; [|discriminate]. cbn in H. injection H as <- _. apply (IH h1 h2 r2); [|exact E2].
  unfold h_add in E. destruct (v_add r0 radd last_frame o (h_v h) _ ts) as [[v3 r3]|] eqn:E3; [|discriminate]. cbn [bind fst snd] in E.
  destruct (h_moves r0 _ _) as [[h4 r4]|] eqn:E4; [|discriminate]. cbn [bind fst snd] in E. injection E as <- _.
  eapply fit_hmoves; [|exact E4]. cbn [h_v]. eapply fit_add; [exact E3|exact F].
Qed.
Lemma load_still (m : mgr) (h : hbuf) s ss : m_bufs m = s :: ss -> h_load m = Ok h -> still s (firstn (maxsize s) (storage m)) h /\ kids_fit (h_v h).
Proof.
  intros B H. unfold h_load in H. destruct (children m) as [|b bs] eqn:C; [discriminate|]. injection H as <-. split; [split; [exists ss; exact B|reflexivity]|].
  apply (fit_copy r0 radd). exact I.
Qed.
End S.

(** C366.  Refuted: after loading, no row of the storage's main part changes, and no place of the main buffer that was not filled before is ever sampled,
    however many episodes are collected. *)
Lemma C366_frozen_refuted_lemma : forall (Ob A Inf R : Type) (r0 : R) (radd : R -> R -> R) (last_frame : Ob -> Ob) (o : opts) (m : mgr Ob A Inf R) (main : bst R) (caches : list (bst R))
    (h h' : hbuf Ob A Inf R) (ops : list (option (list Z) * list (trans Ob A Inf R))) rs,
  m_bufs m = main :: caches -> ins main <= size main -> h_load m = Ok h -> caches_only ops -> h_run r0 radd last_frame o h ops = Ok (h', rs) ->
  firstn (maxsize main) (storage (v_m (h_v h'))) = firstn (maxsize main) (storage m) /\
  forall rb rnd n l i, v_sample_indices o (h_v h') rb rnd n = Ok l -> In i l -> i < maxsize main -> i < size main.
Proof.
  intros Ob A Inf R r0 radd lf o m s ss h h' ops rs B W HL HC H. destruct (load_still r0 radd m h s ss B HL) as [F K].
  pose proof (fit_hrun r0 radd lf o ops h h' rs K H) as K'. destruct (still_run r0 radd lf s _ o ops h h' rs HC F H) as [[ss' B'] L]. split; [exact L|].
  intros rb rnd n l i HS Hi Hm. pose proof (children_st r0 radd _ K') as CS. rewrite B' in CS. destruct (v_children (h_v h')) as [|b bs] eqn:C; [discriminate|]. cbn in CS. injection CS as CS _.
  eapply (vsample_lt r0 radd); eassumption.
Qed.

(** ** Reports *)
Section T.
Context {Ob A Inf R : Type}.
Variable r0 : R.
Variable radd : R -> R -> R.
Variable last_frame : Ob -> Ob.
Notation trans := (trans Ob A Inf R).
Notation slot := (slot Ob A Inf R).
Notation bst := (bst R).
Notation buf := (buf Ob A Inf R).
Notation mgr := (mgr Ob A Inf R).
Notation vbuf := (vbuf Ob A Inf R).
Notation hbuf := (hbuf Ob A Inf R).
Notation m_add := (m_add r0 radd last_frame).

Definition fits (b : buf) : Prop := length (meta_rows (maxsize (b_st b)) (b_meta b)) = maxsize (b_st b).
Definition whole (m : mgr) : Prop := length (storage m) = m_total m.
Lemma mapM_nth_same {X Y} (l : list X) (l' : list Y) ix : length l = length l' ->
  match mapM (fun i => match nth_error l i with Some x => Ok x | None => Err IndexError end) ix, mapM (fun i => match nth_error l' i with Some x => Ok x | None => Err IndexError end) ix with
  | Ok _, Ok _ => True | Err e, Err e' => e = e' | _, _ => False end.
Proof.
  intro L. induction ix as [|i ix IH]; [exact I|]. cbn [mapM].
  destruct (nth_error l i) eqn:E; destruct (nth_error l' i) eqn:E'; cbn [bind]; trivial.
  - destruct (mapM _ ix), (mapM _ ix); cbn; trivial.
  - apply nth_error_None in E'. assert (i < length l) by (apply nth_error_Some; congruence). lia.
  - apply nth_error_None in E. assert (i < length l') by (apply nth_error_Some; congruence). lia.
Qed.
Lemma fold_upd_length {T} (xs : list (nat * T)) : forall l, length (fold_left (fun l ix => upd l (fst ix) (snd ix)) xs l) = length l.
Proof. induction xs as [|x xs IH]; intro l; [reflexivity|]. cbn [fold_left]. rewrite IH. apply upd_length. Qed.
Lemma update_st (b src b2 src2 : buf) : b_st b = b_st b2 -> b_st src = b_st src2 -> fits b -> fits b2 -> fits src -> fits src2 ->
  match update b src, update b2 src2 with
  | Ok (b', l), Ok (b2', l2) => b_st b' = b_st b2' /\ l = l2 /\ fits b' /\ fits b2' /\ maxsize (b_st b') = maxsize (b_st b)
  | Err e, Err e' => e = e' | _, _ => False end.
Proof.
  intros E1 E2 F1 F2 F3 F4. unfold update. rewrite <- E1, <- E2. destruct (_ || _); [auto|]. destruct (_ =? 0); [auto|].
  pose proof (advance_max (length (all_indices (b_st src))) (b_st b)) as X. destruct (advance_n _ _) as [s' ui]. cbn [fst] in X.
  unfold fits in *. rewrite <- E1 in F2. rewrite <- E2 in F4.
  pose proof (mapM_nth_same (meta_rows (maxsize (b_st src)) (b_meta src)) (meta_rows (maxsize (b_st src)) (b_meta src2)) (all_indices (b_st src))) as M.
  rewrite F3, F4 in M. specialize (M eq_refl).
  destruct (mapM _ _) as [r|], (mapM _ _) as [r2|]; cbn [bind]; try contradiction; [|exact M]. unfold guard. rewrite X, F1, F2.
  destruct (forallb _ _); [|reflexivity]. cbn [b_st b_meta meta_rows]. rewrite !fold_upd_length, X. auto.
Qed.
Lemma children_from_fit (rows : list (option slot)) (ss : list bst) : forall off, off + list_sum (map (@maxsize R) ss) <= length rows ->
  forall b, In b (children_from off ss (Some rows)) -> fits b.
Proof.
  induction ss as [|s ss IH]; intros off L b H; [destruct H|]. cbn [children_from] in H. change (list_sum (map (@maxsize R) (s :: ss))) with (maxsize s + list_sum (map (@maxsize R) ss)) in L. destruct H as [<-|H].
  - unfold fits. cbn [b_st b_meta option_map meta_rows]. unfold slice. rewrite firstn_length, skipn_length. lia.
  - apply (IH (off + maxsize s)); [lia|exact H].
Qed.
Lemma children_fit (m : mgr) b : whole m -> In b (children m) -> fits b.
Proof.
  unfold whole, storage, children, m_total, m_sizes. destruct (m_meta m) as [rows|]; intros W H.
  - cbn [meta_rows] in W. eapply children_from_fit; [|exact H]. rewrite W. apply le_n.
  - rewrite children_none in H. apply in_map_iff in H as (s & <- & _). unfold fits. cbn. apply repeat_length.
Qed.
Definition kids_ok (v : vbuf) : Prop :=
  match v_kids v with Some ks => map (fun x => length (meta_rows (fst x) (snd x))) (combine (m_sizes (v_m v)) ks) = m_sizes (v_m v) | None => whole (v_m v) end.
Lemma kids_children (v : vbuf) k s : kids_ok v -> nth_error (m_bufs (v_m v)) k = Some s -> exists b, nth_error (v_children v) k = Some b /\ b_st b = s /\ fits b.
Proof.
  unfold kids_ok, v_children, m_sizes. destruct (v_kids v) as [ks|]; intros K H.
  - revert k ks K H. generalize (m_bufs (v_m v)). induction l as [|s' l IH]; intros k ks K H; [destruct k; discriminate|].
    destruct ks as [|k0 ks]; [discriminate|]. cbn in K. pose proof (f_equal (@tl _) K) as K2. pose proof (f_equal (hd 0) K) as K1. cbn in K1, K2. destruct k as [|k]; cbn in H |- *.
    + injection H as ->. eexists. split; [reflexivity|]. split; [reflexivity|exact K1].
    + apply (IH k ks K2 H).
  - assert (X : nth_error (map b_st (children (v_m v))) k = Some s) by (unfold children; rewrite children_from_st; exact H).
    rewrite nth_error_map in X. destruct (nth_error (children (v_m v)) k) as [b|] eqn:E; [|discriminate]. injection X as <-.
    exists b. split; [reflexivity|]. split; [reflexivity|]. apply (children_fit _ _ K). eapply nth_error_In, E.
Qed.
(** The buffer as it was and as loaded. *)
Definition alike (m : mgr) (h : hbuf) : Prop :=
  exists s0 s0' ss, m_bufs m = s0 :: ss /\ m_bufs (v_m (h_v h)) = s0' :: ss /\ b_st (h_main h) = s0 /\ maxsize s0 = maxsize s0' /\
  m_last m = m_last (v_m (h_v h)) /\ m_lens m = m_lens (v_m (h_v h)) /\ whole m /\ whole (v_m (h_v h)) /\ kids_ok (h_v h) /\ fits (h_main h).
Lemma max_upd (ss : list bst) k s s' : nth_error ss k = Some s -> maxsize s' = maxsize s -> map (@maxsize R) (upd ss k s') = map (@maxsize R) ss.
Proof.
  intros H E. rewrite map_upd, E. apply nth_error_ext. intro j. rewrite nth_error_upd. destruct (Nat.eqb_spec k j) as [<-|]; [|reflexivity].
  rewrite map_length. assert (k < length ss) by (apply nth_error_Some; congruence). destruct (Nat.ltb_spec k (length ss)); [|lia]. cbn [andb]. rewrite nth_error_map, H. reflexivity.
Qed.
Lemma move_alike (m : mgr) (h : hbuf) id : (1 <= id)%Z -> alike m h ->
  match c_move r0 m id, h_move r0 h id with Ok (m', r), Ok (h', r') => alike m' h' /\ r = r' | Err e, Err e' => e = e' | _, _ => False end.
Proof.
  intros Hid (s0 & s0' & ss & B & B' & EM & MX & EL & EN & W & W' & K & F). unfold c_move, h_move. rewrite B, B'. cbn [length].
  destruct (norm_index (S (length ss)) id) as [k|] eqn:Ek; [|reflexivity]. cbn [bind]. apply (norm_pos r0 radd) in Ek; [|exact Hid]. destruct k as [|k]; [lia|].
  destruct (nth_error ss k) as [sk|] eqn:Es.
  2:{ assert (C1 : nth_error (children m) (S k) = None).
      { apply nth_error_None. rewrite <- (map_length b_st). unfold children. rewrite children_from_st, B. apply nth_error_None in Es. cbn. lia. }
      assert (C2 : nth_error (v_children (h_v h)) (S k) = None).
      { apply nth_error_None. unfold v_children. apply nth_error_None in Es. destruct (v_kids (h_v h)).
        - rewrite map_length, combine_length, B'. cbn [length]. lia.
        - rewrite <- (map_length b_st). unfold children. rewrite children_from_st, B'. cbn. lia. }
      rewrite C1, C2. destruct (nth_error (children m) 0); reflexivity. }
  assert (KM : kids_ok (mkV m None)) by exact W.
  destruct (kids_children (mkV m None) 0 s0 KM) as (main & C0 & S0 & F0); [cbn; rewrite B; reflexivity|].
  destruct (kids_children (mkV m None) (S k) sk KM) as (src & C1 & S1 & F1); [cbn; rewrite B; exact Es|].
  destruct (kids_children (h_v h) (S k) sk K) as (src2 & C2 & S2 & F2); [rewrite B'; exact Es|].
  change (v_children (mkV m None)) with (children m) in C0, C1. rewrite C0, C1, C2.
  pose proof (update_st main src (h_main h) src2 (eq_trans S0 (eq_sym EM)) (eq_trans S1 (eq_sym S2)) F0 F F1 F2) as U.
  destruct (update main src) as [[b1 l1]|], (update (h_main h) src2) as [[b2 l2]|]; cbn [bind]; try contradiction; [|exact U].
  destruct U as (US & <- & UF1 & UF2 & UM). cbn [upd nth_error]. rewrite Es. split; [|reflexivity].
  assert (RM : maxsize (bst_reset r0 false sk) = maxsize sk) by reflexivity. pose proof (max_upd ss k sk (bst_reset r0 false sk) Es RM) as MU.
  rewrite S2. exists (b_st b1), s0', (upd ss k (bst_reset r0 false sk)).
  assert (OF : m_offsets m = m_offsets (v_m (h_v h))) by (unfold m_offsets, m_sizes; rewrite B, B'; cbn [map]; rewrite MX; reflexivity).
  assert (MM : maxsize (b_st b1) = maxsize s0) by (rewrite UM, S0; reflexivity).
  cbn [m_bufs m_last m_lens h_v h_main v_m v_kids]. split; [reflexivity|]. split; [reflexivity|]. split; [congruence|]. split; [congruence|].
  split; [rewrite EL, OF; reflexivity|]. split; [rewrite EN, US; reflexivity|].
  unfold whole, storage, m_total, m_sizes in *. cbn [m_meta m_bufs]. rewrite B in W. rewrite B' in W'. cbn [map list_sum fold_right] in *. rewrite MU.
  split; [|split; [|split; [|exact UF2]]].
  - destruct (m_meta m) as [rows|]; cbn [meta_rows] in *; [|apply repeat_length]. rewrite app_length, skipn_length, UF1, MM, W. lia.
  - destruct (m_meta (v_m (h_v h))) as [rows|]; cbn [meta_rows] in *; [exact W'|apply repeat_length].
  - unfold kids_ok, whole, storage, m_total, m_sizes in *. cbn [v_kids v_m m_bufs m_meta] in *. rewrite B' in K. cbn [map list_sum fold_right] in *. rewrite MU. destruct (v_kids (h_v h)); [exact K|].
    destruct (m_meta (v_m (h_v h))) as [rows|]; cbn [meta_rows] in *; [exact K|apply repeat_length].
Qed.
Lemma moves_alike ids : forall (m : mgr) (h : hbuf), (forall i, In i ids -> (1 <= i)%Z) -> alike m h ->
  match c_moves r0 m ids, h_moves r0 h ids with Ok (m', r), Ok (h', r') => alike m' h' /\ r = r' | Err e, Err e' => e = e' | _, _ => False end.
Proof.
  induction ids as [|id ids IH]; intros m h Hi H; cbn [c_moves h_moves]; [auto|]. pose proof (move_alike m h id (Hi id (or_introl eq_refl)) H) as X.
  destruct (c_move r0 m id) as [[m1 r1]|], (h_move r0 h id) as [[h1 s1]|]; cbn [bind]; try contradiction; [|exact X]. destruct X as [X <-]. cbn [fst snd].
  specialize (IH m1 h1 (fun i Hx => Hi i (or_intror Hx)) X). destruct (c_moves r0 m1 ids) as [[m2 r2]|], (h_moves r0 h1 ids) as [[h2 s2]|]; cbn [bind fst snd]; try contradiction; [|exact IH].
  destruct IH as [IH <-]. auto.
Qed.
Lemma add_loop_tl : forall xs (s s' : bst) ss last lens, maxsize s = maxsize s' -> (forall x, In x xs -> (1 <= fst x)%Z) ->
  match add_loop (Ob := Ob) (A := A) (Inf := Inf) r0 radd (s :: ss) last lens xs, add_loop r0 radd (s' :: ss) last lens xs with
  | Ok (b, l, n, r), Ok (b', l', n', r') => (exists ss', b = s :: ss' /\ b' = s' :: ss' /\ map (@maxsize R) ss' = map (@maxsize R) ss) /\ l = l' /\ n = n' /\ r = r'
  | Err e, Err e' => e = e' | _, _ => False end.
Proof.
  induction xs as [|[id t] xs IH]; intros s s' ss last lens E Hx; cbn [add_loop].
  - split; [exists ss; auto|auto].
  - cbn [length]. destruct (norm_index (S (length ss)) id) as [k|] eqn:Ek; [|reflexivity]. cbn [bind].
    apply (norm_pos r0 radd) in Ek; [|apply (Hx (id, t)); now left]. destruct k as [|k]; [lia|]. cbn [nth_error].
    destruct (nth_error ss k) as [sk|] eqn:Es; [|reflexivity]. destruct (update_state_pre_add r0 radd sk (t_rew t) (t_term t || t_trunc t)) as [[s1 [[[i ret] len] st]]|] eqn:EU; [|reflexivity]. cbn [bind].
    assert (M1 : maxsize s1 = maxsize sk).
    { unfold update_state_pre_add, guard in EU. destruct (negb _); [|discriminate]. destruct (negb _); [|discriminate]. destruct (_ || _); injection EU as <- _; reflexivity. }
    cbn [upd map]. rewrite <- E. specialize (IH s s' (upd ss k s1) (upd last (S k) (Z.of_nat (i + nth (S k) (offsets 0 (maxsize s :: map (@maxsize R) ss)) 0))) (upd lens (S k) (size s1)) E (fun x Hi => Hx x (or_intror Hi))).
    destruct (add_loop _ _ (s :: _) _ _ xs) as [[[[b1 l1] n1] q1]|], (add_loop _ _ (s' :: _) _ _ xs) as [[[[b2 l2] n2] q2]|]; cbn [bind]; try contradiction; [|exact IH].
    destruct IH as ((ss' & -> & -> & M) & <- & <- & <-). split; [|auto]. exists ss'. split; [reflexivity|]. split; [reflexivity|]. rewrite M. apply (max_upd _ _ _ _ Es M1).
Qed.
Lemma vadd_alike o (m : mgr) (h : hbuf) ids ts : (forall i, In i ids -> (1 <= i)%Z) -> alike m h ->
  match m_add o m (Some ids) ts, v_add r0 radd last_frame o (h_v h) (Some ids) ts with Ok (m', r), Ok (v', r') => alike m' (mkH v' (h_main h)) /\ r = r' | Err e, Err e' => e = e' | _, _ => False end.
Proof.
  intros Hi (s0 & s0' & ss & B & B' & EM & MX & EL & EN & W & W' & K & F). unfold v_add, ManagerModel.m_add, guard. destruct (length ids <=? length ts); [|reflexivity].
  rewrite B, B', <- EL, <- EN. pose proof (add_loop_tl (combine ids ts) s0 s0' ss (m_last m) (m_lens m) MX) as X.
  assert (HX : forall x, In x (combine ids ts) -> (1 <= fst x)%Z) by (intros [i t] Hx; apply in_combine_l in Hx; apply Hi, Hx). specialize (X HX).
  destruct (add_loop _ _ (s0 :: ss) _ _ _) as [[[[b1 l1] n1] q1]|], (add_loop _ _ (s0' :: ss) _ _ _) as [[[[b2 l2] n2] q2]|]; cbn [bind]; try contradiction; [|exact X].
  destruct X as ((ss' & -> & -> & M) & <- & <- & <-). destruct (negb _); [|reflexivity]. destruct (_ =? _); [|reflexivity].
  unfold whole, storage in W, W'. rewrite W, W'. assert (TT : m_total (v_m (h_v h)) = m_total m) by (unfold m_total, m_sizes; rewrite B, B'; cbn [map]; rewrite MX; reflexivity). rewrite TT.
  destruct (forallb _ _); [|reflexivity]. cbn [bind fst snd]. split; [|reflexivity].
  assert (T1 : list_sum (map (@maxsize R) (s0 :: ss')) = m_total m) by (unfold m_total, m_sizes; rewrite B; cbn [map]; rewrite M; reflexivity).
  assert (T2 : list_sum (map (@maxsize R) (s0' :: ss')) = m_total m) by (unfold m_total, m_sizes; rewrite B; cbn [map]; rewrite M, MX; reflexivity).
  rewrite TT in W'.
  exists s0, s0', ss'. cbn [m_bufs m_last m_lens h_v h_main v_m v_kids]. do 6 (split; [auto|]).
  assert (G : forall st la le, st = fold_left (fun l ix => upd l (fst ix) (snd ix)) (combine (map (fun r => fst (fst (fst r))) q1) (map (fun t => Some (row last_frame o t)) ts)) (meta_rows (m_total m) (m_meta (v_m (h_v h)))) ->
     whole (mkMgr (s0' :: ss') (Some st) la le)).
  { intros st la le ->. unfold whole, storage. cbn [m_meta meta_rows]. rewrite fold_upd_length, W'. symmetry. exact T2. }
  split; [unfold whole, storage; cbn [m_meta meta_rows]; rewrite fold_upd_length, W; symmetry; exact T1|]. split; [apply G; reflexivity|]. split; [|exact F].
  unfold kids_ok in *. cbn [v_kids v_m]. destruct (m_meta (v_m (h_v h))) eqn:MH; [|apply G; rewrite ?MH; reflexivity]. destruct (v_kids (h_v h)); [|apply G; rewrite ?MH; reflexivity].
  unfold m_sizes in *. rewrite B' in K. cbn [m_bufs map] in *. rewrite M. exact K.
Qed.
Lemma run_alike o ops : forall (m : mgr) (h : hbuf), caches_only ops -> alike m h ->
  match c_run r0 radd last_frame o m ops, h_run r0 radd last_frame o h ops with Ok (m', r), Ok (h', r') => alike m' h' /\ r = r' | Err e, Err e' => e = e' | _, _ => False end.
Proof.
  induction ops as [|[ids ts] ops IH]; intros m h HC H; cbn [c_run h_run]; [auto|].
  assert (X : match c_add r0 radd last_frame o m ids ts, h_add r0 radd last_frame o h ids ts with Ok (m', r), Ok (h', r') => alike m' h' /\ r = r' | Err e, Err e' => e = e' | _, _ => False end).
  { unfold c_add, h_add. fold (cids (length (m_bufs m)) ids). fold (cids (length (m_bufs (v_m (h_v h)))) ids).
    assert (LE : length (m_bufs (v_m (h_v h))) = length (m_bufs m)) by (destruct H as (? & ? & ? & -> & -> & _); reflexivity). rewrite LE.
    pose proof (cids_pos (Ob := Ob) (A := A) (Inf := Inf) r0 radd (length (m_bufs m)) ids ts ops HC) as HP. pose proof (vadd_alike o m h (cids (length (m_bufs m)) ids) ts HP H) as X.
    destruct (m_add o m _ ts) as [[m1 r1]|], (v_add r0 radd last_frame o (h_v h) _ ts) as [[v1 s1]|]; cbn [bind fst snd]; try contradiction; [|exact X].
    destruct X as [X <-]. set (mv := map fst _). assert (HM : forall i, In i mv -> (1 <= i)%Z) by (apply moved_pos, HP).
    pose proof (moves_alike mv m1 (mkH v1 (h_main h)) HM X) as Y.
    destruct (c_moves r0 m1 mv) as [[m2 r2]|], (h_moves r0 _ mv) as [[h2 s2]|]; cbn [bind fst snd]; try contradiction; [|exact Y]. destruct Y as [Y <-]. auto. }
  destruct (c_add r0 radd last_frame o m ids ts) as [[m1 r1]|], (h_add r0 radd last_frame o h ids ts) as [[h1 s1]|]; cbn [bind fst snd]; try contradiction; [|exact X].
  destruct X as [X <-]. assert (HC' : caches_only ops) by (intros a b Hab; apply (HC a b); now right). specialize (IH m1 h1 HC' X).
  destruct (c_run r0 radd last_frame o m1 ops) as [[m2 r2]|], (h_run r0 radd last_frame o h1 ops) as [[h2 s2]|]; cbn [bind fst snd]; try contradiction; [|exact IH].
  destruct IH as [IH <-]. auto.
Qed.
Lemma load_alike (m : mgr) (h : hbuf) : whole m -> h_load m = Ok h -> alike m h.
Proof.
  intros W H. unfold h_load in H. destruct (children m) as [|b bs] eqn:C; [discriminate|]. injection H as <-.
  assert (S : map b_st (children m) = m_bufs m) by apply children_from_st. rewrite C in S. cbn in S.
  exists (b_st b), (b_st b), (map b_st bs). cbn [h_v v_copy v_m h_main]. do 8 (split; [auto|]). split.
  - unfold kids_ok. cbn [v_kids v_copy v_m v_children]. unfold m_sizes. rewrite <- (children_from_st (m_bufs m) 0 (m_meta m)). fold (children m).
    assert (G : forall x, In x (children m) -> fits x) by (intros x Hx; apply (children_fit m x W Hx)). clear - G. induction (children m) as [|x l IH]; [reflexivity|].
    cbn. rewrite IH by (intros y Hy; apply G; now right). f_equal. apply (G x). now left.
  - apply (children_fit m b W). rewrite C. now left.
Qed.
End T.

(** C366.  What a loaded buffer counts and reports - indices, episode returns, lengths and starts, and errors - is what the saved one would. *)
Lemma C366_reports_partial_lemma : forall (Ob A Inf R : Type) (r0 : R) (radd : R -> R -> R) (last_frame : Ob -> Ob) (o : opts) (m : mgr Ob A Inf R) (h : hbuf Ob A Inf R)
    (ops : list (option (list Z) * list (trans Ob A Inf R))),
  length (storage m) = m_total m -> h_load m = Ok h -> caches_only ops ->
  rmap (fun x => (m_lens (v_m (h_v (fst x))), m_last (v_m (h_v (fst x))), tl (m_bufs (v_m (h_v (fst x)))), snd x)) (h_run r0 radd last_frame o h ops)
  = rmap (fun x => (m_lens (fst x), m_last (fst x), tl (m_bufs (fst x)), snd x)) (c_run r0 radd last_frame o m ops).
Proof.
  intros Ob A Inf R r0 radd lf o m h ops W HL HC. pose proof (run_alike r0 radd lf o ops m h HC (load_alike r0 radd m h W HL)) as X.
  destruct (c_run r0 radd lf o m ops) as [[m2 r2]|], (h_run r0 radd lf o h ops) as [[h2 s2]|]; try contradiction; cbn [rmap bind fst snd]; [|rewrite X; reflexivity].
  destruct X as [(s0 & s0' & ss & B & B' & _ & _ & EL & EN & _) <-]. rewrite B, B', EL, EN. reflexivity.
Qed.
