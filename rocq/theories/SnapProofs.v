From Verif Require Import Py PyLemmas BufferModel BufferSpec ManagerModel ManagerSpec ManagerProofs ManagerMainProofs CachedModel CompProofs TatSpec SnapModel SnapSpec.
From Coq Require Import Lia ZArith.
Open Scope nat_scope.

Section S.
Context {Ob A Inf R : Type}.
Variable r0 : R.
Variable radd : R -> R -> R.
Variable last_frame : Ob -> Ob.
Notation trans := (trans Ob A Inf R).
Notation slot := (slot Ob A Inf R).
Notation bst := (bst R).
Notation buf := (buf Ob A Inf R).
Notation mgr := (mgr Ob A Inf R).
Notation vbuf := (vbuf Ob A Inf R).
Notation vop := (vop Ob A Inf R).
Notation v_run := (v_run r0 radd last_frame).
Notation v_add := (v_add r0 radd last_frame).
Notation m_add := (m_add r0 radd last_frame).

Lemma add_eq o (v w : vbuf) ids ts : v_m v = v_m w -> rmap (fun x => (v_m (fst x), snd x)) (v_add o v ids ts) = rmap (fun x => (v_m (fst x), snd x)) (v_add o w ids ts).
Proof. intro E. unfold SnapModel.v_add. rewrite E. destruct (m_add o (v_m w) ids ts) as [x|e]; reflexivity. Qed.
Lemma run_shown o ops : forall v w : vbuf, v_m v = v_m w -> shown (v_run o v ops) = shown (v_run o w (no_copies ops)).
Proof.
  induction ops as [|op ops IH]; intros v w E.
  - cbn. rewrite E. reflexivity.
  - destruct op as [ids ts|keep|].
    + cbn [no_copies filter no_copy]. fold (no_copies ops). cbn [SnapModel.v_run]. pose proof (add_eq o v w ids ts E) as X.
      destruct (v_add o v ids ts) as [[v1 r1]|e1], (v_add o w ids ts) as [[w1 s1]|e2]; cbn in X; try discriminate; [|injection X as <-; reflexivity].
      injection X as E1 <-. cbn [bind fst snd]. specialize (IH v1 w1 E1). unfold shown in *.
      destruct (v_run o v1 ops) as [[v2 r2]|], (v_run o w1 (no_copies ops)) as [[w2 s2]|]; cbn in IH |- *; try discriminate; [|injection IH as <-; reflexivity].
      injection IH as E2 <-. rewrite E2. reflexivity.
    + cbn [no_copies filter no_copy]. fold (no_copies ops). cbn [SnapModel.v_run]. apply IH. cbn. rewrite E. reflexivity.
    + cbn [no_copies filter no_copy]. fold (no_copies ops). cbn [SnapModel.v_run]. apply IH. exact E.
Qed.

(** ** Sampling *)
Lemma children_from_st ss : forall off (meta : meta_t Ob A Inf R), map b_st (children_from off ss meta) = ss.
Proof. induction ss as [|s ss IH]; intros off meta; [reflexivity|]. cbn. rewrite IH. reflexivity. Qed.
Lemma sample_st o (b b' : buf) rnd n : sample_avail o = false \/ stack_num o = 1 -> b_st b = b_st b' -> sample_indices o b rnd n = sample_indices o b' rnd n.
Proof.
  intros H E. unfold sample_indices. rewrite E. replace ((stack_num o =? 1) || negb (sample_avail o)) with true; [reflexivity|].
  destruct H as [-> | ->]; [rewrite Bool.orb_true_r|]; reflexivity.
Qed.
Lemma sample_kids o (rnd : nat -> nat -> nat) : sample_avail o = false \/ stack_num o = 1 ->
  forall (c1 c2 : list buf) ks offs (nums : list Z), map b_st c1 = map b_st c2 ->
  mapM (fun x => let '(k, (off, (b, n))) := x in let* u := sample_indices o b (rnd k) (Some n) in Ok (map (fun i => i + off) u)) (combine ks (combine offs (combine c1 nums)))
  = mapM (fun x => let '(k, (off, (b, n))) := x in let* u := sample_indices o b (rnd k) (Some n) in Ok (map (fun i => i + off) u)) (combine ks (combine offs (combine c2 nums))).
Proof.
  intro H. induction c1 as [|b c1 IH]; intros [|b' c2] [|k ks] [|off offs] [|n nums] E; try reflexivity; try discriminate.
  cbn [map] in E. injection E as E1 E2. cbn [combine mapM]. rewrite (sample_st o b b' (rnd k) (Some n) H E1), (IH c2 ks offs nums E2). reflexivity.
Qed.
Definition kids_fit (v : vbuf) : Prop := match v_kids v with Some ks => length ks = length (m_bufs (v_m v)) | None => True end.
Lemma children_st (v : vbuf) : kids_fit v -> map b_st (v_children v) = m_bufs (v_m v).
Proof.
  unfold kids_fit, v_children. destruct (v_kids v) as [ks|]; intro H; [|apply children_from_st].
  rewrite map_map. cbn [b_st]. revert H. generalize (m_bufs (v_m v)). induction ks as [|k ks IH]; intros [|s ss] H; try discriminate; [reflexivity|].
  cbn. f_equal. apply IH. cbn in H. lia.
Qed.
Lemma sample_same o (v : vbuf) rb rnd n : sample_avail o = false \/ stack_num o = 1 -> kids_fit v -> v_sample_indices o v rb rnd n = m_sample_indices o (v_m v) rb rnd n.
Proof.
  intros H F. unfold v_sample_indices, m_sample_indices. destruct (match n with Some z => (z <? 0)%Z | None => false end); [reflexivity|].
  replace (sample_avail o && (1 <? stack_num o)) with false by (destruct H as [-> | ->]; [reflexivity|rewrite Bool.andb_false_r; reflexivity]).
  match goal with |- bind ?a _ = bind ?a _ => destruct a as [sn|e]; [|reflexivity] end. cbn [bind].
  rewrite (sample_kids o rnd H (v_children v) (children (v_m v))); [reflexivity|]. rewrite children_st by exact F. symmetry. apply children_from_st.
Qed.
Lemma add_loop_length : forall xs (bufs : list bst) last lens bufs' last' lens' rs,
  add_loop (Ob := Ob) (A := A) (Inf := Inf) r0 radd bufs last lens xs = Ok (bufs', last', lens', rs) -> length bufs' = length bufs.
Proof.
  induction xs as [|[id t] xs IH]; intros bufs last lens bufs' last' lens' rs H; cbn [add_loop] in H; [congruence|].
  destruct (norm_index _ _) as [k|]; [|discriminate]. cbn [bind] in H. destruct (nth_error bufs k) as [s|]; [|discriminate].
  destruct (update_state_pre_add _ _ _ _ _) as [[s' [[[i ret] len] st]]|]; [|discriminate]. cbn [bind] in H.
  destruct (add_loop _ _ _ _ _ xs) as [[[[b1 l1] n1] r1]|] eqn:E; [|discriminate]. cbn [bind] in H. injection H as <- <- <- <-.
  rewrite (IH _ _ _ _ _ _ _ E), upd_length. reflexivity.
Qed.
Lemma m_add_length o (m m' : mgr) ids ts rs : m_add o m ids ts = Ok (m', rs) -> length (m_bufs m') = length (m_bufs m) /\ m_meta m' <> None.
Proof.
  unfold ManagerModel.m_add, guard. destruct (length _ <=? length ts); [|discriminate].
  destruct (add_loop _ _ _ _ _ _) as [[[[b1 l1] n1] r1]|] eqn:E; [|discriminate]. cbn [bind].
  destruct (negb _); [|discriminate]. destruct (_ =? _); [|discriminate]. destruct (forallb _ _); [|discriminate].
  intro H. injection H as <- _. cbn [m_bufs m_meta]. split; [eapply add_loop_length; exact E|discriminate].
Qed.
Lemma add_loop_reports : forall xs (bufs : list bst) last lens bufs' last' lens' rs,
  add_loop (Ob := Ob) (A := A) (Inf := Inf) r0 radd bufs last lens xs = Ok (bufs', last', lens', rs) -> length rs = length xs.
Proof.
  induction xs as [|[id t] xs IH]; intros bufs last lens bufs' last' lens' rs H; cbn [add_loop] in H; [injection H as _ _ _ <-; reflexivity|].
  destruct (norm_index _ _) as [k|]; [|discriminate]. cbn [bind] in H. destruct (nth_error bufs k) as [s|]; [|discriminate].
  destruct (update_state_pre_add _ _ _ _ _) as [[s' [[[i ret] len] st]]|]; [|discriminate]. cbn [bind] in H.
  destruct (add_loop _ _ _ _ _ xs) as [[[[b1 l1] n1] r1]|] eqn:E; [|discriminate]. cbn [bind] in H. injection H as <- <- <- <-. cbn. rewrite (IH _ _ _ _ _ _ _ E). reflexivity.
Qed.
Lemma m_add_reports o (m m' : mgr) ids ts rs : m_add o m ids ts = Ok (m', rs) -> length (match ids with Some ids => ids | None => map Z.of_nat (seq 0 (length (m_bufs m))) end) = length rs.
Proof.
  unfold ManagerModel.m_add, guard. set (l := match ids with Some _ => _ | None => _ end). destruct (Nat.leb_spec (length l) (length ts)) as [L|]; [|discriminate].
  destruct (add_loop _ _ _ _ _ _) as [[[[b1 l1] n1] r1]|] eqn:E; [|discriminate]. cbn [bind].
  destruct (negb _); [|discriminate]. destruct (_ =? _); [|discriminate]. destruct (forallb _ _); [|discriminate].
  intro H. injection H as _ <-. rewrite (add_loop_reports _ _ _ _ _ _ _ _ E), combine_length. lia.
Qed.
Lemma fit_add o (v v' : vbuf) ids ts rs : v_add o v ids ts = Ok (v', rs) -> kids_fit v -> kids_fit v'.
Proof.
  unfold SnapModel.v_add. destruct (m_add o (v_m v) ids ts) as [[m1 r1]|] eqn:E; [|discriminate]. cbn [bind fst snd]. intro H. injection H as <- <-.
  destruct (m_add_length _ _ _ _ _ _ E) as [L _]. unfold kids_fit. cbn [v_kids v_m]. destruct (m_meta (v_m v)); [|trivial]. destruct (v_kids v); [|trivial]. lia.
Qed.
Lemma fit_copy (v : vbuf) : kids_fit v -> kids_fit (v_copy v).
Proof. intro H. unfold kids_fit. cbn. rewrite <- (children_st v H), !map_length. reflexivity. Qed.
Lemma fit_run o ops : forall (v v' : vbuf) rs, v_run o v ops = Ok (v', rs) -> kids_fit v -> kids_fit v'.
Proof.
  induction ops as [|op ops IH]; intros v v' rs H F; cbn in H; [congruence|]. destruct op as [ids ts|keep|].
  - destruct (v_add o v ids ts) as [[v1 r1]|] eqn:E; [|discriminate]. cbn [bind fst snd] in H.
    destruct (v_run o v1 ops) as [[v2 r2]|] eqn:E2; [|discriminate]. cbn in H. injection H as <- _. eapply IH; [exact E2|]. eapply fit_add; eassumption.
  - apply (IH _ _ _ H). unfold kids_fit in *. cbn. rewrite map_length. exact F.
  - apply (IH _ _ _ H). apply fit_copy, F.
Qed.

(** ** Copies of a buffer that was never filled *)
Lemma children_none ss : forall off, children_from (Ob := Ob) (A := A) (Inf := Inf) off ss None = map (fun s : bst => mkBuf s None) ss.
Proof. induction ss as [|s ss IH]; intro off; [reflexivity|]. cbn. rewrite IH. reflexivity. Qed.
Definition as_new (v w : vbuf) : Prop :=
  v_m v = v_m w /\ v_kids w = None /\ (v_kids v = None \/ (m_meta (v_m v) = None /\ v_kids v = Some (map (fun _ => None) (m_bufs (v_m v))))).
Lemma as_new_children v w : as_new v w -> v_children v = v_children w.
Proof.
  intros (E & Kw & K). unfold v_children. rewrite Kw, <- E. destruct K as [-> | [M ->]]; [reflexivity|].
  unfold children. rewrite M, children_none. generalize (m_bufs (v_m v)). induction l as [|s l IH]; [reflexivity|]. cbn. rewrite IH. reflexivity.
Qed.
Lemma as_new_run o ops : forall v w, as_new v w -> no_copies ops = ops ->
  rmap (fun x => (v_m (fst x), v_children (fst x), snd x)) (v_run o v ops) = rmap (fun x => (v_m (fst x), v_children (fst x), snd x)) (v_run o w ops).
Proof.
  induction ops as [|op ops IH]; intros v w H N.
  - cbn. rewrite (as_new_children v w H). destruct H as (-> & _). reflexivity.
  - assert (N' : no_copies ops = ops /\ op <> VCopy).
    { unfold no_copies in *. cbn [filter] in N. destruct (no_copy op) eqn:C.
      - split; [congruence|]. intros ->. discriminate C.
      - exfalso. assert (L : length (filter no_copy ops) <= length ops) by (clear; induction ops as [|x l IH]; cbn; [lia|]; destruct (no_copy x); cbn; lia).
        rewrite N in L. cbn in L. lia. }
    destruct N' as [N' Hc]. destruct H as (E & Kw & K). destruct op as [ids ts|keep|]; [| |congruence].
    + cbn [SnapModel.v_run]. unfold SnapModel.v_add. rewrite E, Kw. destruct (m_add o (v_m w) ids ts) as [[m1 r1]|] eqn:EA; [|reflexivity]. cbn [bind fst snd].
      set (v1 := mkV m1 _). set (w1 := mkV m1 (match m_meta (v_m w) with Some _ => None | None => None end)).
      assert (H1 : as_new v1 w1).
      { split; [reflexivity|]. split; [subst w1; cbn; destruct (m_meta (v_m w)); reflexivity|]. left. subst v1. cbn. rewrite <- E.
        destruct K as [-> | [-> _]]; [destruct (m_meta (v_m v)); reflexivity|reflexivity]. }
      specialize (IH v1 w1 H1 N'). destruct (v_run o v1 ops) as [[v2 r2]|], (v_run o w1 ops) as [[w2 s2]|]; cbn in IH |- *; try discriminate; [|injection IH as <-; reflexivity].
      injection IH as E2 E3 <-. rewrite E2, E3. reflexivity.
    + cbn [SnapModel.v_run]. apply IH; [|exact N']. split; [cbn; rewrite E; reflexivity|]. split; [exact Kw|]. cbn.
      destruct K as [-> | [M ->]]; [left; reflexivity|right]. split; [exact M|]. rewrite map_map. reflexivity.
Qed.
End S.

(** C364.  However often and whenever a vector buffer is copied, what is added to it goes to the same places, is stored, counted and
    reported in the same way, and raises the same errors, as without the copies. *)
Lemma C364_state_partial_lemma : forall (Ob A Inf R : Type) (r0 : R) (radd : R -> R -> R) (last_frame : Ob -> Ob) (o : opts) (ns : list nat) (ops : list (vop Ob A Inf R)),
  shown (v_run r0 radd last_frame o (v_init r0 ns) ops) = shown (v_run r0 radd last_frame o (v_init r0 ns) (no_copies ops)).
Proof. intros. apply run_shown. reflexivity. Qed.
(** C364.  And the state is that of a manager on the same calls. *)
Lemma C364_manager_partial_lemma : forall (Ob A Inf R : Type) (r0 : R) (radd : R -> R -> R) (last_frame : Ob -> Ob) (o : opts) (ns : list nat) (ops : list (vop Ob A Inf R)),
  rmap (fun x => (v_m (fst x), concat (snd x))) (v_run r0 radd last_frame o (v_init r0 ns) ops)
  = rmap (fun x => (fst x, map snd (snd x))) (m_run r0 radd last_frame o (m_init r0 ns) (calls ops)).
Proof.
  intros Ob A Inf R r0 radd lf o ns ops. change (m_init r0 ns) with (v_m (v_init (Ob := Ob) (A := A) (Inf := Inf) r0 ns)). generalize (v_init (Ob := Ob) (A := A) (Inf := Inf) r0 ns).
  induction ops as [|[ids ts|keep|] ops IH]; intro v; [reflexivity| | |].
  - cbn [SnapModel.v_run calls flat_map app m_run]. fold (calls ops). unfold v_add. destruct (m_add r0 radd lf o (v_m v) ids ts) as [[m1 r1]|] eqn:E; [|reflexivity]. cbn [bind fst snd].
    set (v1 := mkV m1 _). specialize (IH v1). change (v_m v1) with m1 in IH.
    assert (L : map snd (combine (match ids with Some ids => ids | None => map Z.of_nat (seq 0 (length (m_bufs (v_m v)))) end) r1) = r1).
    { assert (K : length (match ids with Some ids => ids | None => map Z.of_nat (seq 0 (length (m_bufs (v_m v)))) end) = length r1) by (apply (m_add_reports r0 radd lf o _ _ _ _ _ E)).
      revert K. generalize (match ids with Some ids => ids | None => map Z.of_nat (seq 0 (length (m_bufs (v_m v)))) end). clear. induction r1 as [|x r1 IH]; intros [|i l] K; try discriminate; [reflexivity|].
      cbn. f_equal. apply IH. cbn in K. congruence. }
    destruct (v_run r0 radd lf o v1 ops) as [[v2 r2]|], (m_run r0 radd lf o m1 (calls ops)) as [[m2 s2]|]; cbn in IH |- *; try discriminate; [|congruence].
    injection IH as E1 E2. rewrite E1, E2, map_app, L. reflexivity.
  - cbn [SnapModel.v_run calls flat_map app m_run]. fold (calls ops). apply (IH (v_reset r0 keep v)).
  - cbn [SnapModel.v_run calls flat_map app]. fold (calls ops). apply (IH (v_copy v)).
Qed.
(** C364.  So length, prev, next and the rows at any indices are those of the buffer without copies; the sampled indices too, unless both
    sample_avail and frame stacking are used. *)
Lemma C364_reads_partial_lemma : forall (Ob A Inf R : Type) (r0 : R) (radd : R -> R -> R) (last_frame : Ob -> Ob) (o : opts) (ns : list nat) (ops : list (vop Ob A Inf R))
    (v w : vbuf Ob A Inf R) rs ss,
  v_run r0 radd last_frame o (v_init r0 ns) ops = Ok (v, rs) -> v_run r0 radd last_frame o (v_init r0 ns) (no_copies ops) = Ok (w, ss) ->
  m_len (v_m v) = m_len (v_m w) /\ (forall ix, m_prev (v_m v) ix = m_prev (v_m w) ix) /\ (forall ix, m_next (v_m v) ix = m_next (v_m w) ix) /\
  (forall ix, m_getitem o (v_m v) ix = m_getitem o (v_m w) ix) /\
  (sample_avail o = false \/ stack_num o = 1 -> forall rb rnd n, v_sample_indices o v rb rnd n = v_sample_indices o w rb rnd n).
Proof.
  intros Ob A Inf R r0 radd lf o ns ops v w rs ss H1 H2. pose proof (run_shown r0 radd lf o ops (v_init r0 ns) (v_init r0 ns) eq_refl) as X.
  rewrite H1, H2 in X. cbn in X. injection X as E <-. rewrite E. do 4 (split; [reflexivity|]). intros H rb rnd n.
  rewrite !sample_same; auto; [rewrite E; reflexivity| |].
  - eapply fit_run; [exact H2|exact Logic.I].
  - eapply fit_run; [exact H1|exact Logic.I].
Qed.
(** C364.  A copy of a buffer to which nothing was ever added behaves like it in everything: its sub-buffers are the same after any calls. *)
Lemma C364_unfilled_partial_lemma : forall (Ob A Inf R : Type) (r0 : R) (radd : R -> R -> R) (last_frame : Ob -> Ob) (o : opts) (ns : list nat) (ops : list (vop Ob A Inf R)),
  no_copies ops = ops ->
  rmap (fun x => (v_m (fst x), v_children (fst x), snd x)) (v_run r0 radd last_frame o (v_copy (v_init r0 ns)) ops)
  = rmap (fun x => (v_m (fst x), v_children (fst x), snd x)) (v_run r0 radd last_frame o (v_init r0 ns) ops).
Proof.
  intros. apply as_new_run; [|assumption]. split; [reflexivity|]. split; [reflexivity|]. right. split; [reflexivity|].
  cbn. unfold children. cbn [m_init m_bufs m_meta]. rewrite children_none, map_map. reflexivity.
Qed.
(** C364.  Giving a copy its own storage again with set_batch repairs it. *)
Lemma C364_set_batch_partial_lemma : forall (Ob A Inf R : Type) (v : vbuf Ob A Inf R) (l : list (option (slot Ob A Inf R))),
  m_meta (v_m v) = Some l -> length l = m_total (v_m v) -> v_set_batch v l = Ok (mkV (v_m v) None).
Proof.
  intros Ob A Inf R v l H L. unfold v_set_batch, guard. rewrite L, Nat.eqb_refl. destruct v as [[b me la le] k]. cbn in *. subst me. reflexivity.
Qed.

(** ** unfinished_index of a copy *)
Lemma concat_one (f g : nat -> list nat) (k N : nat) : (forall j, j <> k -> length (f j) = length (g j)) -> length (f k) = 0 -> length (g k) = 1 -> k < N ->
  length (concat (map g (seq 0 N))) = S (length (concat (map f (seq 0 N)))).
Proof.
  intros H F G L. assert (X : seq 0 N = (seq 0 k ++ k :: seq (S k) (N - k - 1))%list).
  { replace N with (k + S (N - k - 1)) at 1 by lia. rewrite seq_app. cbn. reflexivity. }
  rewrite X, !map_app, !concat_app, !app_length. cbn [map concat]. rewrite !app_length, F, G.
  assert (Y : forall l, ~ In k l -> length (concat (map f l)) = length (concat (map g l))).
  { induction l as [|j l IH]; intro Hl; [reflexivity|]. cbn. rewrite !app_length, IH, H; [reflexivity| |]; intro; apply Hl; [left; congruence|now right]. }
  rewrite !Y; [lia| |]; rewrite in_seq; lia.
Qed.
Section U.
Context {Ob A Inf R : Type}.
Variable r0 : R.
Variable radd : R -> R -> R.
Variable last_frame : Ob -> Ob.
Notation trans := (trans Ob A Inf R).
Notation slot := (slot Ob A Inf R).
Notation bst := (bst R).
Notation buf := (buf Ob A Inf R).
Notation mgr := (mgr Ob A Inf R).
Notation vbuf := (vbuf Ob A Inf R).
Notation m_add := (m_add r0 radd last_frame).

Definition core (s : bst) : nat * nat * nat := (maxsize s, ins s, size s).
Lemma unfinished_core (s s' : bst) (x : meta_t Ob A Inf R) : core s = core s' -> unfinished_index (mkBuf s x) = unfinished_index (mkBuf s' x).
Proof. unfold core. intro E. injection E as _ E1 E2. unfold unfinished_index. cbn [b_st b_meta]. rewrite E1, E2. reflexivity. Qed.
Lemma sizes_core (l l' : list bst) : map core l = map core l' -> map maxsize l = map maxsize l'.
Proof. intro H. assert (X : map (fun c => fst (fst c)) (map core l) = map (fun c => fst (fst c)) (map core l')) by (rewrite H; reflexivity). rewrite !map_map in X. exact X. Qed.
Lemma unfinished_kids : forall (ss ss' : list bst) (ks : list (meta_t Ob A Inf R)) offs, map core ss = map core ss' ->
  mapM (fun x => let* u := unfinished_index (snd x) in Ok (map (fun i => i + fst x) u)) (combine offs (map (fun x => mkBuf (fst x) (snd x)) (combine ss ks)))
  = mapM (fun x => let* u := unfinished_index (snd x) in Ok (map (fun i => i + fst x) u)) (combine offs (map (fun x => mkBuf (fst x) (snd x)) (combine ss' ks))).
Proof.
  induction ss as [|s ss IH]; intros [|s' ss'] ks offs E; try discriminate; [reflexivity|]. cbn [map] in E. pose proof (f_equal (@tl _) E) as E2. pose proof (f_equal (hd (core s)) E) as E1. cbn in E1, E2.
  destruct ks as [|k ks]; [reflexivity|]. destruct offs as [|off offs]; [reflexivity|]. cbn [combine map mapM fst snd].
  rewrite (unfinished_core s s' k E1), (IH ss' ks offs E2). reflexivity.
Qed.
Lemma add_core (s s1 s2 : bst) rew d1 d2 x1 x2 : update_state_pre_add r0 radd s rew d1 = Ok (s1, x1) -> update_state_pre_add r0 radd s rew d2 = Ok (s2, x2) -> core s1 = core s2.
Proof.
  unfold update_state_pre_add, guard. destruct (negb _); [|discriminate]. destruct (negb _); [|discriminate].
  destruct d1, d2; intros H1 H2; injection H1 as <- _; injection H2 as <- _; reflexivity.
Qed.
Lemma m_add_core o (m m1 m2 : mgr) k t d1 d2 r1 r2 : m_add o m (Some [k]) [with_end d1 t] = Ok (m1, r1) -> m_add o m (Some [k]) [with_end d2 t] = Ok (m2, r2) ->
  map core (m_bufs m1) = map core (m_bufs m2).
Proof.
  unfold ManagerModel.m_add, guard. cbn [length Nat.leb Nat.eqb negb combine add_loop].
  destruct (norm_index _ _) as [j|]; [|discriminate]. cbn [bind]. destruct (nth_error (m_bufs m) j) as [s|]; [|discriminate].
  cbn [with_end t_rew t_term t_trunc].
  destruct (update_state_pre_add r0 radd s (t_rew t) (d1 || false)) as [[s1 [[[? ?] ?] ?]]|] eqn:E1; [|discriminate].
  destruct (update_state_pre_add r0 radd s (t_rew t) (d2 || false)) as [[s2 [[[? ?] ?] ?]]|] eqn:E2; [|discriminate].
  cbn [bind]. destruct (forallb _ _); [|discriminate]. destruct (forallb _ _); [|discriminate]. intros H1 H2. injection H1 as <- _. injection H2 as <- _. cbn [m_bufs].
  rewrite !map_upd, (add_core _ _ _ _ _ _ _ _ E1 E2). reflexivity.
Qed.
End U.

(** C364.  Refuted for unfinished_index: after any history in which something was added, for every sub-buffer and transition, one of the two
    outcomes of adding the transition to the copy - it ends its episode or not - makes unfinished_index of the copy wrong. *)
Lemma C364_unfinished_refuted_lemma : forall (Ob A Inf R : Type) (r0 : R) (radd : R -> R -> R) (last_frame : Ob -> Ob) (o : opts) (ns : list nat)
    (ops : list (mop Ob A Inf R)) (m : mgr Ob A Inf R) outs (k : nat) (t : trans Ob A Inf R),
  (forall n, In n ns -> 0 < n) -> m_run r0 radd last_frame o (m_init r0 ns) ops = Ok (m, outs) -> (exists ids ts, In (MAdd ids ts) ops) -> k < length ns ->
  exists d v m' rs, m_add r0 radd last_frame o m (Some [Z.of_nat k]) [with_end d t] = Ok (m', rs) /\
    v_add r0 radd last_frame o (v_copy (mkV m None)) (Some [Z.of_nat k]) [with_end d t] = Ok (v, rs) /\
    v_unfinished_index v <> m_unfinished_index m'.
Proof.
  intros Ob A Inf R r0 radd lf o ns ops m outs k t Hpos Hrun Hadd Hk.
  assert (Hok : forall d, mop_ok (length ns) (MAdd (Some [Z.of_nat k]) [with_end d t])).
  { intro d. split; [reflexivity|]. split; [discriminate|]. intros i [<-|[]]. lia. }
  destruct (run_view r0 radd lf o ns ops m outs Hpos Hrun) as (_ & Hm & _). specialize (Hm Hadd).
  destruct (m_add_reach r0 radd lf o ns ops m outs [Z.of_nat k] [with_end true t] Hpos Hrun (Hok true)) as (m1 & rs1 & E1 & _ & F1).
  destruct (m_add_reach r0 radd lf o ns ops m outs [Z.of_nat k] [with_end false t] Hpos Hrun (Hok false)) as (m2 & rs2 & E2 & _ & F2).
  assert (HA : forall d, exists ids ts, In (MAdd ids ts) (ops ++ [MAdd (Some [Z.of_nat k]) [with_end d t]])) by (intro d; do 2 eexists; apply in_or_app; right; left; reflexivity).
  pose proof (C09_unfinished_index_lemma _ _ _ _ r0 radd lf o ns _ _ _ Hpos F1 (HA true)) as U1.
  pose proof (C09_unfinished_index_lemma _ _ _ _ r0 radd lf o ns _ _ _ Hpos F2 (HA false)) as U2.
  cbv zeta in U1, U2.
  assert (PJ : forall d j, proj (length ns) j (ops ++ [MAdd (Some [Z.of_nat k]) [with_end d t]]) = (proj (length ns) j ops ++ if j =? k then [OpAdd (with_end d t)] else [])%list).
  { intros d j. rewrite proj_app. f_equal. cbn [proj combine]. unfold select, mine. cbn [filter fst]. rewrite Z.mod_small by lia.
    destruct (Z.eqb_spec (Z.of_nat k) (Z.of_nat j)), (Nat.eqb_spec j k); try lia; reflexivity. }
  assert (QJ : forall j, j <> k -> mqueue lf o ns (ops ++ [MAdd (Some [Z.of_nat k]) [with_end true t]]) j = mqueue lf o ns (ops ++ [MAdd (Some [Z.of_nat k]) [with_end false t]]) j).
  { intros j Hj. unfold mqueue. rewrite !PJ. destruct (Nat.eqb_spec j k); [lia|]. reflexivity. }
  assert (QK : forall d, exists q x, mqueue lf o ns (ops ++ [MAdd (Some [Z.of_nat k]) [with_end d t]]) k = (q ++ [x])%list /\ s_done x = d).
  { intro d. unfold mqueue. destruct (nth_error ns k) as [n|] eqn:En; [|apply nth_error_None in En; lia].
    assert (Hn : 0 < n) by (apply Hpos; eapply nth_error_In; exact En).
    rewrite PJ, Nat.eqb_refl. unfold queue.
    assert (X : forall l q, exists q' x, queue_from lf o n q (l ++ [OpAdd (with_end d t)]) = (q' ++ [x])%list /\ s_done x = d).
    { induction l as [|[u|keep] l IH]; intros q; cbn [app queue_from].
      - unfold push, lastn. rewrite app_length. cbn [length].
        exists (skipn (length q + 1 - n) q), (kept lf o (with_end d t)). split; [rewrite skipn_app; replace (length q + 1 - n - length q) with 0 by lia; reflexivity|].
        unfold kept, with_end. cbn. rewrite Bool.orb_false_r. reflexivity.
      - apply IH.
      - apply IH. }
    apply X. }
  set (g1 := fun j => _) in U1. set (g2 := fun j => _) in U2.
  assert (LEN : length (concat (map g2 (seq 0 (length ns)))) = S (length (concat (map g1 (seq 0 (length ns)))))).
  { apply concat_one with (k := k); [| | |exact Hk].
    - intros j Hj. subst g1 g2. cbv beta. rewrite (QJ j Hj). destruct (mqueue lf o ns _ j); [reflexivity|]. destruct (qdone _ _); reflexivity.
    - subst g1. cbv beta. destruct (QK true) as (q & x & E & D). rewrite E.
      assert (Q : qdone (q ++ [x]) (length (q ++ [x]) - 1) = true).
      { unfold qdone. rewrite app_length. cbn [length]. rewrite nth_error_app2 by lia. replace (length q + 1 - 1 - length q) with 0 by lia. exact D. }
      destruct (q ++ [x])%list eqn:EE; [reflexivity|]. rewrite Q. reflexivity.
    - subst g2. cbv beta. destruct (QK false) as (q & x & E & D). rewrite E.
      assert (Q : qdone (q ++ [x]) (length (q ++ [x]) - 1) = false).
      { unfold qdone. rewrite app_length. cbn [length]. rewrite nth_error_app2 by lia. replace (length q + 1 - 1 - length q) with 0 by lia. exact D. }
      destruct (q ++ [x])%list eqn:EE; [destruct q; discriminate EE|]. rewrite Q. reflexivity. }
  set (kids := Some (map b_meta (v_children (mkV m None)))).
  assert (V : forall m', v_unfinished_index (mkV m' kids) = let* l := mapM (fun x => let* u := unfinished_index (snd x) in Ok (map (fun i => i + fst x) u))
              (combine (m_offsets m') (map (fun x => mkBuf (fst x) (snd x)) (combine (m_bufs m') (map b_meta (v_children (mkV m None)))))) in Ok (concat l)) by reflexivity.
  assert (SAME : v_unfinished_index (mkV m1 kids) = v_unfinished_index (mkV m2 kids)).
  { rewrite !V. pose proof (m_add_core r0 radd lf o m m1 m2 _ t true false _ _ E1 E2) as C.
    rewrite (unfinished_kids _ _ (map b_meta (v_children (mkV m None))) (m_offsets m1) C). unfold m_offsets, m_sizes. rewrite (sizes_core _ _ C). reflexivity. }
  assert (VA : forall d m' rs, m_add r0 radd lf o m (Some [Z.of_nat k]) [with_end d t] = Ok (m', rs) ->
     v_add r0 radd lf o (v_copy (mkV m None)) (Some [Z.of_nat k]) [with_end d t] = Ok (mkV m' kids, rs)).
  { intros d m' rs E. unfold v_add, v_copy. cbn [v_m v_kids]. rewrite E. cbn [bind fst snd]. destruct (m_meta m); [reflexivity|congruence]. }
  assert (DEC : v_unfinished_index (mkV m1 kids) <> m_unfinished_index m1 \/ v_unfinished_index (mkV m2 kids) <> m_unfinished_index m2).
  { rewrite SAME, U1, U2. destruct (v_unfinished_index (mkV m2 kids)) as [l|e]; [|left; discriminate].
    destruct (Nat.eq_dec (length l) (length (concat (map g1 (seq 0 (length ns)))))) as [E|E].
    - right. intro X. injection X as ->. lia.
    - left. intro X. injection X as ->. lia. }
  destruct DEC as [D|D].
  - exists true, (mkV m1 kids), m1, rs1. split; [exact E1|]. split; [apply VA, E1|exact D].
  - exists false, (mkV m2 kids), m2, rs2. split; [exact E2|]. split; [apply VA, E2|exact D].
Qed.

(** ** Copies of a CachedReplayBuffer *)
Section C.
Context {Ob A Inf R : Type}.
Variable r0 : R.
Variable radd : R -> R -> R.
Variable last_frame : Ob -> Ob.
Notation trans := (trans Ob A Inf R).
Notation slot := (slot Ob A Inf R).
Notation bst := (bst R).
Notation buf := (buf Ob A Inf R).
Notation mgr := (mgr Ob A Inf R).
Notation vbuf := (vbuf Ob A Inf R).
Notation m_add := (m_add r0 radd last_frame).

(** A copy whose main part has capacity [n] and the rows [l]. *)
Definition frozen (n : nat) (l : list (option slot)) (v : vbuf) : Prop :=
  v_kids v <> None /\ (exists rows, m_meta (v_m v) = Some rows /\ firstn n rows = l) /\ exists s ss, m_bufs (v_m v) = s :: ss /\ maxsize s = n.
Lemma norm_pos N (id : Z) k : (1 <= id)%Z -> norm_index N id = Ok k -> 1 <= k.
Proof. unfold norm_index. intros H E. destruct ((0 <=? id)%Z && (id <? Z.of_nat N)%Z); [injection E as <-; lia|]. destruct (_ && _) eqn:X; [lia|discriminate]. Qed.
Lemma add_loop_main n : forall xs (bufs : list bst) last lens bufs' last' lens' rs,
  add_loop (Ob := Ob) (A := A) (Inf := Inf) r0 radd bufs last lens xs = Ok (bufs', last', lens', rs) ->
  (forall x, In x xs -> (1 <= fst x)%Z) -> (exists s ss, bufs = s :: ss /\ maxsize s = n) ->
  (exists s ss, bufs' = s :: ss /\ maxsize s = n) /\ forall r, In r rs -> n <= fst (fst (fst r)).
Proof.
  induction xs as [|[id t] xs IH]; intros bufs last lens bufs' last' lens' rs H Hx Hb; cbn [add_loop] in H.
  - injection H as <- <- <- <-. split; [exact Hb|intros r []].
  - destruct (norm_index _ _) as [k|] eqn:Ek; [|discriminate]. cbn [bind] in H. destruct (nth_error bufs k) as [s|] eqn:Es; [|discriminate].
    destruct (update_state_pre_add _ _ _ _ _) as [[s' [[[i ret] len] st]]|]; [|discriminate]. cbn [bind] in H.
    destruct (add_loop _ _ _ _ _ xs) as [[[[b1 l1] n1] r1]|] eqn:E; [|discriminate]. cbn [bind] in H. injection H as <- <- <- <-.
    assert (Hk : 1 <= k) by (apply (norm_pos _ id _ (Hx (id, t) (or_introl eq_refl)) Ek)).
    destruct Hb as (s0 & ss & -> & Hn). destruct k as [|k]; [lia|]. cbn [upd] in E.
    destruct (IH _ _ _ _ _ _ _ E) as [P Q]; [intros x Hi; apply Hx; now right|exists s0, (upd ss k s'); split; [reflexivity|exact Hn]|].
    split; [exact P|]. intros r [<-|Hr]; [|apply Q, Hr]. cbn [fst map offsets nth]. rewrite Nat.add_0_l.
    cbn in Es. assert (Hl : k < length (map (@maxsize R) ss)) by (rewrite map_length; apply nth_error_Some; congruence).
    pose proof (nth_error_offsets (map (@maxsize R) ss) (maxsize s0) k Hl) as X. apply nth_error_nth with (d := 0) in X. rewrite X. lia.
Qed.
Lemma fold_upd_firstn n (xs : list (nat * option slot)) : forall l, (forall x, In x xs -> n <= fst x) ->
  firstn n (fold_left (fun l ix => upd l (fst ix) (snd ix)) xs l) = firstn n l.
Proof.
  induction xs as [|[i y] xs IH]; intros l H; [reflexivity|]. cbn [fold_left fst snd]. rewrite IH by (intros x Hx; apply H; now right).
  assert (Hi : n <= i) by (apply (H (i, y)); now left). clear - Hi. revert n i Hi. induction l as [|a l IH]; intros [|n] [|i] Hi; try reflexivity; [lia|].
  cbn. f_equal. apply IH. lia.
Qed.
Lemma frozen_add o n l (v v' : vbuf) ids ts rs : frozen n l v -> (forall i, In i ids -> (1 <= i)%Z) -> v_add r0 radd last_frame o v (Some ids) ts = Ok (v', rs) -> frozen n l v'.
Proof.
  intros (K & (rows & M & L) & B) Hi. unfold v_add. rewrite M. unfold ManagerModel.m_add, guard. destruct (length ids <=? length ts); [|discriminate].
  destruct (add_loop _ _ _ _ _ _) as [[[[b1 l1] n1] r1]|] eqn:E; [|discriminate]. cbn [bind].
  destruct (negb _); [|discriminate]. destruct (_ =? _); [|discriminate]. destruct (forallb _ _) eqn:F; [|discriminate].
  cbn [bind fst snd]. intro H. injection H as <- _.
  destruct (add_loop_main n _ _ _ _ _ _ _ _ E) as [P Q]; [intros [i t] Hx; apply in_combine_l in Hx; apply Hi, Hx|exact B|].
  split; [exact K|]. split; [|exact P]. cbn [v_m m_meta]. eexists. split; [reflexivity|]. rewrite M. cbn [meta_rows]. rewrite fold_upd_firstn; [exact L|].
  intros [i y] Hx. apply in_combine_l in Hx. apply in_map_iff in Hx as (r & <- & Hr). apply Q, Hr.
Qed.
Lemma advance_max k : forall s : bst, maxsize (fst (advance_n k s)) = maxsize s.
Proof. induction k as [|k IH]; intro s; [reflexivity|]. cbn [advance_n]. specialize (IH (advance s)). destruct (advance_n k (advance s)) as [s' l]. cbn in *. exact IH. Qed.
Lemma update_max (b src b' : buf) l : update b src = Ok (b', l) -> maxsize (b_st b') = maxsize (b_st b).
Proof.
  unfold update. destruct (_ || _); [congruence|]. destruct (_ =? 0); [congruence|]. pose proof (advance_max (length (all_indices (b_st src))) (b_st b)) as X.
  destruct (advance_n _ _) as [s' ui]. cbn in X. destruct (mapM _ _) as [rows|]; [|discriminate]. cbn [bind]. unfold guard. destruct (forallb _ _); [|discriminate]. intro H. injection H as <- _. exact X.
Qed.
Lemma frozen_move n l (v v' : vbuf) id r : frozen n l v -> vc_move r0 v id = Ok (v', r) -> frozen n l v'.
Proof.
  intros (K & (rows & M & L) & (s & ss & B & Hn)) H. unfold vc_move in H. destruct (v_kids v) as [ks|] eqn:EK; [|congruence].
  destruct (norm_index _ _) as [k|]; [|discriminate]. cbn [bind] in H. unfold v_children in H. rewrite EK, B in H.
  destruct ks as [|k0 ks]; [discriminate|]. cbn [combine map nth_error] in H.
  destruct (nth_error _ k) as [src|]; [|discriminate]. destruct (update _ src) as [[main' ix]|] eqn:EU; [|discriminate]. cbn [bind upd] in H.
  pose proof (update_max _ _ _ _ EU) as Hmx. cbn in Hmx.
  destruct (nth_error (b_st main' :: ss) k) as [sk|] eqn:Esk; [|discriminate]. injection H as <- _. split; [discriminate|]. cbn [v_m m_meta m_bufs].
  split; [exists rows; auto|]. destruct k as [|k].
  - cbn [nth_error] in Esk. injection Esk as <-. do 2 eexists. split; [reflexivity|]. cbn. congruence.
  - do 2 eexists. split; [reflexivity|]. congruence.
Qed.
Lemma frozen_moves n l ids : forall (v v' : vbuf) r, frozen n l v -> vc_moves r0 v ids = Ok (v', r) -> frozen n l v'.
Proof.
  induction ids as [|id ids IH]; intros v v' r F H; cbn [vc_moves] in H; [congruence|].
  destruct (vc_move r0 v id) as [[v1 r1]|] eqn:E; [|discriminate]. cbn [bind fst snd] in H. destruct (vc_moves r0 v1 ids) as [[v2 r2]|] eqn:E2; [|discriminate].
  cbn in H. injection H as <- _. eapply IH; [|exact E2]. eapply frozen_move; eassumption.
Qed.
Lemma frozen_run o n l ops : forall (v v' : vbuf) r, caches_only ops -> frozen n l v -> vc_run r0 radd last_frame o v ops = Ok (v', r) -> frozen n l v'.
Proof.
  induction ops as [|[ids ts] ops IH]; intros v v' r HC F H; cbn [vc_run] in H; [congruence|].
  destruct (vc_add r0 radd last_frame o v ids ts) as [[v1 r1]|] eqn:E; [|discriminate]. cbn [bind fst snd] in H.
  destruct (vc_run r0 radd last_frame o v1 ops) as [[v2 r2]|] eqn:E2; [|discriminate]. cbn in H. injection H as <- _.
  apply (IH v1 v2 r2); [intros a b Hab; apply (HC a b); now right| |exact E2].
  unfold vc_add in E. set (ids' := match ids with Some _ => _ | None => _ end) in E.
  destruct (v_add r0 radd last_frame o v (Some ids') ts) as [[v3 r3]|] eqn:E3; [|discriminate]. cbn [bind fst snd] in E.
  destruct (vc_moves r0 v3 _) as [[v4 r4]|] eqn:E4; [|discriminate]. cbn [bind fst snd] in E. injection E as <- _.
  eapply frozen_moves; [|exact E4]. eapply frozen_add; [exact F| |exact E3].
  subst ids'. destruct ids as [ids|]; intros i Hi.
  - apply in_map_iff in Hi as (j & <- & Hj). pose proof (HC ids ts (or_introl eq_refl) j Hj). lia.
  - apply in_map_iff in Hi as (j & <- & Hj). apply in_seq in Hj. lia.
Qed.

Lemma moves_view ids : forall m : mgr, rmap (fun x => (v_m (fst x), v_kids (fst x), snd x)) (vc_moves r0 (mkV m None) ids) = rmap (fun x => (fst x, None, snd x)) (c_moves r0 m ids).
Proof.
  induction ids as [|id ids IH]; intro m; [reflexivity|]. cbn [vc_moves c_moves vc_move v_kids v_m]. destruct (c_move r0 m id) as [[m1 r1]|]; [|reflexivity]. cbn [bind fst snd].
  specialize (IH m1). destruct (vc_moves r0 (mkV m1 None) ids) as [[v2 r2]|], (c_moves r0 m1 ids) as [[m2 s2]|]; cbn in IH |- *; try discriminate; [|congruence].
  injection IH as E1 E2 <-. rewrite E1, E2. reflexivity.
Qed.
Lemma vc_add_view o (v : vbuf) ids ts : v_kids v = None \/ m_meta (v_m v) = None ->
  rmap (fun x => (v_m (fst x), v_kids (fst x), snd x)) (vc_add r0 radd last_frame o v ids ts) = rmap (fun x => (fst x, None, snd x)) (c_add r0 radd last_frame o (v_m v) ids ts).
Proof.
  intro H. unfold vc_add, c_add, v_add. destruct (m_add o (v_m v) _ ts) as [[m1 r1]|]; [|reflexivity]. cbn [bind fst snd].
  replace (match m_meta (v_m v) with Some _ => v_kids v | None => None end) with (@None (list (meta_t Ob A Inf R))) by (destruct H as [-> | ->]; [destruct (m_meta _)|]; reflexivity).
  match goal with |- context [vc_moves r0 _ ?i] => pose proof (moves_view i m1) as X; destruct (vc_moves r0 (mkV m1 None) i) as [[v2 r2]|], (c_moves r0 m1 i) as [[m2 s2]|] end;
    cbn in X |- *; try discriminate; [|congruence]. injection X as E1 E2 <-. rewrite E1, E2. reflexivity.
Qed.
Lemma vc_run_view o ops : forall v : vbuf, v_kids v = None \/ m_meta (v_m v) = None ->
  rmap (fun x => (v_m (fst x), snd x)) (vc_run r0 radd last_frame o v ops) = c_run r0 radd last_frame o (v_m v) ops.
Proof.
  induction ops as [|[ids ts] ops IH]; intros v H; [reflexivity|]. cbn [vc_run c_run]. pose proof (vc_add_view o v ids ts H) as X.
  destruct (vc_add r0 radd last_frame o v ids ts) as [[v1 r1]|], (c_add r0 radd last_frame o (v_m v) ids ts) as [[m1 s1]|]; cbn in X; try discriminate; [|injection X as <-; reflexivity].
  injection X as E1 E2 <-. cbn [bind fst snd]. subst m1. rewrite <- (IH v1) by (left; exact E2). destruct (vc_run r0 radd last_frame o v1 ops) as [[v2 r2]|]; reflexivity.
Qed.
End C.

(** C365.  Refuted: in a copy of a cached buffer that has storage, no row of the main buffer ever changes again, however many episodes are
    collected, as far as sampling and reading see it. *)
Lemma C365_frozen_refuted_lemma : forall (Ob A Inf R : Type) (r0 : R) (radd : R -> R -> R) (last_frame : Ob -> Ob) (o : opts) (m : mgr Ob A Inf R) (main : bst R) (caches : list (bst R))
    (ops : list (option (list Z) * list (trans Ob A Inf R))) (v : vbuf Ob A Inf R) rs,
  m_meta m <> None -> m_bufs m = main :: caches -> caches_only ops ->
  vc_run r0 radd last_frame o (v_copy (mkV m None)) ops = Ok (v, rs) ->
  firstn (maxsize main) (storage (v_m v)) = firstn (maxsize main) (storage m).
Proof.
  intros Ob A Inf R r0 radd lf o m s ss ops v rs HM HB HC H.
  destruct (m_meta m) as [rows|] eqn:M; [|congruence].
  assert (F : frozen (maxsize s) (firstn (maxsize s) rows) (v_copy (mkV m None))).
  { split; [discriminate|]. split; [exists rows; auto|]. exists s, ss. auto. }
  pose proof (frozen_run r0 radd lf o _ _ ops _ _ _ HC F H) as (_ & (rows' & M' & L) & _).
  unfold storage. rewrite M, M'. exact L.
Qed.
(** C365.  A copy made before anything is added does all that the buffer would do. *)
Lemma C365_unfilled_partial_lemma : forall (Ob A Inf R : Type) (r0 : R) (radd : R -> R -> R) (last_frame : Ob -> Ob) (o : opts) (n0 num c : nat) (m : mgr Ob A Inf R)
    (ops : list (option (list Z) * list (trans Ob A Inf R))),
  c_init r0 n0 num c = Ok m ->
  rmap (fun x => (v_m (fst x), snd x)) (vc_run r0 radd last_frame o (v_copy (mkV m None)) ops) = c_run r0 radd last_frame o m ops.
Proof.
  intros Ob A Inf R r0 radd lf o n0 num c m ops H. apply (vc_run_view r0 radd lf o ops (v_copy (mkV m None))). right.
  unfold c_init, guard in H. destruct (0 <? num); [|discriminate]. destruct (0 <? c); [|discriminate]. injection H as <-. reflexivity.
Qed.
