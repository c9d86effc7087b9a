(** * Episodes in the buffer, as the collector looks them up *)
From Verif Require Import Py PyLemmas BufferModel BufferSpec BufferProofs BufferMainProofs ManagerModel ManagerSpec ManagerProofs ManagerMainProofs
  GetIndicesModel GetIndicesProofs CollectModel CollectSpec CollectRoundProofs.
From Coq Require Import Sorted.
Open Scope nat_scope.

(** ** Parts of rounds *)
Lemma part_none {T} e ids (l : list T) : ~ In e ids -> part e (ids, l) = [].
Proof.
  unfold part. cbn [fst snd]. revert l. induction ids as [|i ids IH]; intros [|x l] H; try reflexivity.
  cbn. destruct (i =? e) eqn:E; [apply Nat.eqb_eq in E; subst; exfalso; apply H; left; reflexivity|]. apply IH. intro K. apply H. right. exact K.
Qed.
Lemma part_cons {T} e i ids (x : T) l : part e (i :: ids, x :: l) = (if i =? e then [x] else []) ++ part e (ids, l).
Proof. unfold part. cbn. destruct (i =? e); reflexivity. Qed.
Lemma part_single {T} e ids : forall (l : list T) j x, NoDup ids -> nth_error ids j = Some e -> nth_error l j = Some x -> part e (ids, l) = [x].
Proof.
  induction ids as [|i ids IH]; intros [|y l] [|j] x N H1 H2; try discriminate; inversion N; subst; cbn in H1, H2; rewrite part_cons.
  - injection H1 as ->. injection H2 as ->. rewrite Nat.eqb_refl, part_none by assumption. reflexivity.
  - destruct (i =? e) eqn:E; [apply Nat.eqb_eq in E; subst; exfalso; apply nth_error_In in H1; contradiction|]. cbn. eapply IH; eauto.
Qed.
Lemma part_app {T} e ids1 (l1 : list T) ids2 l2 : length l1 = length ids1 -> part e (ids1 ++ ids2, l1 ++ l2) = part e (ids1, l1) ++ part e (ids2, l2).
Proof.
  revert l1. induction ids1 as [|i ids1 IH]; intros [|x l1] H; try discriminate; [reflexivity|]. cbn [app]. rewrite !part_cons, IH by (cbn in H; lia). apply app_assoc.
Qed.
Lemma part_map {T U} (f : T -> U) e ids : forall l, part e (ids, map f l) = map f (part e (ids, l)).
Proof.
  induction ids as [|i ids IH]; intros [|x l]; try reflexivity. cbn [map]. rewrite !part_cons, IH, map_app. destruct (i =? e); reflexivity.
Qed.
Lemma parts_app {T} e (r1 r2 : list (list nat * list T)) : parts e (r1 ++ r2) = parts e r1 ++ parts e r2.
Proof. unfold parts. rewrite map_app, concat_app. reflexivity. Qed.
Lemma parts_one {T} e (r : list nat * list T) : parts e [r] = part e r.
Proof. unfold parts. cbn. apply app_nil_r. Qed.
Lemma mine_nat N e i : e < N -> i < N -> mine N e (Z.of_nat i) = (i =? e).
Proof. intros He Hi. unfold mine. rewrite Z.mod_small by lia. destruct (Nat.eqb_spec i e), (Z.eqb_spec (Z.of_nat i) (Z.of_nat e)); lia. Qed.
Lemma select_part {T} N e ids (l : list T) : e < N -> (forall i, In i ids -> i < N) -> select N e (combine (map Z.of_nat ids) l) = part e (ids, l).
Proof.
  intros He. revert l. induction ids as [|i ids IH]; intros [|x l] H; try reflexivity.
  cbn [map combine]. rewrite select_cons, part_cons, IH by (intros; apply H; right; assumption). cbn [fst snd].
  rewrite mine_nat by (auto; apply H; left; reflexivity). destruct (i =? e); reflexivity.
Qed.

(** ** Histories *)
Section Episode.
Context {Ob A Inf R : Type}.
Notation trans := (trans Ob A Inf R).
Notation aop := (aop Ob A Inf R).
Notation mop := (mop Ob A Inf R).
Notation mgr := (mgr Ob A Inf R).
Notation slot := (slot Ob A Inf R).
Lemma proj_app N k (l1 l2 : list mop) : proj N k (l1 ++ l2) = proj N k l1 ++ proj N k l2.
Proof. induction l1 as [|[ids ts|keep] l1 IH]; cbn; rewrite ?IH, ?app_assoc; reflexivity. Qed.
Lemma proj_adds N e (rds : list (list nat * list trans)) : e < N -> (forall rd i, In rd rds -> In i (fst rd) -> i < N) ->
  proj N e (as_adds rds) = map OpAdd (parts e rds).
Proof.
  intros He. induction rds as [|[ids ts] rds IH]; intro H; [reflexivity|].
  change (as_adds ((ids, ts) :: rds)) with (MAdd (Some (map Z.of_nat ids)) ts :: as_adds rds). cbn [proj].
  rewrite IH by (intros rd i K; apply H; right; exact K). rewrite select_part; [|exact He|intros i Hi; apply (H (ids, ts)); [left; reflexivity|exact Hi]].
  change ((ids, ts) :: rds) with ([(ids, ts)] ++ rds). rewrite parts_app, parts_one, map_app. reflexivity.
Qed.
Lemma as_adds_app (r1 r2 : list (list nat * list trans)) : as_adds (r1 ++ r2) = as_adds r1 ++ as_adds r2.
Proof. unfold as_adds. apply map_app. Qed.

Lemma count_app (l1 l2 : list aop) : forall c, count_from c (l1 ++ l2) = count_from (count_from c l1) l2.
Proof. induction l1 as [|[t|k] l1 IH]; intro c; cbn; auto. Qed.
Lemma open_app (l1 l2 : list aop) : open_episode (l1 ++ l2) = fold_left open_step l2 (open_episode l1).
Proof. unfold open_episode. apply fold_left_app. Qed.

Lemma lastn_lastn {T} n (l : list T) x : lastn n (lastn n l ++ [x]) = lastn n (l ++ [x]).
Proof.
  apply nth_error_ext. intro i. rewrite !nth_error_lastn, !app_length, lastn_length. cbn [length].
  destruct (Nat.lt_ge_cases (length l + 1 - n + i) (length l)) as [H|H].
  - rewrite nth_error_app1 by (rewrite lastn_length; lia). rewrite nth_error_lastn, nth_error_app1 by lia. f_equal. lia.
  - rewrite !nth_error_app2 by (rewrite ?lastn_length; lia). f_equal. rewrite lastn_length. lia.
Qed.

Lemma zrange_seq l (f : nat -> Z) n : length l = n -> (forall j, j < n -> nth_error l j = Some (f j)) -> l = map f (seq 0 n).
Proof.
  intros L H. apply nth_error_ext. intro j. rewrite nth_error_map_seq. destruct (Nat.ltb_spec j n) as [K|K]; [apply H; exact K|].
  apply nth_error_None. lia.
Qed.
Lemma sorted_edges ns a : (forall n, In n ns -> 0 < n) -> StronglySorted Z.lt (map Z.of_nat (offsets a ns ++ [a + list_sum ns])).
Proof.
  revert a. induction ns as [|n ns IH]; intros a H; cbn; [repeat constructor|].
  assert (Hn : 0 < n) by (apply H; left; reflexivity).
  replace (a + (n + fold_right Init.Nat.add 0 ns)) with ((a + n) + list_sum ns) by (unfold list_sum; lia).
  constructor; [apply IH; intros; apply H; right; assumption|].
  rewrite Forall_forall. intros z Hz. apply in_map_iff in Hz. destruct Hz as (x & <- & Hx).
  enough (a + n <= x) by lia. clear - Hx. apply in_app_or in Hx. destruct Hx as [Hx|[<-|[]]]; [|lia].
  revert Hx. generalize (a + n). clear a n. induction ns as [|m ns IH]; intros a Hx; [contradiction|]. cbn in Hx. destruct Hx as [<-|Hx]; [lia|]. apply IH in Hx. lia.
Qed.
Lemma mod_wrap n a b : 0 < n -> a <= b -> b + 1 - a < n ->
  b mod n + 1 <> a mod n /\ b + 1 - a + a mod n = b mod n + 1 + (if a mod n <? b mod n + 1 then 0 else n).
Proof.
  intros Hn Hab Hl. pose proof (Nat.div_mod a n ltac:(lia)) as Da. pose proof (Nat.div_mod b n ltac:(lia)) as Db.
  pose proof (Nat.mod_upper_bound a n ltac:(lia)) as Ua. pose proof (Nat.mod_upper_bound b n ltac:(lia)) as Ub.
  set (qa := a / n) in *. set (qb := b / n) in *. set (ra := a mod n) in *. set (rb := b mod n) in *. clearbody qa qb ra rb. clear - Hn Hab Hl Da Db Ua Ub.
  assert (Q : qb = qa \/ qb = S qa).
  { destruct (Nat.lt_trichotomy qb qa) as [K|[K|K]]; [exfalso|auto|].
    - assert (n * S qb <= n * qa) by (apply Nat.mul_le_mono_l; lia). rewrite Nat.mul_succ_r in *. lia.
    - destruct (Nat.eq_dec qb (S qa)); [auto|exfalso]. assert (n * S (S qa) <= n * qb) by (apply Nat.mul_le_mono_l; lia). rewrite !Nat.mul_succ_r in *. lia. }
  destruct Q as [-> | ->]; rewrite ?Nat.mul_succ_r in *; destruct (Nat.ltb_spec ra (rb + 1)); lia.
Qed.

(** ** Episodes in a stream *)
Definition add_all (x : list trans * list R) (ts : list trans) : list trans * list R := fold_left open_step (map OpAdd ts) x.
Lemma finished_app x (ts1 ts2 : list trans) : finished x (ts1 ++ ts2) = finished x ts1 ++ finished (add_all x ts1) ts2.
Proof. revert x. induction ts1 as [|t ts1 IH]; intro x; [reflexivity|]. cbn [app finished]. rewrite IH, app_assoc. reflexivity. Qed.
Lemma add_all_app x ts1 ts2 : add_all x (ts1 ++ ts2) = add_all (add_all x ts1) ts2.
Proof. unfold add_all. rewrite map_app, fold_left_app. reflexivity. Qed.
Lemma finished_count x (ts : list trans) : length (finished x ts) = length (filter ends ts).
Proof. revert x. induction ts as [|t ts IH]; intro x; [reflexivity|]. cbn [finished filter]. rewrite app_length, IH. destruct (ends t); reflexivity. Qed.
Lemma finished_rows x (ts : list trans) : concat (map fst (finished x ts)) ++ fst (add_all x ts) = fst x ++ ts.
Proof.
  revert x. induction ts as [|t ts IH]; intro x; [cbn; symmetry; apply app_nil_r|].
  cbn [finished]. rewrite map_app, concat_app, <- app_assoc. change (add_all x (t :: ts)) with (add_all (open_step x (OpAdd t)) ts). rewrite IH.
  cbn [open_step]. destruct (ends t); cbn [map concat fst app]; rewrite <- ?app_assoc; reflexivity.
Qed.

Variable r0 : R.
Variable radd : R -> R -> R.
Variable last_frame : Ob -> Ob.
Variable o : opts.
Notation kept := (kept last_frame o).

Lemma m_run_app l1 l2 : forall (m : mgr), m_run r0 radd last_frame o m (l1 ++ l2)
  = let* x := m_run r0 radd last_frame o m l1 in let* y := m_run r0 radd last_frame o (fst x) l2 in Ok (fst y, snd x ++ snd y).
Proof.
  induction l1 as [|[ids ts|keep] l1 IH]; intro m.
  - cbn. destruct (m_run r0 radd last_frame o m l2) as [[m' outs]|]; reflexivity.
  - cbn [app m_run]. destruct (m_add r0 radd last_frame o m ids ts) as [[m1 reps]|]; [|reflexivity]. cbn [bind fst snd]. rewrite IH.
    destruct (m_run r0 radd last_frame o m1 l1) as [[m2 outs2]|]; [|reflexivity]. cbn [bind fst snd].
    destruct (m_run r0 radd last_frame o m2 l2) as [[m3 outs3]|]; [|reflexivity]. cbn [bind fst snd]. rewrite app_assoc. reflexivity.
  - cbn [app m_run]. apply IH.
Qed.

Lemma epi_run_app n l1 l2 : forall e : epi R, epi_run r0 radd n e (l1 ++ l2)
  = (fst (epi_run r0 radd n (fst (epi_run r0 radd n e l1)) l2), snd (epi_run r0 radd n e l1) ++ snd (epi_run r0 radd n (fst (epi_run r0 radd n e l1)) (l2 : list aop))).
Proof.
  induction l1 as [|op l1 IH]; intro e; [apply surjective_pairing|].
  cbn [app epi_run]. destruct (epi_step r0 radd n e op) as [e' r] eqn:E. rewrite IH.
  destruct (epi_run r0 radd n e' l1) as [e2 rs]. cbn [fst snd]. destruct r; reflexivity.
Qed.
Lemma queue_app n (l1 l2 : list aop) : forall q, queue_from last_frame o n q (l1 ++ l2) = queue_from last_frame o n (queue_from last_frame o n q l1) l2.
Proof. induction l1 as [|[t|k] l1 IH]; intro q; cbn; auto. Qed.
(** The abstract bookkeeping, the open episode and the content of the buffer belong together. *)
Lemma epi_open n (ops : list aop) : let E := fst (epi_run r0 radd n epi0 ops) in let x := open_episode ops in
  e_cnt E = count_from 0 ops /\ e_rews E = snd x /\ e_start E + length (fst x) = e_cnt E
  /\ exists pre, queue last_frame o n ops = lastn n (pre ++ map kept (fst x)) /\ length pre = e_start E.
Proof.
  induction ops as [|op ops IH] using rev_ind.
  - cbn. split; [reflexivity|]. split; [reflexivity|]. split; [reflexivity|]. exists []. split; [|reflexivity]. unfold lastn. cbn. reflexivity.
  - cbn zeta in *. rewrite epi_run_app, open_app, count_app. unfold queue in *. rewrite queue_app. cbn [fst snd].
    set (E := fst (epi_run r0 radd n epi0 ops)) in *. set (x := open_episode ops) in *. destruct IH as (H1 & H2 & H3 & pre & H4 & H5).
    cbn [epi_run fold_left]. destruct op as [t|keep]; cbn [epi_step open_step count_from queue_from].
    + change (t_term t || t_trunc t) with (ends t). destruct (ends t); cbn [fst snd e_cnt e_start e_rews].
      * split; [lia|]. split; [reflexivity|]. split; [cbn; lia|]. exists (pre ++ map kept (fst x) ++ [kept t]).
        split; [unfold push; rewrite H4, lastn_lastn, app_nil_r, app_assoc; reflexivity|]. rewrite !app_length, map_length. cbn. lia.
      * split; [lia|]. split; [rewrite H2; reflexivity|]. split; [rewrite app_length; cbn; lia|]. exists pre.
        split; [|exact H5]. unfold push. rewrite H4, lastn_lastn, map_app, app_assoc. reflexivity.
    + cbn [fst snd e_cnt e_start e_rews]. split; [reflexivity|]. split; [destruct keep; [exact H2|reflexivity]|]. split; [reflexivity|]. exists []. split; reflexivity.
Qed.

(** ** Looking up a finished episode *)
Lemma lookup_episode ns (ops : list mop) m outs e n ops' t :
  (forall n, In n ns -> 0 < n) -> 0 < stack_num o -> nth_error ns e = Some n ->
  m_run r0 radd last_frame o (m_init r0 ns) ops = Ok (m, outs) ->
  proj (length ns) e ops = ops' ++ [OpAdd t] ->
  let rows := fst (open_episode ops') in
  let E := fst (epi_run r0 radd n epi0 ops') in
  S (length rows) < n ->
  exists batch idx, get_buffer_indices (map Z.of_nat (m_edges m)) (Z.of_nat (e_start E mod n + off ns e)) (Z.of_nat (e_cnt E mod n + off ns e) + 1) = Ok idx
    /\ m_getitem o m idx = Ok batch /\ map (@o_cur _ _ _ _) batch = map (fun t => Some (kept t)) (rows ++ [t]).
Proof.
  intros Hpos Hk Hn Hrun Hp rows E HL.
  assert (Hn0 : 0 < n) by (apply Hpos; eapply nth_error_In; eauto).
  destruct (epi_open n ops') as (P1 & P2 & P3 & pre & P4 & P5). fold E rows in P1, P2, P3, P4, P5.
  set (L := S (length rows)) in *.
  assert (EL : e_cnt E + 1 - e_start E = L) by (unfold L; lia).
  destruct (mod_wrap n (e_start E) (e_cnt E)) as [W1 W2]; [lia|lia|lia|]. rewrite EL in W2.
  assert (Edges : m_edges m = offsets 0 ns ++ [0 + list_sum ns]).
  { destruct (run_view r0 radd last_frame o ns ops m outs Hpos Hrun) as (_ & _ & _ & _ & bs & Hs & _).
    unfold m_edges, m_offsets, m_total, m_sizes. rewrite (s_bufs _ _ _ Hs), map_map. change (fun x => maxsize (b_st x)) with (@bmax Ob A Inf R).
    rewrite (s_sizes _ _ _ Hs). reflexivity. }
  pose proof (sorted_edges ns 0 Hpos) as Hsort. rewrite <- Edges in Hsort.
  assert (Le : e < length ns) by (eapply nth_error_lt; eauto).
  assert (H1 : nth_error (map Z.of_nat (m_edges m)) e = Some (Z.of_nat (off ns e))).
  { rewrite nth_error_map, Edges, nth_error_app1 by (rewrite offsets_length; lia). rewrite nth_error_offsets by lia. reflexivity. }
  assert (H2 : nth_error (map Z.of_nat (m_edges m)) (S e) = Some (Z.of_nat (off ns e + n))).
  { rewrite nth_error_map, Edges. destruct (Nat.eq_dec (S e) (length ns)) as [Q|Q].
    - rewrite nth_error_app2 by (rewrite offsets_length; lia). rewrite offsets_length, Q, Nat.sub_diag. cbn [nth_error option_map]. do 2 f_equal.
      rewrite <- (off_S ns e n Hn). rewrite Q. unfold off. rewrite firstn_all. lia.
    - rewrite nth_error_app1 by (rewrite offsets_length; lia). rewrite nth_error_offsets by lia. cbn [option_map Nat.add]. rewrite (off_S ns e n Hn). reflexivity. }
  pose proof (Nat.mod_upper_bound (e_start E) n ltac:(lia)) as Ua. pose proof (Nat.mod_upper_bound (e_cnt E) n ltac:(lia)) as Ub.
  destruct (C07_get_buffer_indices_lemma _ e _ _ (Z.of_nat (e_start E mod n + off ns e)) (Z.of_nat (e_cnt E mod n + off ns e) + 1)%Z Hsort H1 H2) as [HI _]; [lia|].
  destruct HI as (idx & G1 & G2 & G3); [lia|lia|].
  assert (Lidx : length idx = L).
  { destruct (Z.ltb_spec (Z.of_nat (e_start E mod n + off ns e)) (Z.of_nat (e_cnt E mod n + off ns e) + 1)); destruct (Nat.ltb_spec (e_start E mod n) (e_cnt E mod n + 1)); lia. }
  set (q := mqueue last_frame o ns ops e).
  assert (Eq : q = lastn n (pre ++ map kept (rows ++ [t]))).
  { unfold q, mqueue. rewrite Hn, Hp. unfold queue in *. rewrite queue_app. cbn [queue_from]. unfold push. rewrite P4, lastn_lastn, map_app, app_assoc. reflexivity. }
  assert (Lq : length q = Nat.min (e_cnt E + 1) n).
  { rewrite Eq, lastn_length, app_length, map_length, app_length. cbn [length]. lia. }
  assert (Eidx : idx = map (fun x => Z.of_nat (maddress ns ops x)) (map (fun j => (e, length q - L + j)) (seq 0 L))).
  { rewrite map_map. apply zrange_seq; [exact Lidx|]. intros j Hj. rewrite G3 by lia. f_equal. unfold maddress, place. cbn [fst snd].
    rewrite (nth_error_nth _ _ _ Hn), Hp, count_app. cbn [count_from]. rewrite <- P1.
    replace (S (e_cnt E) - Nat.min (S (e_cnt E)) n + (length q - L + j)) with (e_start E + j) by (rewrite Lq; unfold L in *; lia).
    replace (Z.of_nat (off ns e + n) - Z.of_nat (off ns e))%Z with (Z.of_nat n) by lia.
    rewrite <- (Nat.add_mod_idemp_l (e_start E) j n) by lia. rewrite (Nat2Z.inj_add (off ns e)), (Nat2Z.inj_mod (e_start E mod n + j)). do 2 f_equal. lia. }
  pose proof (C57_stacking_lemma _ _ _ _ r0 radd last_frame o ns ops m outs (map (fun j => (e, length q - L + j)) (seq 0 L)) Hpos Hk Hrun) as G. cbv zeta in G.
  rewrite <- Eidx in G. eexists. exists idx. split; [exact G1|]. split; [apply G|].
  - unfold L. cbn. discriminate.
  - intros x Hx. apply in_map_iff in Hx. destruct Hx as (j & <- & Hj). apply in_seq in Hj. cbn [fst snd]. fold q. unfold L in *. lia.
  - rewrite !map_map. cbn [o_cur fst snd]. fold q. apply nth_error_ext. intro j. rewrite nth_error_map_seq, nth_error_map. cbn [Nat.add].
    destruct (Nat.ltb_spec j L) as [Hj|Hj].
    + rewrite Eq at 1. rewrite nth_error_lastn, app_length, map_length, app_length. cbn [length].
      rewrite nth_error_app2 by (unfold L in *; lia). rewrite nth_error_map.
      replace (length pre + (length rows + 1) - n + (length q - L + j) - length pre) with j by (unfold L in *; lia).
      destruct (nth_error (rows ++ [t]) j) eqn:X; [reflexivity|]. apply nth_error_None in X. rewrite app_length in X. cbn in X. unfold L in *. lia.
    + destruct (nth_error (rows ++ [t]) j) eqn:X; [|reflexivity]. apply nth_error_lt in X. rewrite app_length in X. cbn in X. unfold L in *. lia.
Qed.

End Episode.
