(** * The properties of HERReplayBufferManager *)
From Verif Require Import Py PyLemmas BufferModel BufferSpec BufferProofs BufferWalkProofs BufferMainProofs ReturnsProofs
  ManagerModel ManagerSpec ManagerProofs ManagerWalkProofs ManagerMainProofs HerModel HerSpec HerProofs HerMainProofs HmgrModel HmgrSpec.
Open Scope nat_scope.

Section Hm.
Context {Ob0 G A Inf R : Type}.
Notation slot := (slot (gobs Ob0 G) A Inf R).
Notation bst := (bst R).
Notation buf := (buf (gobs Ob0 G) A Inf R).
Notation mgr := (mgr (gobs Ob0 G) A Inf R).
Notation her := (her Ob0 G A Inf R).
Notation hmgr := (hmgr Ob0 G A Inf R).

(** ** The flat rows and the sub-buffers' rows *)
Definition brows (b : buf) : list (option slot) := meta_rows 0 (b_meta b).
Definition fits (h : her) (b : buf) : Prop :=
  b_st (h_buf h) = b_st b /\ (b_meta (h_buf h) = None <-> b_meta b = None) /\ length (brows (h_buf h)) = length (brows b).
Lemma hrel_fits (h : her) (b : buf) : hrel h b -> fits h b.
Proof.
  intros (H1 & H2 & H3). split; [exact H2|]. unfold restore_cache, brows in *. destruct h as [[s mm] alt]. cbn [h_alt h_buf b_meta b_st] in *.
  destruct alt as [|a l]; [injection H1 as <-; cbn; tauto|].
  injection H1 as <-. cbn [b_meta]. destruct mm as [mm|]; cbn [option_map meta_rows].
  - split; [split; discriminate|]. symmetry. exact (write_rows_length (a :: l) mm).
  - split; [tauto | reflexivity].
Qed.
Lemma slice_app {T} (pre r rest : list T) : slice (length pre) (length r) (pre ++ r ++ rest) = r.
Proof. unfold slice. rewrite skipn_app, skipn_all, Nat.sub_diag. cbn [skipn app]. rewrite firstn_app, firstn_all, Nat.sub_diag. apply app_nil_r. Qed.
Lemma children_none : forall (ss : list bst) a, children_from a ss None = map (fun s => mkBuf (Ob := gobs Ob0 G) (A := A) (Inf := Inf) s None) ss.
Proof. induction ss as [|s ss IH]; intros a; [reflexivity|]. cbn [children_from map option_map]. rewrite IH. reflexivity. Qed.
Lemma split_rows : forall (ss : list bst) (hs : list her) pre,
  Forall2 (fun h s => b_st (h_buf h) = s /\ exists r, b_meta (h_buf h) = Some r /\ length r = maxsize s) hs ss ->
  children_from (length pre) ss (Some (pre ++ concat (map (fun h => brows (h_buf h)) hs))) = map h_buf hs.
Proof.
  induction ss as [|s ss IH]; intros hs pre H; inversion H as [|h s0 hs' ss0 (H1 & r & H2 & H3) HF]; subst; [reflexivity|].
  cbn [children_from map concat]. assert (EB : brows (h_buf h) = r) by (unfold brows; rewrite H2; reflexivity). rewrite EB. cbn [option_map]. f_equal.
  - destruct (h_buf h) as [s' m']. cbn in *. rewrite H2. do 2 f_equal. rewrite <- H3. apply slice_app.
  - rewrite app_assoc. replace (length pre + maxsize (b_st (h_buf h))) with (length (pre ++ r)) by (rewrite app_length; lia). apply IH, HF.
Qed.
Lemma join_rows : forall (ss : list bst) (l : list (option slot)) pre, length l = list_sum (map maxsize ss) ->
  concat (map brows (children_from (length pre) ss (Some (pre ++ l)))) = l /\
  Forall (fun b => exists r, b_meta b = Some r /\ length r = maxsize (b_st b)) (children_from (length pre) ss (Some (pre ++ l))).
Proof.
  induction ss as [|s ss IH]; intros l pre H.
  - destruct l; [|discriminate H]. split; [reflexivity | constructor].
  - cbn [map] in H. unfold list_sum in H. cbn [fold_right] in H. fold (list_sum (map maxsize ss)) in H.
    rewrite <- (firstn_skipn (maxsize s) l). set (r := firstn (maxsize s) l). set (l' := skipn (maxsize s) l).
    assert (Hr : length r = maxsize s) by (unfold r; rewrite firstn_length; lia).
    assert (Hl : length l' = list_sum (map maxsize ss)) by (unfold l'; rewrite skipn_length; lia).
    clearbody r l'. clear H l. cbn [children_from map concat option_map]. rewrite <- Hr, slice_app.
    rewrite app_assoc. replace (length pre + length r) with (length (pre ++ r)) by apply app_length.
    destruct (IH l' (pre ++ r) Hl) as [E F]. split.
    + unfold brows at 1. cbn [b_meta meta_rows]. rewrite E. reflexivity.
    + constructor; [|exact F]. exists r. split; [reflexivity | exact Hr].
Qed.
(** A manager's rows fill the capacities. *)
Definition solid (m : mgr) : Prop := match m_meta m with None => True | Some l => length l = list_sum (map maxsize (m_bufs m)) end.
Lemma children_st : forall (ss : list bst) a (mm : meta_t (gobs Ob0 G) A Inf R), map b_st (children_from a ss mm) = ss.
Proof. induction ss as [|s ss IH]; intros a mm; [reflexivity|]. cbn [children_from map b_st]. rewrite IH. reflexivity. Qed.

(** [h] may hold relabelled rows of the manager [m]. *)
Definition hm_rel (h : hmgr) (m : mgr) : Prop :=
  Forall2 hrel (hm_children h) (children m) /\ m_bufs (hm_mgr h) = m_bufs m /\ m_last (hm_mgr h) = m_last m /\ m_lens (hm_mgr h) = m_lens m
  /\ (m_meta (hm_mgr h) = None <-> m_meta m = None).
Lemma alts_children (bs : list buf) (alts : list (list (nat * option slot))) : length alts = length bs ->
  map h_buf (map (fun x => mkHer (fst x) (snd x)) (combine bs alts)) = bs /\ map h_alt (map (fun x => mkHer (fst x) (snd x)) (combine bs alts)) = alts.
Proof.
  revert alts. induction bs as [|b bs IH]; intros [|a alts] H; try discriminate H; [split; reflexivity|].
  injection H as H. destruct (IH alts H) as [E1 E2]. cbn. rewrite E1, E2. split; reflexivity.
Qed.
Lemma recombine (hs : list her) : map (fun x => mkHer (fst x) (snd x)) (combine (map h_buf hs) (map h_alt hs)) = hs.
Proof. induction hs as [|[b a] hs IH]; [reflexivity|]. cbn. rewrite IH. reflexivity. Qed.
Lemma put_children (m m' : mgr) (hs : list her) : solid m -> m_bufs m' = m_bufs m -> (m_meta m' = None <-> m_meta m = None) ->
  Forall2 fits hs (children m) -> hm_children (put m' hs) = hs.
Proof.
  intros HS HB HN HF. unfold hm_children, put, children. cbn [hm_mgr hm_alts m_bufs m_meta].
  transitivity (map (fun x => mkHer (fst x) (snd x)) (combine (map h_buf hs) (map h_alt hs))); [|apply recombine]. f_equal. f_equal.
  rewrite HB. unfold solid in HS. unfold children in HF. destruct (m_meta m) as [l|] eqn:EM.
  - destruct (m_meta m') as [l'|]; [|destruct HN as [HN _]; discriminate (HN eq_refl)].
    change (map (fun h : her => meta_rows 0 (b_meta (h_buf h))) hs) with (map (fun h : her => brows (h_buf h)) hs).
    apply (split_rows (m_bufs m) hs []).
    destruct (join_rows (m_bufs m) l [] HS) as [_ FJ]. cbn [length app] in FJ.
    rewrite <- (children_st (m_bufs m) 0 (Some l)) at 1.
    clear - HF FJ. induction HF as [|h b hs bs (F1 & F2 & F3) HF IH]; [constructor|]. inversion FJ as [|? ? (r & E & L) FJ']; subst. cbn [map]. constructor; [|apply IH, FJ'].
    split; [exact F1|]. unfold brows in F3. rewrite E in F2, F3. destruct (b_meta (h_buf h)) as [r'|]; [|destruct F2 as [F2 _]; discriminate (F2 eq_refl)].
    exists r'. split; [reflexivity|]. cbn in F3. congruence.
  - rewrite ((proj2 HN) eq_refl). rewrite children_none in HF |- *. clear - HF. revert hs HF. induction (m_bufs m) as [|s ss IH]; intros hs HF; inversion HF as [|h b hs' bs' (F1 & F2 & _) HF']; subst; [reflexivity|].
    cbn [map]. rewrite <- (IH _ HF'). destruct (h_buf h) as [s' mm]. cbn in F1, F2. destruct F2 as [_ F2]. rewrite (F2 eq_refl), F1. reflexivity.
Qed.
Lemma put_rel (m m' : mgr) (hs : list her) : solid m -> m_bufs m' = m_bufs m -> m_last m' = m_last m -> m_lens m' = m_lens m -> (m_meta m' = None <-> m_meta m = None) ->
  Forall2 hrel hs (children m) -> hm_rel (put m' hs) m.
Proof.
  intros HS HB HL HLn HN HF. split; [|split; [exact HB|split; [exact HL|split; [exact HLn|]]]].
  - rewrite (put_children m m' hs HS HB HN); [exact HF|]. clear - HF. induction HF; constructor; [apply hrel_fits; assumption | assumption].
  - unfold put. cbn [hm_mgr m_meta]. destruct (m_meta m') as [l|]; [|exact HN]. split; [discriminate|]. intros E. apply HN in E. discriminate E.
Qed.
(** The caches undo every relabelling. *)
Lemma rel_restore h m : solid m -> hm_rel h m -> hm_restore h = mkHM m (map (fun _ => []) (m_bufs m)).
Proof.
  intros HS (HF & HB & HL & HLn & HN). unfold hm_restore.
  assert (E : map restore_cache (hm_children h) = map (fun b => mkHer b []) (children m)).
  { clear - HF. induction HF as [|x b hs bs (H1 & _) HF IH]; [reflexivity|]. cbn [map]. rewrite H1, IH. reflexivity. }
  rewrite E. unfold put. f_equal.
  - rewrite HB, HL, HLn. destruct m as [ss mm la le]. cbn [m_bufs m_meta m_last m_lens] in *. f_equal. unfold solid in HS. cbn in HS.
    destruct (m_meta (hm_mgr h)) as [l'|]; destruct mm as [l|]; try reflexivity; [|destruct HN as [_ HN]; discriminate (HN eq_refl)|destruct HN as [HN _]; discriminate (HN eq_refl)].
    f_equal. rewrite map_map. cbn [h_buf]. unfold children. cbn [m_bufs m_meta]. exact (proj1 (join_rows ss l [] HS)).
  - rewrite map_map. cbn [h_alt]. unfold children. clear. generalize 0. induction (m_bufs m) as [|s ss IH]; intros a; [reflexivity|]. cbn [children_from map]. rewrite IH. reflexivity.
Qed.
Lemma rel_refl m (alts : list (list (nat * option slot))) : alts = map (fun _ => []) (m_bufs m) -> hm_rel (mkHM m alts) m.
Proof.
  intros ->. split; [|repeat split; auto]. unfold hm_children. cbn [hm_mgr hm_alts]. unfold children. generalize 0. generalize (m_meta m) as mm.
  induction (m_bufs m) as [|s ss IH]; intros mm a; [constructor|]. cbn [children_from map combine fst snd]. constructor; [apply hrel_refl | apply IH].
Qed.
Lemma view_solid ns (m : mgr) qs : mview ns m qs -> solid m /\ map maxsize (m_bufs m) = ns.
Proof.
  intros (bs & Hs & _). assert (E : map maxsize (m_bufs m) = ns) by (rewrite (s_bufs _ _ _ Hs), map_map; exact (s_sizes _ _ _ Hs)).
  split; [|exact E]. unfold solid. destruct (m_meta m) as [l|] eqn:EM; [|exact Logic.I]. rewrite E. apply (meta_length ns m bs l Hs EM).
Qed.

(** ** Sampling *)
Variable rew_fn : G -> G -> R.
Definition plain_samples (o : opts) (k0 : nat) (bs : list buf) (rnd : nat -> nat -> nat) (zs : list Z) : res (list (list nat)) :=
  mapM (fun x => let '(k, (b, z)) := x in sample_indices o b (rnd k) (Some z)) (combine (seq k0 (length bs)) (combine bs zs)).
Definition oks (o : opts) (b : buf) : Prop := exists n q, inv n b q /\ Forall (shape o) q.
Lemma child_sim o rnd horizon offs hsel : stack_num o = 1 -> forall (hs : list her) (bs : list buf), Forall2 hrel hs bs -> Forall (oks o) bs -> forall zs k0, length zs = length bs ->
  match plain_samples o k0 bs rnd zs with
  | Ok ls => exists xs, child_samples rew_fn o k0 hs rnd zs horizon offs hsel = Ok xs /\ map snd xs = ls /\ Forall2 hrel (map fst xs) bs /\
      length xs = length bs /\ forall i x b, nth_error xs i = Some x -> nth_error bs i = Some b ->
        rewrite_transitions rew_fn o (mkHer b []) (snd x) horizon (offs (k0 + i)) (hsel (k0 + i)) = Ok (fst x) /\ forall j, In j (snd x) -> j < size (b_st b)
  | Err e => child_samples rew_fn o k0 hs rnd zs horizon offs hsel = Err e end.
Proof.
  intros Ho hs bs HF. induction HF as [|h b hs bs HR HF IH]; intros HK zs k0 HZ.
  - cbn. exists []. repeat split; try constructor; destruct i; discriminate.
  - destruct zs as [|z zs]; [discriminate HZ|]. injection HZ as HZ. inversion HK as [|? ? (n & q & Hi & Hsh) HK']; subst.
    specialize (IH HK' zs (S k0) HZ). unfold plain_samples, child_samples in *. cbn [length seq combine mapM].
    destruct HR as (R1 & R2 & R3).
    destruct (sample_indices o b (rnd k0) (Some z)) as [l|e] eqn:ES; cbn [bind].
    2:{ unfold h_sample at 1. rewrite R1. cbn [h_buf]. rewrite ES. reflexivity. }
    pose proof (sample_in n b q o (rnd k0) (Some z) l Hi Ho ES) as HI.
    destruct (rewrite_hrel rew_fn n b q o l horizon (offs k0) (hsel k0) Hi Hsh Ho HI) as (h1 & E1 & HR1).
    assert (EH : h_sample rew_fn o h (rnd k0) (Some z) horizon (offs k0) (hsel k0) = Ok (h1, l)).
    { unfold h_sample. rewrite R1. cbn [h_buf]. rewrite ES. cbn [bind]. rewrite E1. reflexivity. }
    destruct (mapM _ (combine (seq (S k0) (length bs)) (combine bs zs))) as [ls|e]; cbn [bind].
    + destruct IH as (xs & EX & E2 & E3 & E4 & E5). exists ((h1, l) :: xs). rewrite EH. cbn [bind]. rewrite EX. cbn [bind]. split; [reflexivity|].
      split; [cbn; congruence|]. split; [constructor; assumption|]. split; [cbn; congruence|]. intros [|i] x b'; cbn [nth_error].
      * intros Q1 Q2. injection Q1 as <-. injection Q2 as <-. rewrite Nat.add_0_r. split; [exact E1 | exact HI].
      * rewrite Nat.add_succ_r. apply E5.
    + rewrite EH. cbn [bind]. rewrite IH. reflexivity.
Qed.
Lemma shifts o rnd : forall (bs : list buf) zs os k0, length os = length bs -> length zs = length bs ->
  mapM (fun x => let '(k, (off, (b, n))) := x in let* u := sample_indices o b (rnd k) (Some n) in Ok (map (fun i => i + off) u))
    (combine (seq k0 (length bs)) (combine os (combine bs zs)))
  = let* ls := plain_samples o k0 bs rnd zs in Ok (map (fun x => map (fun i => i + fst x) (snd x)) (combine os ls)).
Proof.
  clear rew_fn. induction bs as [|b bs IH]; intros zs os k0 HO HZ.
  - destruct os; [|discriminate HO]. reflexivity.
  - destruct os as [|f os]; [discriminate HO|]. destruct zs as [|z zs]; [discriminate HZ|]. injection HO as HO. injection HZ as HZ.
    unfold plain_samples. cbn [length seq combine mapM]. destruct (sample_indices o b (rnd k0) (Some z)) as [l|e]; cbn [bind]; [|reflexivity].
    rewrite (IH zs os (S k0) HO HZ). unfold plain_samples. destruct (mapM _ (combine (seq (S k0) (length bs)) (combine bs zs))) as [ls|e]; reflexivity.
Qed.
Lemma bincount_length n l : length (bincount n l) = n.
Proof. clear. unfold bincount. rewrite map_length. apply seq_length. Qed.
Lemma hm_length (h : hmgr) m : hm_rel h m -> length (hm_children h) = length (m_bufs m).
Proof. clear. intros (HF & _). rewrite <- (children_length 0 (m_bufs m) (m_meta m)). fold (children m). induction HF; cbn; congruence. Qed.
(** One sampling on both sides. *)
Lemma sample_sim o h m rb rnd bs horizon offs hsel : stack_num o = 1 -> solid m -> hm_rel h m -> Forall (oks o) (children m) ->
  match m_sample_indices o m rb rnd bs with
  | Ok l => exists h', hm_sample rew_fn o h rb rnd bs horizon offs hsel = Ok (h', l) /\ hm_rel h' m
      /\ (match bs with Some z => (0 <= z)%Z | None => True end -> exists xs, Forall2 hrel (map fst xs) (children m) /\ length xs = length (children m)
           /\ h' = put (hm_mgr h) (map fst xs) /\ l = shifted (m_offsets m) (map snd xs)
           /\ forall i x b, nth_error xs i = Some x -> nth_error (children m) i = Some b ->
                rewrite_transitions rew_fn o (mkHer b []) (snd x) horizon (offs i) (hsel i) = Ok (fst x) /\ forall j, In j (snd x) -> j < size (b_st b))
  | Err e => hm_sample rew_fn o h rb rnd bs horizon offs hsel = Err e end.
Proof.
  intros Ho HS HR HK. assert (HL := hm_length h m HR). pose proof HR as (HF & HB & HLa & HLn & HN).
  assert (LC : length (children m) = length (m_bufs m)) by (unfold children; apply children_length).
  assert (LO : length (m_offsets m) = length (children m)) by (unfold m_offsets, m_sizes; rewrite offsets_length, map_length; congruence).
  unfold m_sample_indices, hm_sample. rewrite HB, HLn. replace (m_offsets (hm_mgr h)) with (m_offsets m) by (unfold m_offsets, m_sizes; rewrite HB; reflexivity).
  destruct (match bs with Some z => (z <? 0)%Z | None => false end) eqn:EN.
  { exists h. split; [reflexivity|]. split; [exact HR|]. intros HP. destruct bs as [z|]; [|discriminate EN]. lia. }
  rewrite Ho. change (1 <? 1) with false. rewrite andb_false_r.
  assert (Go : forall zs, length zs = length (m_bufs m) ->
     match (let* l := mapM (fun x => let '(k, (off, (b, n))) := x in let* u := sample_indices o b (rnd k) (Some n) in Ok (map (fun i => i + off) u))
                 (combine (seq 0 (length (m_bufs m))) (combine (m_offsets m) (combine (children m) zs))) in Ok (concat l)) with
     | Ok l => exists h', (let* xs := child_samples rew_fn o 0 (hm_children h) rnd zs horizon offs hsel in Ok (put (hm_mgr h) (map fst xs), shifted (m_offsets m) (map snd xs))) = Ok (h', l) /\ hm_rel h' m
      /\ (match bs with Some z => (0 <= z)%Z | None => True end -> exists xs, Forall2 hrel (map fst xs) (children m) /\ length xs = length (children m)
           /\ h' = put (hm_mgr h) (map fst xs) /\ l = shifted (m_offsets m) (map snd xs)
           /\ forall i x b, nth_error xs i = Some x -> nth_error (children m) i = Some b ->
                rewrite_transitions rew_fn o (mkHer b []) (snd x) horizon (offs i) (hsel i) = Ok (fst x) /\ forall j, In j (snd x) -> j < size (b_st b))
     | Err e => (let* xs := child_samples rew_fn o 0 (hm_children h) rnd zs horizon offs hsel in Ok (put (hm_mgr h) (map fst xs), shifted (m_offsets m) (map snd xs))) = Err e end).
  { intros zs HZ. rewrite <- LC. rewrite (shifts o rnd (children m) zs (m_offsets m) 0 LO) by congruence.
    pose proof (child_sim o rnd horizon offs hsel Ho (hm_children h) (children m) HF HK zs 0) as HC. rewrite LC in HC. specialize (HC HZ).
    destruct (plain_samples o 0 (children m) rnd zs) as [ls|e]; cbn [bind].
    - destruct HC as (xs & EX & E2 & E3 & E4 & E5). rewrite EX. cbn [bind]. eexists. rewrite E2. split; [reflexivity|]. split.
      + apply put_rel; assumption.
      + intros _. exists xs. split; [exact E3|]. split; [congruence|]. split; [reflexivity|]. split; [rewrite E2; reflexivity | exact E5].
    - rewrite HC. reflexivity. }
  destruct bs as [z|]; [|cbn [bind]; apply Go, repeat_length].
  destruct (z =? 0)%Z; [cbn [bind]; apply Go, repeat_length|].
  destruct (list_sum (m_lens m) =? 0); [reflexivity|]. cbn [bind]. apply Go. rewrite map_length. apply bincount_length.
Qed.
End Hm.

Section Run.
Context {Ob0 G A Inf R : Type}.
Variable r0 : R.
Variable radd : R -> R -> R.
Variable last_frame : gobs Ob0 G -> gobs Ob0 G.
Variable rew_fn : G -> G -> R.
Notation slot := (slot (gobs Ob0 G) A Inf R).
Notation buf := (buf (gobs Ob0 G) A Inf R).
Notation mgr := (mgr (gobs Ob0 G) A Inf R).
Notation hmgr := (hmgr Ob0 G A Inf R).
Notation hmop := (hmop Ob0 G A Inf R).

Lemma queue_shape o n : forall ops (q : list slot), Forall (shape o) q -> Forall (shape o) (queue_from last_frame o n q ops).
Proof.
  clear. induction ops as [|[t|k] ops IH]; intros q H; cbn [queue_from]; [exact H| |apply IH; constructor].
  apply IH, shape_push; [exact H|]. constructor; [|constructor]. unfold shape, kept. cbn [s_obs_next]. destruct (save_obs_next o); eauto.
Qed.
Lemma mqueue_shape o ns (ops : list (mop (gobs Ob0 G) A Inf R)) k : Forall (shape o) (mqueue last_frame o ns ops k).
Proof. clear. unfold mqueue. destruct (nth_error ns k); [apply queue_shape; constructor | constructor]. Qed.
Lemma m_run_app o : forall ops l2 (m : mgr), m_run r0 radd last_frame o m (ops ++ l2)
  = let* x := m_run r0 radd last_frame o m ops in let* y := m_run r0 radd last_frame o (fst x) l2 in Ok (fst y, snd x ++ snd y).
Proof.
  clear rew_fn. induction ops as [|[ids ts|keep] ops IH]; intros l2 m.
  - cbn [app m_run bind fst snd]. destruct (m_run _ _ _ _ m l2) as [[m' l]|]; reflexivity.
  - cbn [app m_run]. destruct (m_add r0 radd last_frame o m ids ts) as [[m1 r]|e]; cbn [bind fst snd]; [|reflexivity].
    rewrite IH. destruct (m_run r0 radd last_frame o m1 ops) as [[m2 r2]|e]; cbn [bind fst snd]; [|reflexivity].
    destruct (m_run r0 radd last_frame o m2 l2) as [[m3 r3]|e]; cbn [bind fst snd]; [|reflexivity]. rewrite app_assoc. reflexivity.
  - cbn [app m_run]. apply IH.
Qed.
Lemma view_oks o ns wr (m : mgr) outs : (forall n, In n ns -> 0 < n) -> m_run r0 radd last_frame o (m_init r0 ns) wr = Ok (m, outs) ->
  solid m /\ map maxsize (m_bufs m) = ns /\ Forall (oks o) (children m).
Proof.
  clear rew_fn. intros Hpos Hrun. destruct (run_view r0 radd last_frame o ns wr m outs Hpos Hrun) as (Hv & _).
  destruct (view_solid ns m _ Hv) as [HS HM]. split; [exact HS|]. split; [exact HM|].
  destruct (children_nth_inv ns m _ Hv) as (_ & _ & _ & _ & HC). apply Forall_forall. intros c Hc. apply In_nth_error in Hc as [k Hk].
  destruct (HC k c Hk) as (n & _ & Hi & _). exists n, (qat (map (mqueue last_frame o ns wr) (seq 0 (length ns))) k). split; [exact Hi|].
  rewrite qat_mqueue. apply mqueue_shape.
Qed.
(** Both managers under the same calls. *)
Lemma hm_run_sim o ns : stack_num o = 1 -> (forall n, In n ns -> 0 < n) -> forall ops wr (m : mgr) outs0 (h : hmgr),
  m_run r0 radd last_frame o (m_init r0 ns) wr = Ok (m, outs0) -> hm_rel h m ->
  match mp_run r0 radd last_frame o m ops with
  | Ok (m', outs) => exists h' outs1, hm_run r0 radd last_frame rew_fn o h ops = Ok (h', outs) /\ hm_rel h' m'
        /\ m_run r0 radd last_frame o (m_init r0 ns) (wr ++ writes ops) = Ok (m', outs1)
  | Err e => hm_run r0 radd last_frame rew_fn o h ops = Err e end.
Proof.
  intros Ho Hpos. induction ops as [|op ops IH]; intros wr m outs0 h Hrun HR.
  - cbn. exists h, outs0. rewrite app_nil_r. auto.
  - destruct (view_oks o ns wr m outs0 Hpos Hrun) as (HS & HM & HK). pose proof (rel_restore h m HS HR) as HT.
    destruct op as [ids ts|keep|rb rnd bs hz offs hsel]; cbn [mp_run hm_run writes].
    + unfold hm_add. rewrite HT. cbn [hm_mgr hm_alts].
      destruct (m_add r0 radd last_frame o m ids ts) as [[m1 r]|e] eqn:EA; cbn [bind fst snd]; [|reflexivity].
      assert (Hrun1 : exists o1, m_run r0 radd last_frame o (m_init r0 ns) (wr ++ [MAdd ids ts]) = Ok (m1, o1)).
      { rewrite m_run_app, Hrun. cbn [bind fst snd m_run]. rewrite EA. cbn [bind fst snd m_run]. eexists. reflexivity. }
      destruct Hrun1 as [o1 Hrun1]. destruct (view_oks o ns _ m1 o1 Hpos Hrun1) as (_ & HM1 & _).
      assert (HR1 : hm_rel (mkHM m1 (map (fun _ => []) (m_bufs m))) m1).
      { apply rel_refl. assert (L : length (m_bufs m) = length (m_bufs m1)) by (rewrite <- (map_length maxsize (m_bufs m)), <- (map_length maxsize (m_bufs m1)), HM, HM1; reflexivity).
        clear - L. revert L. generalize (m_bufs m) (m_bufs m1). induction l as [|a l IH]; intros [|b l'] L; try discriminate L; [reflexivity|]. injection L as L. cbn. rewrite (IH l' L). reflexivity. }
      specialize (IH _ m1 o1 _ Hrun1 HR1). rewrite <- app_assoc in IH. cbn [app] in IH.
      destruct (mp_run r0 radd last_frame o m1 ops) as [[m' outs]|e]; cbn [bind fst snd].
      * destruct IH as (h' & outs1 & E & HR' & E'). rewrite E. cbn [bind fst snd]. exists h', outs1. auto.
      * rewrite IH. reflexivity.
    + unfold hm_reset. rewrite HT. cbn [hm_mgr hm_alts].
      assert (Hrun1 : m_run r0 radd last_frame o (m_init r0 ns) (wr ++ [MReset keep]) = Ok (m_reset r0 keep m, outs0 ++ [])).
      { rewrite m_run_app, Hrun. reflexivity. }
      assert (HR1 : hm_rel (mkHM (m_reset r0 keep m) (map (fun _ => []) (m_bufs m))) (m_reset r0 keep m)).
      { apply rel_refl. unfold m_reset. cbn [m_bufs]. rewrite map_map. reflexivity. }
      specialize (IH _ _ _ _ Hrun1 HR1). rewrite <- app_assoc in IH. cbn [app] in IH.
      destruct (mp_run r0 radd last_frame o (m_reset r0 keep m) ops) as [[m' outs]|e]; cbn [bind fst snd].
      * destruct IH as (h' & outs1 & E & HR' & E'). rewrite E. cbn [bind fst snd]. exists h', outs1. auto.
      * rewrite IH. reflexivity.
    + pose proof (sample_sim rew_fn o h m rb rnd bs hz offs hsel Ho HS HR HK) as HX.
      destruct (m_sample_indices o m rb rnd bs) as [l|e]; cbn [bind fst snd]; [|rewrite HX; reflexivity].
      destruct HX as (h1 & E1 & HR1 & _). rewrite E1. cbn [bind fst snd]. specialize (IH wr m outs0 h1 Hrun HR1).
      destruct (mp_run r0 radd last_frame o m ops) as [[m' outs]|e]; cbn [bind fst snd].
      * destruct IH as (h' & outs1 & E & HR' & E'). rewrite E. cbn [bind fst snd]. exists h', outs1. auto.
      * rewrite IH. reflexivity.
Qed.
Lemma init_rel ns : hm_rel (hm_init (Ob0 := Ob0) (G := G) (A := A) (Inf := Inf) r0 ns) (m_init r0 ns).
Proof. clear. apply rel_refl. unfold m_init. cbn [m_bufs]. rewrite map_map. reflexivity. Qed.
End Run.

Section Rows.
Context {Ob0 G A Inf R : Type}.
Notation slot := (slot (gobs Ob0 G) A Inf R).
Notation buf := (buf (gobs Ob0 G) A Inf R).
Lemma nth_error_firstn_some {T} n : forall (l : list T) j x, nth_error (firstn n l) j = Some x -> nth_error l j = Some x.
Proof. induction n as [|n IH]; intros [|a l] [|j] x H; try discriminate H; cbn in *; auto. Qed.
Lemma nth_error_skipn {T} a : forall (l : list T) j, nth_error (skipn a l) j = nth_error l (a + j).
Proof. induction a as [|a IH]; intros [|b l] j; cbn; auto. destruct j; reflexivity. Qed.
Lemma nth_error_slice {T} (l : list T) a n j : j < n -> nth_error (slice a n l) j = nth_error l (a + j).
Proof.
  intros Hj. unfold slice. rewrite <- nth_error_skipn. generalize (skipn a l). clear l a. intros l. revert l j Hj.
  induction n as [|n IH]; intros [|x l] [|j] Hj; cbn; try lia; auto. apply IH. lia.
Qed.
Lemma flat_rel : forall (ss : list (bst R)) a (lh lm : list (option slot)),
  Forall2 rows_rel (children_from a ss (Some lh)) (children_from a ss (Some lm)) ->
  forall i x, a <= i < a + list_sum (map maxsize ss) -> nth_error lm i = Some (Some x) -> exists x', nth_error lh i = Some (Some x') /\ same_but_goal x x'.
Proof.
  induction ss as [|s ss IH]; intros a lh lm H i x Hi Hx; cbn [map] in Hi; unfold list_sum in Hi; cbn [fold_right] in Hi; [lia|].
  fold (list_sum (map maxsize ss)) in Hi. cbn [children_from] in H. inversion H as [|? ? ? ? H1 H2]; subst.
  destruct (Nat.lt_ge_cases i (a + maxsize s)) as [Hl|Hl]; [|apply (IH _ lh lm H2 i x); [lia|exact Hx]].
  specialize (H1 (i - a) x). cbn [b_meta option_map meta_rows] in H1. rewrite !nth_error_slice in H1 by lia. replace (a + (i - a)) with i in H1 by lia.
  exact (H1 Hx).
Qed.
End Rows.

(** C265. A HERReplayBufferManager ([stack_num] 1) returns from every sequence of add / reset / sample calls exactly what a plain
    ReplayBufferManager returns; what it would save (and what the next add / reset works on) is exactly the plain manager's state; and meanwhile
    its rows differ from the plain manager's in goals and rewards only. *)
Lemma C265_restore_lemma : forall (Ob0 G A Inf R : Type) (r0 : R) radd (last_frame : gobs Ob0 G -> gobs Ob0 G) rew_fn o ns (ops : list (hmop Ob0 G A Inf R)),
  stack_num o = 1 -> (forall n, In n ns -> 0 < n) ->
  match mp_run r0 radd last_frame o (m_init r0 ns) ops with
  | Ok (m, outs) =>
      exists h, hm_run r0 radd last_frame rew_fn o (hm_init r0 ns) ops = Ok (h, outs)
        /\ hm_saved h = m /\ m_bufs (hm_mgr h) = m_bufs m /\ m_last (hm_mgr h) = m_last m /\ m_lens (hm_mgr h) = m_lens m
        /\ forall i x, nth_error (meta_rows 0 (m_meta m)) i = Some (Some x) ->
             exists x', nth_error (meta_rows 0 (m_meta (hm_mgr h))) i = Some (Some x') /\ same_but_goal x x'
  | Err e => hm_run r0 radd last_frame rew_fn o (hm_init r0 ns) ops = Err e
  end.
Proof.
  intros Ob0 G A Inf R r0 radd lf rew_fn o ns ops Ho Hpos.
  pose proof (hm_run_sim r0 radd lf rew_fn o ns Ho Hpos ops [] (m_init r0 ns) [] (hm_init r0 ns) eq_refl (init_rel r0 ns)) as H.
  destruct (mp_run r0 radd lf o (m_init r0 ns) ops) as [[m outs]|e]; [|exact H].
  destruct H as (h & outs1 & E & HR & E'). cbn [app] in E'. destruct (view_oks r0 radd lf o ns _ m outs1 Hpos E') as (HS & HM & HK).
  exists h. split; [exact E|]. split; [unfold hm_saved; rewrite (rel_restore h m HS HR); reflexivity|].
  pose proof HR as (HF & HB & HLa & HLn & HN). split; [exact HB|]. split; [exact HLa|]. split; [exact HLn|].
  intros i x Hx. unfold solid in HS. destruct (m_meta m) as [lm|] eqn:EM; [|destruct i; discriminate Hx]. cbn [meta_rows] in Hx.
  destruct (m_meta (hm_mgr h)) as [lh|] eqn:EH; [|destruct HN as [HN _]; discriminate (HN eq_refl)]. cbn [meta_rows].
  apply (flat_rel (m_bufs m) 0 lh lm); [|split; [lia|]; rewrite Nat.add_0_l, <- HS; apply nth_error_Some; congruence|exact Hx].
  assert (EC : map h_buf (hm_children h) = children (hm_mgr h)).
  { assert (L : length (hm_children h) = length (children (hm_mgr h))).
    { rewrite (hm_length h m HR). unfold children. rewrite children_length, HB. reflexivity. }
    unfold hm_children in *. rewrite map_length, combine_length in L. rewrite map_map. cbn [h_buf].
    clear - L. revert L. generalize (children (hm_mgr h)) (hm_alts h). induction l as [|b l IH]; intros [|a l'] L; cbn in *; try reflexivity; try lia. rewrite IH; [reflexivity|lia]. }
  unfold children in EC at 1. rewrite HB, EH in EC. rewrite <- EC. unfold children in HF. rewrite EM in HF.
  clear - HF. induction HF as [|a b l l' (_ & _ & H) HF IH]; cbn [map]; constructor; assumption.
Qed.

(** C265. What one sampling rewrites ([horizon] at least the remaining episode lengths), in sub-buffer [k] with contents [q]: at most one goal
    position per episode with sampled transitions; it is a position of that same episode of that same sub-buffer, at or after every sampled
    position of it; the rows of that episode from its first sampled position on get the goal achieved there, and every other row is as stored -
    also when an earlier sampling had relabelled it. *)
Lemma C265_relabel_lemma : forall (Ob0 G A Inf R : Type) (r0 : R) radd (last_frame : gobs Ob0 G -> gobs Ob0 G) rew_fn o ns (ops : list (hmop Ob0 G A Inf R))
    h outs rnd_b rnd bs horizon offs hsel h' l k,
  stack_num o = 1 -> (forall n, In n ns -> 0 < n) -> k < length ns ->
  hm_run r0 radd last_frame rew_fn o (hm_init r0 ns) ops = Ok (h, outs) ->
  hm_sample rew_fn o h rnd_b rnd bs horizon offs hsel = Ok (h', l) -> match bs with Some z => (0 <= z)%Z | None => True end ->
  let q := mqueue last_frame o ns (writes ops) k in
  let at_ p := maddress ns (writes ops) (k, p) in
  let rows := meta_rows 0 (m_meta (hm_mgr h')) in
  (forall p, p < length q -> last_of q p < p + horizon) ->
  exists goal_pos : nat -> option nat,
    (forall x s f g, nth_error q x = Some s -> (exists p, In (at_ p) l /\ last_of q p = last_of q x /\ p <= x) ->
       goal_pos (last_of q x) = Some f -> achieved o q f = Some g -> nth_error rows (at_ x) = Some (Some (relabelled rew_fn o q x g s)))
    /\ (forall x s, nth_error q x = Some s -> (goal_pos (last_of q x) = None \/ ~ exists p, In (at_ p) l /\ last_of q p = last_of q x /\ p <= x) ->
       nth_error rows (at_ x) = Some (Some s))
    /\ (forall e f, goal_pos e = Some f ->
          f < length q /\ last_of q f = e /\ (exists g, achieved o q f = Some g)
          /\ (exists p, p < length q /\ In (at_ p) l /\ last_of q p = e) /\ (forall p, p < length q -> In (at_ p) l -> last_of q p = e -> p <= f))
    /\ ((forall j, hsel k j = true) -> forall p, p < length q -> In (at_ p) l -> exists f, goal_pos (last_of q p) = Some f)
    /\ ((forall j, hsel k j = false) -> forall e, goal_pos e = None).
Proof.
  intros Ob0 G A Inf R r0 radd lf rew_fn o ns ops h outs rb rnd bs hz offs hsel h' l k Ho Hpos Hk Hrun Hsam Hbs q at_ rows Hhz.
  pose proof (hm_run_sim r0 radd lf rew_fn o ns Ho Hpos ops [] (m_init r0 ns) [] (hm_init r0 ns) eq_refl (init_rel r0 ns)) as H.
  destruct (mp_run r0 radd lf o (m_init r0 ns) ops) as [[m outs0]|e]; [|rewrite H in Hrun; discriminate Hrun].
  destruct H as (h0 & outs1 & E & HR & E'). rewrite E in Hrun. injection Hrun as -> <-. cbn [app] in E'.
  destruct (view_oks r0 radd lf o ns _ m outs1 Hpos E') as (HS & HM & HK).
  destruct (run_view r0 radd lf o ns _ m outs1 Hpos E') as (Hv & _ & Hadr & _).
  set (qs := map (mqueue lf o ns (writes ops)) (seq 0 (length ns))) in *.
  destruct (children_nth_inv ns m qs Hv) as (_ & LC & _ & _ & HC).
  pose proof (sample_sim rew_fn o h m rb rnd bs hz offs hsel Ho HS HR HK) as HX.
  destruct (m_sample_indices o m rb rnd bs) as [l0|e]; [|rewrite HX in Hsam; discriminate Hsam].
  destruct HX as (h1 & E1 & _ & HX). rewrite E1 in Hsam. injection Hsam as -> ->. destruct (HX Hbs) as (xs & HF & LX & EP & EL & HW). clear HX.
  destruct (nth_error (children m) k) as [b|] eqn:EB; [|apply nth_error_None in EB; lia].
  destruct (HC k b EB) as (n & En & Hi & Hoff & Hst & Hnone). assert (EQ : qat qs k = q) by apply qat_mqueue. rewrite EQ in Hi.
  destruct (nth_error xs k) as [[hk idx]|] eqn:EX; [|apply nth_error_None in EX; lia].
  destruct (HW k _ b EX EB) as [HRW HI]. cbn [fst snd] in HRW, HI.
  pose proof (i_s _ _ _ Hi) as Hsi. pose proof (i_len _ _ _ Hi) as Hli.
  destruct (pos_list n (b_st b) idx Hsi HI) as (P & EI & HP).
  assert (Hat : forall p, p < length q -> at_ p = off ns k + pos (b_st b) p).
  { intros p Hp. unfold at_. apply Nat2Z.inj. rewrite <- Hadr; [apply maddr_nat; exact Hst|]. apply stored_mqueue. cbn [fst snd]. exact Hp. }
  assert (Hn : forall p, p < length q -> pos (b_st b) p < n).
  { intros p Hp. assert (Hp' : p < size (b_st b)) by (rewrite <- Hli; exact Hp). pose proof (all_indices_pos n (b_st b) Hsi) as EA.
    assert (pos (b_st b) p < size (b_st b)). { apply (all_indices_In n (b_st b) _ Hsi). rewrite EA. apply in_map, in_seq. lia. }
    destruct Hsi; lia. }
  (* membership *)
  assert (Hin : forall p, p < length q -> (In (at_ p) l <-> In p P)).
  { intros p Hp. rewrite (Hat p Hp), EL. unfold shifted. split.
    - intros HI1. apply in_concat in HI1 as (l1 & Hl1 & Hin1). apply in_map_iff in Hl1 as ([o1 ls] & <- & Hc). cbn [fst snd] in Hin1. apply in_map_iff in Hin1 as (j & Ej & Hj).
      apply In_nth_error in Hc as [k' Hk']. rewrite ManagerWalkProofs.nth_error_combine in Hk'. rewrite nth_error_map in Hk'.
      destruct (nth_error (m_offsets m) k') as [o2|] eqn:EO; [|discriminate Hk']. destruct (nth_error xs k') as [[hk' idx']|] eqn:EX'; [|discriminate Hk']. injection Hk' as -> <-. cbn [snd] in Hj.
      destruct (nth_error (children m) k') as [b'|] eqn:EB'; [|apply nth_error_None in EB'; assert (k' < length xs) by (apply nth_error_Some; congruence); lia].
      destruct (HC k' b' EB') as (n' & En' & Hi' & Hoff' & _). rewrite EO in Hoff'. injection Hoff' as ->.
      destruct (HW k' _ b' EX' EB') as [_ HI']. cbn [snd] in HI'. specialize (HI' j Hj).
      destruct (Nat.eq_dec k' k) as [->|Hne].
      + rewrite EX in EX'. injection EX' as _ <-. rewrite EI in Hj. apply in_map_iff in Hj as (p' & Ep & Hp'). assert (p = p'); [|congruence].
        apply (pos_inj n (b_st b)); [exact Hsi | lia | apply HP, Hp' | lia].
      + exfalso. apply (off_disjoint ns k' k n' n (j + off ns k') En' En Hne); [specialize (Hn p Hp); lia|].
        pose proof (i_s _ _ _ Hi') as Hs'. destruct Hs'. lia.
    - intros HPp. apply in_concat. exists (map (fun i => i + off ns k) idx). split.
      + apply in_map_iff. exists (off ns k, idx). split; [reflexivity|]. apply (nth_error_In _ k). rewrite ManagerWalkProofs.nth_error_combine, nth_error_map, Hoff, EX. reflexivity.
      + apply in_map_iff. exists (pos (b_st b) p). split; [lia|]. rewrite EI. apply in_map. exact HPp. }
  (* rows *)
  assert (Hrow : forall x, x < length q -> nth_error rows (at_ x) = nth_error (meta_rows n (b_meta (h_buf hk))) (pos (b_st b) x)).
  { intros x Hx. rewrite (Hat x Hx). assert (Hne : q <> []) by (intros C; rewrite C in Hx; cbn in Hx; lia).
    destruct (inv_meta n b q Hi Hne) as [mb Hmb]. destruct HR as (_ & HB & _ & _ & HN).
    assert (HM0 : m_meta m <> None) by (intros C; apply Hnone in C; congruence).
    unfold rows. rewrite EP. unfold put. cbn [hm_mgr m_meta]. destruct (m_meta (hm_mgr h)) as [lh|] eqn:ELH; [|exfalso; apply HM0, HN; reflexivity]. cbn [meta_rows].
    set (rs := map (fun h2 : her Ob0 G A Inf R => meta_rows 0 (b_meta (h_buf h2))) (map fst xs)).
    assert (Hrk : nth_error rs k = Some (brows (h_buf hk))) by (unfold rs; rewrite !nth_error_map, EX; reflexivity).
    assert (Lrs : map (@length _) rs = ns).
    { unfold rs. unfold solid in HS. destruct (m_meta m) as [lm|] eqn:ELM; [|contradiction]. destruct (join_rows (m_bufs m) lm [] HS) as [_ FJ]. cbn [length app] in FJ.
      rewrite <- HM. unfold children in HF. rewrite ELM in HF. rewrite <- (children_st (m_bufs m) 0 (Some lm)) at 1.
      clear - HF FJ. rewrite !map_map. rewrite <- (map_map fst (fun h2 : her Ob0 G A Inf R => length (meta_rows 0 (b_meta (h_buf h2))))).
      induction HF as [|h2 b2 hs bs HRl HF IH]; [reflexivity|]. inversion FJ as [|? ? (r & E2 & L2) FJ']; subst. cbn [map]. rewrite (IH FJ'). f_equal.
      destruct (hrel_fits h2 b2 HRl) as (_ & _ & F3). unfold brows in F3. rewrite F3, E2. cbn. exact L2. }
    assert (Lk : length (brows (h_buf hk)) = n).
    { pose proof En as En2. rewrite <- Lrs, nth_error_map, Hrk in En2. injection En2 as En2. exact En2. }
    rewrite <- Lrs at 1. rewrite (nth_error_concat rs k _ _ Hrk) by (rewrite Lk; apply Hn, Hx).
    unfold brows in *. destruct (b_meta (h_buf hk)) as [mk|]; [reflexivity|]. cbn in Lk. assert (pos (b_st b) x < n) by (apply Hn, Hx). lia. }
  pose proof (mqueue_shape lf o ns (writes ops) k) as Hsh. fold q in Hsh.
  destruct P as [|p0 P'].
  - cbn in EI. subst idx. cbn in HRW. injection HRW as <-. exists (fun _ => None). split; [intros; discriminate|]. split.
    + intros x s Ex _. assert (Hx : x < length q) by (apply nth_error_Some; congruence). rewrite (Hrow x Hx). cbn [h_buf].
      assert (Hne : q <> []) by (intros C; rewrite C in Hx; cbn in Hx; lia). destruct (inv_meta n b q Hi Hne) as [mb Hmb]. rewrite Hmb. cbn [meta_rows].
      pose proof (row_at_pos n b q mb x Hi Hmb Hx) as ER. rewrite Ex in ER. unfold row_at in ER.
      destruct (nth_error mb (pos (b_st b) x)) as [y|] eqn:Ey; [apply nth_error_nth with (d := None) in Ey; congruence|].
      apply nth_error_None in Ey. rewrite nth_overflow in ER by exact Ey. discriminate ER.
    + split; [intros; discriminate|]. split; [|reflexivity]. intros _ p Hp HIp. apply (Hin p Hp) in HIp. destruct HIp.
  - set (P := p0 :: P') in *. assert (HPq : forall p, In p P -> p < length q) by (intros p Hp; rewrite Hli; apply HP, Hp).
    destruct (relabel_ok rew_fn n b q o P hz (offs k) (hsel k) Hi Hsh Ho ltac:(discriminate) HPq (fun p Hp => Hhz p (HPq p Hp))) as (h2 & gp & G1 & _ & G3 & G4 & G5 & G6 & G7).
    rewrite EI, G1 in HRW. injection HRW as ->. exists gp.
    assert (Hiff : forall x, x < length q -> ((exists p, In (at_ p) l /\ last_of q p = last_of q x /\ p <= x) <-> exists p, In p P /\ last_of q p = last_of q x /\ p <= x)).
    { intros x Hx. split; intros (p & H1 & H2 & H3); exists p; (split; [apply Hin; [lia | exact H1]|split; assumption]). }
    split; [|split; [|split; [|split; [|exact G7]]]].
    + intros x s f g Ex Hp. assert (Hx : x < length q) by (apply nth_error_Some; congruence). rewrite (Hrow x Hx). apply (G3 x s f g Ex). apply (Hiff x Hx), Hp.
    + intros x s Ex Hp. assert (Hx : x < length q) by (apply nth_error_Some; congruence). rewrite (Hrow x Hx). apply (G4 x s Ex). destruct Hp as [Hp|Hp]; [left; exact Hp|]. right. intros C. apply Hp, (Hiff x Hx), C.
    + intros e f Hg. destruct (G5 e f Hg) as (A1 & A2 & A3 & (p & A4 & A5) & A6). split; [exact A1|]. split; [exact A2|]. split; [exact A3|]. split.
      * exists p. split; [apply HPq, A4|]. split; [apply Hin; [apply HPq, A4 | exact A4] | exact A5].
      * intros p1 Hp1 Hin1. apply A6, Hin; assumption.
    + intros Hsel p Hp HIp. apply (G6 Hsel). apply Hin; assumption.
Qed.

(** C265. A negative batch size: no sub-buffer restores its rows, unlike in a single HERReplayBuffer. *)
Lemma C265_negative_lemma : forall (Ob0 G A Inf R : Type) (rew_fn : G -> G -> R) o (h : hmgr Ob0 G A Inf R) (h1 : her Ob0 G A Inf R) rnd_b rnd rnd1 z horizon offs hsel offs1 hsel1,
  (z < 0)%Z -> stack_num o = 1 ->
  hm_sample rew_fn o h rnd_b rnd (Some z) horizon offs hsel = Ok (h, [])
  /\ h_sample rew_fn o h1 rnd1 (Some z) horizon offs1 hsel1 = Ok (restore_cache h1, []).
Proof.
  intros Ob0 G A Inf R rew_fn o h h1 rb rnd rnd1 z hz offs hsel offs1 hsel1 Hz Ho. split.
  - unfold hm_sample. destruct (Z.ltb_spec z 0); [reflexivity|lia].
  - unfold h_sample, sample_indices. rewrite Ho. cbn [Nat.eqb orb]. destruct (Z.ltb_spec 0 z); [lia|]. destruct (Z.eqb_spec z 0); [lia|]. reflexivity.
Qed.
(** C265. After [set_batch] the rows are the given ones and no sub-buffer holds rows to put back, whatever was
    sampled before. *)
Lemma C265_set_batch_lemma : forall (Ob0 G A Inf R : Type) (h : hmgr Ob0 G A Inf R) rows,
  m_meta (hm_mgr (hm_set_batch h rows)) = Some rows /\ m_bufs (hm_mgr (hm_set_batch h rows)) = m_bufs (hm_mgr h) /\
  Forall (fun l => l = []) (hm_alts (hm_set_batch h rows)).
Proof.
  intros Ob0 G A Inf R h rows. split; [reflexivity|]. split; [reflexivity|]. cbn [hm_set_batch hm_alts hm_restore HmgrModel.put]. rewrite map_map.
  apply Forall_forall. intros l Hl. apply in_map_iff in Hl as (x & <- & _). unfold restore_cache. destruct (h_alt x) eqn:E; [exact E|reflexivity].
Qed.
