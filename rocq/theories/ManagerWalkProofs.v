(** prev/next/stacking/sampling of the manager, reduced to the sub-buffers. *)
From Verif Require Import Py PyLemmas BufferModel BufferSpec BufferProofs BufferWalkProofs
  BufferMainProofs ManagerModel ManagerSpec ManagerProofs.
Open Scope nat_scope.

Lemma foldM_single {S X} (f : S -> X -> res S) r l : forall k x a,
  nth_error l k = Some x -> (forall acc, f acc x = r) ->
  (forall j y acc, nth_error l j = Some y -> j <> k -> f acc y = Ok acc) ->
  foldM f l a = r.
Proof.
  assert (Hno : forall l s, (forall y acc, In y l -> f acc y = Ok acc) -> foldM f l s = Ok s).
  { clear. induction l as [|y l IH]; intros s H; [reflexivity|]. cbn [foldM].
    rewrite (H y) by (left; reflexivity). cbn [bind]. apply IH. intros z acc Hz. apply H. right. exact Hz. }
  induction l as [|y l IH]; intros [|k] x a Hk Hm Ho; try discriminate.
  - injection Hk as ->. cbn [foldM]. rewrite Hm. destruct r as [s|e]; [|reflexivity]. cbn [bind].
    apply Hno. intros z acc Hz. apply In_nth_error in Hz as [j Hj]. apply (Ho (Datatypes.S j) z acc Hj). lia.
  - cbn [foldM]. rewrite (Ho 0 y a eq_refl) by lia. cbn [bind]. apply (IH k x a Hk Hm).
    intros j z acc Hj Hjk. apply (Ho (Datatypes.S j) z acc Hj). lia.
Qed.

Lemma nth_error_combine {X Y} (l : list X) (l' : list Y) : forall k,
  nth_error (combine l l') k = match nth_error l k, nth_error l' k with
                               | Some x, Some y => Some (x, y) | _, _ => None end.
Proof.
  revert l'; induction l as [|x l IH]; intros [|y l'] [|k]; cbn; auto.
  - destruct (nth_error l k); reflexivity.
Qed.

Section MWalk.
Context {Ob A Inf R : Type}.
Notation slot := (slot Ob A Inf R).
Notation buf := (buf Ob A Inf R).
Notation mgr := (mgr Ob A Inf R).

(** What the following lemmas need to know of a manager: it is the juxtaposition of buffers
    whose contents are the queues [qs]. *)
Definition mview (ns : list nat) (m : mgr) (qs : list (list slot)) : Prop :=
  exists bs, sim ns m bs /\ length qs = length bs
    /\ forall k b q, nth_error bs k = Some b -> nth_error qs k = Some q -> inv (bmax b) b q.

Lemma children_from_nth : forall ss a meta k s, nth_error ss k = Some s ->
  nth_error (children_from (Ob := Ob) (A := A) (Inf := Inf) (R := R) a ss meta) k
  = Some (mkBuf s (option_map (slice (a + off (map maxsize ss) k) (maxsize s)) meta)).
Proof.
  induction ss as [|s0 ss IH]; intros a meta [|k] s H; try discriminate; cbn [children_from nth_error] in *.
  - injection H as ->. rewrite Nat.add_0_r. reflexivity.
  - rewrite (IH _ _ _ _ H). do 4 f_equal. unfold off. cbn [map firstn]. unfold list_sum. cbn [fold_right]. lia.
Qed.

Lemma children_length a ss meta :
  length (children_from (Ob := Ob) (A := A) (Inf := Inf) (R := R) a ss meta) = length ss.
Proof. revert a; induction ss as [|s ss IH]; intros a; cbn; auto. Qed.

(** Child [k]: same scalar state, same rows. *)
Lemma child_of ns (m : mgr) bs k b : sim ns m bs -> nth_error bs k = Some b ->
  exists c, nth_error (children m) k = Some c /\ b_st c = b_st b /\ rows c = rows b
    /\ (b_meta c = None <-> m_meta m = None)
    /\ (forall l, m_meta m = Some l -> b_meta c = Some (slice (off ns k) (bmax b) l)).
Proof.
  intros Hs Hb. pose proof Hs as [H1 H2 H3 H4 H5 H6 H7 H8].
  eexists. split.
  - unfold children. apply children_from_nth. rewrite H2, nth_error_map, Hb. reflexivity.
  - cbn [b_st b_meta]. rewrite H2, map_map.
    change (map (fun x => maxsize (b_st x)) bs) with (map bmax bs). rewrite H1. cbn [Nat.add].
    split; [reflexivity|].
    destruct (m_meta m) as [l|] eqn:Em; cbn [option_map].
    + split; [|split; [split; discriminate|intros l' E; injection E as <-; reflexivity]].
      cbn [meta_rows] in H3. unfold rows at 1. cbn [b_meta b_st meta_rows].
      rewrite H3. rewrite <- H1. rewrite <- (rows_sizes bs H4).
      assert (Hl : length (rows b) = maxsize (b_st b)) by (apply H4, (nth_error_In _ _ Hb)).
      rewrite <- Hl. apply slice_concat. rewrite nth_error_map, Hb. reflexivity.
    + split; [|split; [split; reflexivity|discriminate]].
      unfold rows. cbn [b_meta b_st]. rewrite (H8 eq_refl b (nth_error_In _ _ Hb)). reflexivity.
Qed.

Lemma child_inv ns (m : mgr) bs k b q : sim ns m bs -> nth_error bs k = Some b -> inv (bmax b) b q ->
  exists c, nth_error (children m) k = Some c /\ b_st c = b_st b /\ inv (bmax b) c q
    /\ (b_meta c = None <-> m_meta m = None)
    /\ (forall l, m_meta m = Some l -> b_meta c = Some (slice (off ns k) (bmax b) l)).
Proof.
  intros Hs Hb Hi. destruct (child_of ns m bs k b Hs Hb) as (c & H1 & H2 & H3 & H4 & H5).
  exists c. split; [exact H1|]. split; [exact H2|]. split; [|auto].
  destruct Hi as [G1 G2 G3 G4 G5]. unfold rows in H3. unfold bmax in *. rewrite H2 in H3.
  split; rewrite ?H2, ?H3; auto.
  intros Hn. apply G4. apply H4 in Hn. apply (s_none _ _ _ Hs Hn b (nth_error_In _ _ Hb)).
Qed.

Lemma meta_length ns (m : mgr) bs l : sim ns m bs -> m_meta m = Some l -> length l = list_sum ns
  /\ forall k b, nth_error bs k = Some b -> slice (off ns k) (bmax b) l = rows b.
Proof.
  intros Hs Hm. pose proof (s_rows _ _ _ Hs) as H3. rewrite Hm in H3. cbn [meta_rows] in H3.
  pose proof (s_len _ _ _ Hs) as H4. pose proof (s_sizes _ _ _ Hs) as H1. split.
  - rewrite H3, concat_length, rows_sizes by exact H4. rewrite H1. reflexivity.
  - intros k b Hb. rewrite H3, <- H1, <- (rows_sizes bs H4).
    assert (Hl : length (rows b) = bmax b) by (apply H4, (nth_error_In _ _ Hb)).
    rewrite <- Hl. apply slice_concat. rewrite nth_error_map, Hb. reflexivity.
Qed.

Lemma zget_slice {T} (l : list T) o n i : (0 <= i < Z.of_nat n)%Z -> o + n <= length l ->
  zget (slice o n l) i = zget l (i + Z.of_nat o).
Proof.
  intros Hi Hn. unfold zget, slice.
  assert (Hl : length (firstn n (skipn o l)) = n) by (rewrite firstn_length, skipn_length; lia).
  rewrite Hl, !norm_index_ok by lia. cbn [bind].
  rewrite nth_error_firstn, nth_error_skipn. destruct (Nat.ltb_spec (Z.to_nat i) n); [|lia].
  replace (Z.to_nat (i + Z.of_nat o)) with (o + Z.to_nat i) by lia. reflexivity.
Qed.

Lemma m_edges_tl ns (m : mgr) bs k n : sim ns m bs -> nth_error ns k = Some n ->
  nth_error (m_offsets m) k = Some (off ns k) /\ nth_error (tl (m_edges m)) k = Some (off ns k + n).
Proof.
  intros Hs Hn. destruct (sim_length _ _ _ Hs) as (Hlb & Hlm & Htot).
  assert (Hk : k < length ns) by (apply nth_error_Some; congruence).
  assert (Eo : m_offsets m = offsets 0 ns).
  { unfold m_offsets, m_sizes. rewrite (s_bufs _ _ _ Hs), map_map.
    change (map (fun x => maxsize (b_st x)) bs) with (map bmax bs). rewrite (s_sizes _ _ _ Hs). reflexivity. }
  split; [rewrite Eo; apply (nth_error_offsets ns 0 k Hk)|].
  unfold m_edges. rewrite Eo, Htot.
  assert (E : nth_error (offsets 0 ns ++ [list_sum ns]) (S k) = Some (off ns k + n)).
  { rewrite <- (off_S ns k n Hn). destruct (Nat.eq_dec (S k) (length ns)) as [E|E].
    - rewrite nth_error_app2 by (rewrite offsets_length; lia). rewrite offsets_length, E, Nat.sub_diag.
      unfold off. rewrite firstn_all. reflexivity.
    - rewrite nth_error_app1 by (rewrite offsets_length; lia).
      apply (nth_error_offsets ns 0 (S k)). lia. }
  destruct ns as [|n0 ns']; [cbn in Hk; lia|]. cbn [offsets app tl nth_error] in *. exact E.
Qed.

Lemma m_zip_nth ns (m : mgr) bs k b : sim ns m bs -> nth_error bs k = Some b ->
  nth_error (m_zip m) k = Some (off ns k, off ns k + bmax b, size (b_st b),
                                Z.of_nat (last_index (b_st b) + off ns k)).
Proof.
  intros Hs Hb. unfold m_zip. rewrite !nth_error_combine.
  destruct (m_edges_tl ns m bs k (bmax b) Hs) as [-> ->].
  { rewrite <- (s_sizes _ _ _ Hs), nth_error_map, Hb. reflexivity. }
  rewrite (s_lens _ _ _ Hs), nth_error_map, Hb. cbn [option_map].
  rewrite (s_last _ _ _ Hs k b Hb). reflexivity.
Qed.

Lemma m_zip_other ns (m : mgr) bs j start stop len last : sim ns m bs ->
  nth_error (m_zip m) j = Some (start, stop, len, last) ->
  exists b, nth_error bs j = Some b /\ start = off ns j /\ stop = off ns j + bmax b.
Proof.
  intros Hs Hj. destruct (nth_error bs j) as [b|] eqn:Eb.
  - rewrite (m_zip_nth ns m bs j b Hs Eb) in Hj. injection Hj as <- <- _ _. exists b. auto.
  - exfalso. apply nth_error_None in Eb.
    assert (j < length (m_zip m)) by (apply nth_error_Some; congruence).
    unfold m_zip in H. rewrite !combine_length in H. rewrite (s_nlast _ _ _ Hs) in H. lia.
Qed.

Lemma off_disjoint ns j k n n' i : nth_error ns j = Some n -> nth_error ns k = Some n' -> j <> k ->
  off ns k <= i < off ns k + n' -> ~ (off ns j <= i < off ns j + n).
Proof.
  intros H1 H2 Hjk Hi Hj. rewrite <- (off_S ns j n H1) in Hj. rewrite <- (off_S ns k n' H2) in Hi.
  destruct (Nat.lt_ge_cases j k) as [H|H].
  - pose proof (off_mono ns (S j) k ltac:(lia)). lia.
  - pose proof (off_mono ns (S k) j ltac:(lia)). lia.
Qed.

Lemma np_mod_max n s i : sinv n s -> np_mod i (Z.of_nat (@size R s)) = (i mod Z.of_nat (Nat.max 1 (size s)))%Z.
Proof.
  intros Hs. unfold np_mod. destruct (Z.eqb_spec (Z.of_nat (size s)) 0) as [E|E].
  - replace (Nat.max 1 (size s)) with 1 by lia. symmetry. apply Z.mod_1_r.
  - replace (Nat.max 1 (size s)) with (size s) by lia. reflexivity.
Qed.

(** Inside the range of sub-buffer [k] the manager's [prev]/[next] are the sub-buffer's. *)
Lemma m_walk_child ns (m : mgr) bs k b q c l i : sim ns m bs -> nth_error bs k = Some b ->
  inv (bmax b) b q -> nth_error (children m) k = Some c -> m_meta m = Some l -> i < bmax b ->
  (forall j, prev c [Z.of_nat i] = Ok [j] ->
     prev_index1 (m_zip m) (m_total m) l (Z.of_nat (off ns k + i)) = Ok (j + Z.of_nat (off ns k))%Z)
  /\ (forall j, next c [Z.of_nat i] = Ok [j] ->
     next_index1 (m_zip m) (m_total m) l (Z.of_nat (off ns k + i)) = Ok (j + Z.of_nat (off ns k))%Z).
Proof.
  intros Hs Hb Hi Hc Hm Hlt.
  destruct (child_inv ns m bs k b q Hs Hb Hi) as (c' & Hc' & Hst & Hi' & _ & Hmeta).
  rewrite Hc in Hc'. injection Hc' as <-. specialize (Hmeta l Hm).
  destruct (sim_length _ _ _ Hs) as (Hlb & Hlm & Htot).
  destruct (meta_length ns m bs l Hs Hm) as [Hll Hsl].
  assert (Hn : nth_error ns k = Some (bmax b)) by (rewrite <- (s_sizes _ _ _ Hs), nth_error_map, Hb; reflexivity).
  pose proof (off_le_total ns k _ Hn) as Hoff.
  pose proof (i_s _ _ _ Hi) as Hsv. pose proof (i_size _ _ Hsv) as Hsz.
  assert (Hmask : forall j y, nth_error (m_zip m) j = Some y -> j <> k ->
     (let '(start, stop, _, _) := y in
      (Z.of_nat start <=? Z.of_nat (off ns k + i))%Z && (Z.of_nat (off ns k + i) <? Z.of_nat stop)%Z) = false).
  { intros j [[[start stop] len] last] Hj Hjk.
    destruct (m_zip_other ns m bs j _ _ _ _ Hs Hj) as (bj & Hbj & -> & ->).
    assert (Hnj : nth_error ns j = Some (bmax bj)) by (rewrite <- (s_sizes _ _ _ Hs), nth_error_map, Hbj; reflexivity).
    pose proof (off_disjoint ns j k _ _ (off ns k + i) Hnj Hn Hjk ltac:(lia)). lia. }
  assert (Hnp : np_mod (Z.of_nat (off ns k + i)) (Z.of_nat (m_total m)) = Z.of_nat (off ns k + i)).
  { unfold np_mod. destruct (Z.eqb_spec (Z.of_nat (m_total m)) 0); [lia|]. apply Z.mod_small. lia. }
  assert (Hmx : (0 < Z.of_nat (Nat.max 1 (size (b_st b))))%Z) by lia.
  pose proof (i_pos _ _ Hsv) as Hpos.
  assert (Hmk : ((Z.of_nat (off ns k) <=? Z.of_nat (off ns k + i))
     && (Z.of_nat (off ns k + i) <? Z.of_nat (off ns k + bmax b)))%Z = true) by lia.
  split; intros j Hj.
  - unfold prev_index1. rewrite Hnp.
    apply (foldM_single _ _ _ k _ 0%Z (m_zip_nth ns m bs k b Hs Hb)).
    2:{ intros j0 y acc Hj0 Hne. specialize (Hmask j0 y Hj0 Hne).
        destruct y as [[[start stop] len] last]. rewrite Hmask. reflexivity. }
    intros acc. rewrite Hmk. clear acc Hmask Hmk.
    replace (Z.of_nat (off ns k + i) - Z.of_nat (off ns k) - 1)%Z with (Z.of_nat i - 1)%Z by lia.
    unfold prev in Hj. rewrite Hmeta, Hst in Hj. cbn [mapM] in Hj.
    rewrite !(np_mod_max (bmax b)) in Hj by exact Hsv. cbv beta zeta in Hj. cbv zeta.
    pose proof (Z.mod_pos_bound (Z.of_nat i - 1) _ Hmx) as Hb1.
    set (sub := ((Z.of_nat i - 1) mod Z.of_nat (Nat.max 1 (size (b_st b))))%Z) in *.
    rewrite zget_slice in Hj by lia.
    destruct (zget l (sub + Z.of_nat (off ns k))) as [d|e]; [|discriminate]. cbn [bind] in Hj |- *.
    rewrite (np_mod_max (bmax b)) in Hj by exact Hsv. apply (f_equal (fun r => match r with Ok (z :: _) => z | _ => 0%Z end)) in Hj. cbv beta iota in Hj. subst j.
    replace (sub + Z.of_nat (off ns k) =? Z.of_nat (last_index (b_st b) + off ns k))%Z
      with (sub =? Z.of_nat (last_index (b_st b)))%Z by lia.
    reflexivity.
  - unfold next_index1. rewrite Hnp.
    apply (foldM_single _ _ _ k _ 0%Z (m_zip_nth ns m bs k b Hs Hb)).
    2:{ intros j0 y acc Hj0 Hne. specialize (Hmask j0 y Hj0 Hne).
        destruct y as [[[start stop] len] last]. rewrite Hmask. reflexivity. }
    intros acc. rewrite Hmk. clear acc Hmask Hmk.
    unfold next in Hj. rewrite Hmeta, Hst in Hj. cbn [mapM] in Hj.
    rewrite zget_slice in Hj by lia. cbv zeta.
    replace (Z.of_nat i + Z.of_nat (off ns k))%Z with (Z.of_nat (off ns k + i)) in Hj by lia.
    destruct (zget l (Z.of_nat (off ns k + i))) as [d|e]; [|discriminate]. cbn [bind] in Hj |- *.
    rewrite (np_mod_max (bmax b)) in Hj by exact Hsv. apply (f_equal (fun r => match r with Ok (z :: _) => z | _ => 0%Z end)) in Hj. cbv beta iota in Hj. subst j.
    replace (Z.of_nat (off ns k + i) =? Z.of_nat (last_index (b_st b) + off ns k))%Z
      with (Z.of_nat i =? Z.of_nat (last_index (b_st b)))%Z by lia.
    destruct (slot_done d || (Z.of_nat i =? Z.of_nat (last_index (b_st b)))%Z); f_equal; f_equal; f_equal; lia.
Qed.

(** Index of queue position [p] of sub-buffer [k], as a Python integer. *)
Definition maddr (ns : list nat) (m : mgr) (kp : nat * nat) : Z :=
  match nth_error (m_bufs m) (fst kp) with
  | Some s => Z.of_nat (off ns (fst kp) + pos s (snd kp))
  | None => 0%Z
  end.

(** Is [(k, p)] a stored position? *)
Definition stored (qs : list (list slot)) (kp : nat * nat) : Prop :=
  exists q, nth_error qs (fst kp) = Some q /\ snd kp < length q.
Definition qat (qs : list (list slot)) (k : nat) : list slot := nth k qs [].

Lemma mview_at ns m qs kp : mview ns m qs -> stored qs kp ->
  exists bs b c l, sim ns m bs /\ nth_error bs (fst kp) = Some b /\ inv (bmax b) b (qat qs (fst kp))
    /\ nth_error (children m) (fst kp) = Some c /\ b_st c = b_st b /\ inv (bmax b) c (qat qs (fst kp))
    /\ m_meta m = Some l /\ b_meta c = Some (slice (off ns (fst kp)) (bmax b) l)
    /\ snd kp < length (qat qs (fst kp)) /\ pos (b_st b) (snd kp) < bmax b
    /\ maddr ns m kp = Z.of_nat (off ns (fst kp) + pos (b_st b) (snd kp)).
Proof.
  intros (bs & Hs & Hlen & Hinv) (q & Hq & Hp).
  assert (Hlt : fst kp < length qs) by (apply nth_error_Some; congruence).
  destruct (nth_error bs (fst kp)) as [b|] eqn:Eb; [|apply nth_error_None in Eb; lia].
  pose proof (Hinv _ _ _ Eb Hq) as Hi.
  assert (Eq : qat qs (fst kp) = q) by (unfold qat; apply (nth_error_nth _ _ _ Hq)).
  destruct (child_inv ns m bs (fst kp) b q Hs Eb Hi) as (c & Hc & Hst & Hi' & Hnone & Hmeta).
  destruct (m_meta m) as [l|] eqn:Em.
  2:{ exfalso. assert (b_meta b = None) by (apply (s_none _ _ _ Hs Em b (nth_error_In _ _ Eb))).
      pose proof (i_none _ _ _ Hi H) as ->. cbn in Hp. lia. }
  exists bs, b, c, l. rewrite Eq. repeat (split; [assumption || reflexivity|]).
  split; [apply Hmeta; reflexivity|]. split; [exact Hp|].
  pose proof (i_s _ _ _ Hi) as Hsv. pose proof (i_len _ _ _ Hi) as Hl.
  split.
  - pose proof (pos_lt _ _ (snd kp) Hsv ltac:(lia)). pose proof (i_size _ _ Hsv). lia.
  - unfold maddr. rewrite (s_bufs _ _ _ Hs), nth_error_map, Eb. reflexivity.
Qed.

Lemma m_prev_ok ns m qs ps : mview ns m qs -> ps <> [] -> (forall x, In x ps -> stored qs x) ->
  m_prev m (map (maddr ns m) ps)
  = Ok (map (fun x => maddr ns m (fst x, pred_of (qat qs (fst x)) (snd x))) ps)
  /\ m_next m (map (maddr ns m) ps)
  = Ok (map (fun x => maddr ns m (fst x, succ_of (qat qs (fst x)) (snd x))) ps).
Proof.
  intros Hv Hne Hps.
  assert (Hm : exists l, m_meta m = Some l).
  { destruct ps as [|x ps]; [contradiction|].
    destruct (mview_at ns m qs x Hv (Hps x (or_introl eq_refl))) as (bs & b & c & l & H). exists l. apply H. }
  destruct Hm as [l Hm]. unfold m_prev, m_next. rewrite Hm.
  assert (Hel : forall x, In x ps ->
    prev_index1 (m_zip m) (m_total m) l (maddr ns m x) = Ok (maddr ns m (fst x, pred_of (qat qs (fst x)) (snd x)))
    /\ next_index1 (m_zip m) (m_total m) l (maddr ns m x) = Ok (maddr ns m (fst x, succ_of (qat qs (fst x)) (snd x)))).
  { intros x Hx. destruct (mview_at ns m qs x Hv (Hps x Hx))
      as (bs & b & c & l' & Hs & Hb & Hi & Hc & Hst & Hi' & Hm' & Hmeta & Hp & Hpos & Ha).
    rewrite Hm in Hm'. injection Hm' as <-.
    assert (Hq : qat qs (fst x) <> []) by (intros E; rewrite E in Hp; cbn in Hp; lia).
    destruct (m_walk_child ns m bs (fst x) b _ c l (pos (b_st b) (snd x)) Hs Hb Hi Hc Hm Hpos) as [W1 W2].
    assert (Hz : forall p, maddr ns m (fst x, p) = (zpos c p + Z.of_nat (off ns (fst x)))%Z).
    { intros p. unfold maddr, zpos. cbn [fst snd]. rewrite (s_bufs _ _ _ Hs), nth_error_map, Hb. cbn [option_map].
      rewrite Hst. lia. }
    rewrite Ha. rewrite !Hz. split.
    - apply W1. pose proof (prev_ok _ c _ [snd x] Hi' Hq) as E. cbn [map] in E.
      unfold zpos at 1 in E. rewrite Hst in E. apply E. intros p [<-|[]]. exact Hp.
    - apply W2. pose proof (next_ok _ c _ [snd x] Hi' Hq) as E. cbn [map] in E.
      unfold zpos at 1 in E. rewrite Hst in E. apply E. intros p [<-|[]]. exact Hp. }
  split.
  - rewrite (mapM_Ok _ (fun i => match prev_index1 (m_zip m) (m_total m) l i with Ok z => z | Err _ => 0%Z end)).
    + f_equal. rewrite map_map. apply map_ext_in. intros x Hx. destruct (Hel x Hx) as [-> _]. reflexivity.
    + intros i Hi. apply in_map_iff in Hi as (x & <- & Hx). destruct (Hel x Hx) as [-> _]. reflexivity.
  - rewrite (mapM_Ok _ (fun i => match next_index1 (m_zip m) (m_total m) l i with Ok z => z | Err _ => 0%Z end)).
    + f_equal. rewrite map_map. apply map_ext_in. intros x Hx. destruct (Hel x Hx) as [_ ->]. reflexivity.
    + intros i Hi. apply in_map_iff in Hi as (x & <- & Hx). destruct (Hel x Hx) as [_ ->]. reflexivity.
Qed.

Lemma m_rows_ok ns m qs ps : mview ns m qs -> ps <> [] -> (forall x, In x ps -> stored qs x) ->
  m_rows_at m (map (maddr ns m) ps) = Ok (map (fun x => nth_error (qat qs (fst x)) (snd x)) ps).
Proof.
  intros Hv Hne Hps.
  assert (Hm : exists l, m_meta m = Some l).
  { destruct ps as [|x ps]; [contradiction|].
    destruct (mview_at ns m qs x Hv (Hps x (or_introl eq_refl))) as (bs & b & c & l & H). exists l. apply H. }
  destruct Hm as [l Hm]. unfold m_rows_at. rewrite Hm.
  assert (Hel : forall x, In x ps -> zget l (maddr ns m x) = Ok (nth_error (qat qs (fst x)) (snd x))).
  { intros x Hx. destruct (mview_at ns m qs x Hv (Hps x Hx))
      as (bs & b & c & l' & Hs & Hb & Hi & Hc & Hst & Hi' & Hm' & Hmeta & Hp & Hpos & Ha).
    rewrite Hm in Hm'. injection Hm' as <-. rewrite Ha.
    destruct (nth_error (qat qs (fst x)) (snd x)) as [r|] eqn:Er; [|apply nth_error_None in Er; lia].
    pose proof (i_data _ _ _ Hi' _ _ Er) as Hd. rewrite Hmeta in Hd. cbn [meta_rows] in Hd.
    unfold slice in Hd. rewrite nth_error_firstn, nth_error_skipn, Hst in Hd.
    destruct (Nat.ltb_spec (pos (b_st b) (snd x)) (bmax b)); [|lia].
    apply zget_nth_error. exact Hd. }
  rewrite (mapM_Ok _ (fun i => match zget l i with Ok z => z | Err _ => None end)).
  - f_equal. rewrite map_map. apply map_ext_in. intros x Hx. rewrite (Hel x Hx). reflexivity.
  - intros i Hi. apply in_map_iff in Hi as (x & <- & Hx). rewrite (Hel x Hx). reflexivity.
Qed.

(** ** Stacking *)
Definition mback (qs : list (list slot)) (j : nat) (x : nat * nat) : nat * nat :=
  (fst x, back (qat qs (fst x)) j (snd x)).

Lemma stored_iff qs x : stored qs x <-> snd x < length (qat qs (fst x)).
Proof.
  unfold stored, qat. split.
  - intros (q & Hq & Hp). rewrite (nth_error_nth _ _ _ Hq). exact Hp.
  - intros H. destruct (nth_error qs (fst x)) as [q|] eqn:E.
    + exists q. rewrite (nth_error_nth _ _ _ E) in H. auto.
    + apply nth_error_None in E. rewrite nth_overflow in H by exact E. cbn in H. lia.
Qed.

Lemma m_get_loop_ok ns m qs : mview ns m qs -> forall k ps stack, ps <> [] ->
  (forall x, In x ps -> stored qs x) ->
  m_get_loop k m (map (maddr ns m) ps) stack
  = Ok (rev (map (fun j => map (fun x => nth_error (qat qs (fst x)) (back (qat qs (fst x)) j (snd x))) ps) (seq 0 k)) ++ stack).
Proof.
  intros Hv. induction k as [|k IH]; intros ps stack Hne Hps; [reflexivity|].
  cbn [m_get_loop]. rewrite (m_rows_ok ns m qs ps Hv Hne Hps). cbn [bind].
  destruct (m_prev_ok ns m qs ps Hv Hne Hps) as [-> _]. cbn [bind].
  rewrite <- (map_map (fun x => (fst x, pred_of (qat qs (fst x)) (snd x))) (maddr ns m)).
  rewrite IH.
  - rewrite <- cons_seq, <- seq_shift. cbn [map rev]. rewrite map_map, <- app_assoc. cbn [app].
    f_equal. f_equal. f_equal. apply map_ext. intros j. rewrite map_map. reflexivity.
  - destruct ps; [contradiction|discriminate].
  - intros x Hx. apply in_map_iff in Hx as (y & <- & Hy). apply stored_iff. cbn [fst snd].
    apply pred_of_lt. apply stored_iff, Hps, Hy.
Qed.

Lemma m_get_rows_ok ns m qs k ps : mview ns m qs -> ps <> [] -> 0 < k ->
  (forall x, In x ps -> stored qs x) ->
  m_get_rows m k (map (maddr ns m) ps) = Ok (map (fun x => frames (qat qs (fst x)) k (snd x)) ps).
Proof.
  intros Hv Hne Hk Hps. unfold m_get_rows.
  destruct (Nat.eqb_spec k 1) as [->|Hk1].
  - rewrite (m_rows_ok ns m qs ps Hv Hne Hps). cbn [bind]. rewrite map_map. f_equal. apply map_ext_in.
    intros x Hx. unfold frames. cbn [seq map]. pose proof (first_of_le (qat qs (fst x)) (snd x)).
    do 2 f_equal. lia.
  - rewrite (m_get_loop_ok ns m qs Hv k ps [] Hne Hps). cbn [bind]. rewrite app_nil_r.
    f_equal. unfold transpose. rewrite map_length.
    apply nth_error_ext. intros i. rewrite nth_error_map_seq, nth_error_map.
    destruct (Nat.ltb_spec i (length ps)) as [Hi|Hi].
    + destruct (nth_error ps i) as [x|] eqn:Ep; [|apply nth_error_None in Ep; lia].
      cbn [option_map]. f_equal. rewrite map_rev_seq. unfold frames.
      apply map_ext. intros j. simpl (0 + i).
      apply nth_error_nth. rewrite nth_error_map, Ep. cbn [option_map]. rewrite back_first. reflexivity.
    + apply nth_error_None in Hi. rewrite Hi. reflexivity.
Qed.

End MWalk.
