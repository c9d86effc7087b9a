(** Statements of C08-C11 and C57. *)
From Verif Require Import Py PyLemmas BufferModel BufferSpec BufferProofs BufferWalkProofs
  BufferMainProofs ManagerModel ManagerSpec ManagerProofs ManagerWalkProofs.
Open Scope nat_scope.

Lemma mapM_seq {X Y} (f : X -> res Y) (g : nat -> Y) (l : list X) N : length l = N ->
  (forall k x, nth_error l k = Some x -> f x = Ok (g k)) -> mapM f l = Ok (map g (seq 0 N)).
Proof.
  intros <-. revert g. induction l as [|x l IH]; intros g H; [reflexivity|].
  cbn [length seq map mapM]. rewrite (H 0 x eq_refl). cbn [bind].
  rewrite (IH (fun k => g (S k))) by (intros k y Hk; apply (H (S k) y Hk)).
  cbn [bind]. rewrite <- seq_shift, map_map. reflexivity.
Qed.

Lemma pick_ok lens : forall r, r < list_sum lens ->
  exists n, nth_error lens (pick lens r) = Some n /\ 0 < n.
Proof.
  induction lens as [|n lens IH]; intros r H; [cbn in H; lia|]. cbn [pick].
  destruct (Nat.ltb_spec r n) as [Hr|Hr]; [exists n; split; [reflexivity|lia]|].
  destruct (IH (r - n)) as (x & Hx & Hp); [unfold list_sum in *; cbn [fold_right] in H; lia|].
  exists x. auto.
Qed.

Lemma bincount_sum N l : (forall x, In x l -> x < N) -> list_sum (bincount N l) = length l.
Proof.
  unfold bincount. induction l as [|x l IH]; intros H.
  - cbn [filter length]. clear. induction (seq 0 N) as [|a s IH]; cbn; [reflexivity|exact IH].
  - cbn [length]. rewrite <- IH by (intros y Hy; apply H; right; exact Hy).
    assert (Hx : x < N) by (apply H; left; reflexivity). clear IH H.
    assert (G : forall a k, list_sum (map (fun j => length (filter (Nat.eqb j) (x :: l))) (seq a k))
       = list_sum (map (fun j => length (filter (Nat.eqb j) l)) (seq a k))
         + (if (a <=? x) && (x <? a + k) then 1 else 0)).
    { intros a k. revert a. induction k as [|k IH]; intros a.
      - change (list_sum (map _ (seq a 0))) with 0. change (list_sum (map (fun j => length (filter (Nat.eqb j) l)) (seq a 0))) with 0. destruct (Nat.leb_spec a x), (Nat.ltb_spec x (a + 0)); cbn [andb]; lia.
      - cbn [seq map]. unfold list_sum in *. cbn [fold_right]. rewrite IH. cbn [filter].
        destruct (Nat.eqb_spec a x), (Nat.leb_spec a x), (Nat.leb_spec (S a) x), (Nat.ltb_spec x (S a + k)),
          (Nat.ltb_spec x (a + S k)); cbn [length andb]; lia. }
    rewrite G. destruct (Nat.leb_spec 0 x), (Nat.ltb_spec x (0 + N)); cbn; lia.
Qed.

Section Main.
Context {Ob A Inf R : Type}.
Notation slot := (slot Ob A Inf R).
Notation buf := (buf Ob A Inf R).
Notation mgr := (mgr Ob A Inf R).

(** ** Positions *)
Lemma pos_place n (s : bst R) c p : sinv n s -> ins s = c mod n -> size s = Nat.min c n -> p < size s ->
  pos s p = (c - Nat.min c n + p) mod n.
Proof.
  intros Hs Hi Hz Hp. pose proof (i_pos _ _ Hs) as Hn. unfold pos.
  destruct (Nat.lt_ge_cases c n) as [Hc|Hc].
  - rewrite Nat.mod_small in Hi by exact Hc. replace (Nat.min c n) with c in * by lia.
    replace (c - c + p) with p by lia. rewrite Nat.mod_small by lia.
    destruct (Nat.ltb_spec (ins s + p) (size s)); lia.
  - replace (Nat.min c n) with n in * by lia. rewrite Hz in *.
    assert (E : (c - n + p) mod n = (c mod n + p) mod n).
    { rewrite Nat.add_mod_idemp_l by lia. rewrite <- (Nat.mod_add (c - n + p) 1 n) by lia. f_equal. lia. }
    rewrite E, <- Hi. pose proof (i_ins _ _ Hs).
    destruct (Nat.ltb_spec (ins s + p) n) as [H1|H1]; [rewrite Nat.mod_small by exact H1; reflexivity|].
    apply (Nat.mod_unique (ins s + p) n 1); lia.
Qed.

Variable r0 : R.
Variable radd : R -> R -> R.
Variable last_frame : Ob -> Ob.

Lemma buf_run_count o n : forall ops (b : buf) q c b' rs, inv n b q ->
  ins (b_st b) = c mod n -> size (b_st b) = Nat.min c n ->
  buf_run r0 radd last_frame o b ops = Ok (b', rs) ->
  ins (b_st b') = count_from c ops mod n /\ size (b_st b') = Nat.min (count_from c ops) n.
Proof.
  induction ops as [|op ops IH]; intros b q c b' rs Hi Hc Hz H.
  - cbn in *. injection H as <- <-. auto.
  - pose proof (i_s _ _ _ Hi) as Hs. pose proof (i_pos _ _ Hs) as Hn.
    destruct op as [t|keep]; cbn [buf_run count_from] in *.
    + destruct (add_ok r0 radd last_frame n b q o t Hi) as (b1 & ret & len & E & Hi1 & _ & _ & E1 & E2).
      rewrite E in H. cbn [bind fst snd] in H.
      destruct (buf_run r0 radd last_frame o b1 ops) as [[b2 rs2]|e] eqn:Er; [|discriminate].
      cbn [bind fst snd] in H. injection H as <- <-. apply (IH b1 _ (S c) b2 rs2 Hi1); [| |exact Er].
      * rewrite E1. cbn [advance ins]. rewrite Hc, (i_max _ _ Hs). rewrite Nat.add_mod_idemp_l by lia. f_equal. lia.
      * rewrite E2. cbn [advance size]. rewrite (i_max _ _ Hs). lia.
    + apply (IH _ _ 0 b' rs (inv_reset r0 n b q keep Hi)); [|reflexivity|exact H].
      cbn. rewrite Nat.mod_0_l by lia. reflexivity.
Qed.

(** Everything known about a manager after a history. *)
Lemma run_view o ns ops m outs : (forall n, In n ns -> 0 < n) ->
  m_run r0 radd last_frame o (m_init r0 ns) ops = Ok (m, outs) ->
  let qs := map (mqueue last_frame o ns ops) (seq 0 (length ns)) in
  mview ns m qs
  /\ ((exists ids ts, In (MAdd ids ts) ops) -> m_meta m <> None)
  /\ (forall x, stored qs x -> maddr ns m x = Z.of_nat (maddress ns ops x))
  /\ m_lens m = map (@length slot) qs
  /\ exists bs, sim ns m bs /\ forall k n, nth_error ns k = Some n -> exists b bouts,
       nth_error bs k = Some b
       /\ buf_run r0 radd last_frame o (buf_init r0 n) (proj (length ns) k ops) = Ok (b, bouts)
       /\ select (length ns) k outs = map (shift (off ns k)) bouts.
Proof.
  intros Hpos Hrun qs.
  destruct (sim_init (Ob := Ob) (A := A) (Inf := Inf) r0 ns Hpos) as [Hs0 Hg0].
  pose proof (m_run_wf r0 radd last_frame o ns ops _ _ _ Hs0 Hg0 Hrun) as Hwf.
  destruct (m_run_sim r0 radd last_frame o ns ops _ _ Hs0 Hg0 Hwf) as (m' & bs & outs' & E & Hs & Hg & Hm & Hb).
  rewrite Hrun in E. injection E as <- <-.
  destruct (sim_length _ _ _ Hs) as (Hlb & _).
  assert (Hat : forall k n, nth_error ns k = Some n -> exists b bouts,
       nth_error bs k = Some b /\ bmax b = n
       /\ buf_run r0 radd last_frame o (buf_init r0 n) (proj (length ns) k ops) = Ok (b, bouts)
       /\ select (length ns) k outs = map (shift (off ns k)) bouts
       /\ inv n b (mqueue last_frame o ns ops k)
       /\ ins (b_st b) = count_from 0 (proj (length ns) k ops) mod n
       /\ size (b_st b) = Nat.min (count_from 0 (proj (length ns) k ops)) n).
  { intros k n Hn. destruct (Hb k (buf_init r0 n)) as (b & bouts & H1 & H2 & H3).
    { rewrite nth_error_map, Hn. reflexivity. }
    assert (Hn0 : 0 < n) by (apply Hpos, (nth_error_In _ _ Hn)).
    exists b, bouts. split; [exact H1|].
    split; [pose proof (s_sizes _ _ _ Hs) as Hsz; rewrite <- Hsz, nth_error_map, H1 in Hn; injection Hn as ->; reflexivity|].
    split; [exact H2|]. split; [exact H3|].
    pose proof (inv_init (Ob := Ob) (A := A) (Inf := Inf) r0 n Hn0) as Hi0. split.
    - unfold mqueue. rewrite Hn. apply (buf_run_inv r0 radd last_frame o n _ _ [] _ _ Hi0 H2).
    - apply (buf_run_count o n _ _ [] 0 _ bouts Hi0); [|reflexivity|exact H2].
      cbn. rewrite Nat.mod_0_l by lia. reflexivity. }
  assert (Hqs : forall k q, nth_error qs k = Some q -> exists n, nth_error ns k = Some n /\ q = mqueue last_frame o ns ops k).
  { intros k q Hq. unfold qs in Hq. rewrite nth_error_map_seq in Hq.
    destruct (Nat.ltb_spec k (length ns)) as [Hk|Hk]; [|discriminate]. injection Hq as <-. cbn [Nat.add].
    destruct (nth_error ns k) as [n|] eqn:En; [eauto|]. apply nth_error_None in En. lia. }
  split; [|split; [|split; [|split]]].
  - exists bs. split; [exact Hs|]. split; [unfold qs; rewrite map_length, seq_length; auto|].
    intros k b q Hbk Hq. destruct (Hqs k q Hq) as (n & Hn & ->).
    destruct (Hat k n Hn) as (b' & bouts & H1 & H2 & _ & _ & H5 & _). rewrite Hbk in H1. injection H1 as <-.
    rewrite H2. exact H5.
  - intros H. apply Hm. left. exact H.
  - intros x (q & Hq & Hp). destruct (Hqs (fst x) q Hq) as (n & Hn & ->).
    destruct (Hat (fst x) n Hn) as (b & bouts & H1 & H2 & _ & _ & H5 & H6 & H7).
    unfold maddr, maddress. rewrite (s_bufs _ _ _ Hs), nth_error_map, H1. cbn [option_map].
    do 2 f_equal. rewrite (nth_error_nth _ _ _ Hn). unfold place.
    apply pos_place; [apply (i_s _ _ _ H5)|exact H6|exact H7|]. rewrite <- (i_len _ _ _ H5). exact Hp.
  - rewrite (s_lens _ _ _ Hs). apply nth_error_ext. intros k. unfold qs. rewrite map_map, nth_error_map_seq, nth_error_map.
    destruct (Nat.ltb_spec k (length ns)) as [Hk|Hk].
    + destruct (nth_error ns k) as [n|] eqn:En; [|apply nth_error_None in En; lia].
      destruct (Hat k n En) as (b & bouts & H1 & _ & _ & _ & H5 & _). rewrite H1. cbn [option_map Nat.add].
      rewrite (i_len _ _ _ H5). reflexivity.
    + assert (E : nth_error bs k = None) by (apply nth_error_None; lia). rewrite E. reflexivity.
  - exists bs. split; [exact Hs|]. intros k n Hn. destruct (Hat k n Hn) as (b & bouts & H1 & _ & H3 & H4 & _).
    exists b, bouts. auto.
Qed.

End Main.

(** ** Sampling and unfinished_index *)
Section Main2.
Context {Ob A Inf R : Type}.
Notation slot := (slot Ob A Inf R).
Notation buf := (buf Ob A Inf R).
Notation mgr := (mgr Ob A Inf R).

Lemma children_nth_inv ns (m : mgr) qs : mview ns m qs -> length qs = length ns /\ length (children m) = length ns
  /\ length (m_bufs m) = length ns /\ length (m_offsets m) = length ns
  /\ forall k c, nth_error (children m) k = Some c -> exists n,
     nth_error ns k = Some n /\ inv n c (qat qs k) /\ nth_error (m_offsets m) k = Some (off ns k)
     /\ nth_error (m_bufs m) k = Some (b_st c) /\ (b_meta c = None <-> m_meta m = None).
Proof.
  intros (bs & Hs & Hlen & Hinv). destruct (sim_length _ _ _ Hs) as (Hlb & Hlm & _).
  split; [lia|]. split; [unfold children; rewrite children_length; exact Hlm|].
  split; [exact Hlm|]. split; [unfold m_offsets, m_sizes; rewrite offsets_length, map_length; exact Hlm|].
  intros k c Hc.
  assert (Hk : k < length ns).
  { rewrite <- Hlm, <- (children_length 0 (m_bufs m) (m_meta m)). apply nth_error_Some. unfold children in Hc. congruence. }
  destruct (nth_error bs k) as [b|] eqn:Eb; [|apply nth_error_None in Eb; lia].
  destruct (nth_error qs k) as [q|] eqn:Eq; [|apply nth_error_None in Eq; lia].
  destruct (child_inv ns m bs k b q Hs Eb (Hinv k b q Eb Eq)) as (c' & H1 & H2 & H3 & H4 & H5).
  rewrite Hc in H1. injection H1 as <-.
  assert (Hn : nth_error ns k = Some (bmax b)) by (rewrite <- (s_sizes _ _ _ Hs), nth_error_map, Eb; reflexivity).
  exists (bmax b). split; [exact Hn|]. split; [unfold qat; rewrite (nth_error_nth _ _ _ Eq); exact H3|].
  split; [apply (m_edges_tl ns m bs k _ Hs Hn)|]. split; [|exact H4].
  rewrite (s_bufs _ _ _ Hs), nth_error_map, Eb. cbn. rewrite H2. reflexivity.
Qed.

Lemma maddr_nat ns (m : mgr) k s p : nth_error (m_bufs m) k = Some s ->
  maddr (Ob := Ob) (A := A) (Inf := Inf) (R := R) ns m (k, p) = Z.of_nat (off ns k + pos s p).
Proof. intros H. unfold maddr. cbn [fst snd]. rewrite H. reflexivity. Qed.

Definition mpos (ns : list nat) (m : mgr) (x : nat * nat) : nat := Z.to_nat (maddr ns m x).

Lemma m_unfinished_ok ns (m : mgr) qs : mview ns m qs -> m_meta m <> None ->
  m_unfinished_index m = Ok (concat (map (fun k =>
    if (length (qat qs k) =? 0) || qdone (qat qs k) (length (qat qs k) - 1) then []
    else [mpos ns m (k, length (qat qs k) - 1)]) (seq 0 (length ns)))).
Proof.
  intros Hv Hm. destruct (children_nth_inv ns m qs Hv) as (H1 & H2 & H3 & H4 & H5).
  unfold m_unfinished_index.
  rewrite (mapM_seq _ (fun k => if (length (qat qs k) =? 0) || qdone (qat qs k) (length (qat qs k) - 1) then []
    else [mpos ns m (k, length (qat qs k) - 1)]) _ (length ns)).
  - reflexivity.
  - rewrite combine_length. lia.
  - intros k [o c] Hx. rewrite nth_error_combine in Hx.
    destruct (nth_error (m_offsets m) k) as [o'|] eqn:Eo; [|discriminate].
    destruct (nth_error (children m) k) as [c'|] eqn:Ec; [|discriminate]. injection Hx as -> ->.
    destruct (H5 k c Ec) as (n & Hn & Hi & Ho & Hb & Hnone). rewrite Eo in Ho. injection Ho as ->.
    cbn [fst snd]. rewrite (unfinished_ok n c _ Hi) by tauto. cbn [bind].
    destruct (_ || _); [reflexivity|]. cbn [map]. do 2 f_equal.
    unfold mpos. rewrite (maddr_nat _ _ _ _ _ Hb), Nat2Z.id. lia.
Qed.

Definition m_all (o : opts) (ns : list nat) (m : mgr) (qs : list (list slot)) : list nat :=
  concat (map (fun k => map (fun p => mpos ns m (k, p)) (avail_positions o (qat qs k))) (seq 0 (length ns))).

Lemma m_sample_all_ok o ns (m : mgr) qs rb rnd : mview ns m qs -> m_meta m <> None -> 0 < stack_num o ->
  m_sample_indices o m rb rnd (Some 0%Z) = Ok (m_all o ns m qs)
  /\ (m_sample_indices o m rb rnd None
      = if sample_avail o && (1 <? stack_num o) then choice rb (m_all o ns m qs) (length (m_all o ns m qs))
        else Ok (m_all o ns m qs))
  /\ (sample_avail o && (1 <? stack_num o) = true -> forall z, (0 < z)%Z ->
       m_sample_indices o m rb rnd (Some z) = choice rb (m_all o ns m qs) (Z.to_nat z)).
Proof.
  intros Hv Hm Hk. destruct (children_nth_inv ns m qs Hv) as (H1 & H2 & H3 & H4 & H5).
  assert (Hch : forall k c, nth_error (children m) k = Some c -> forall r,
     exists n, sample_indices o c r (Some 0%Z) = Ok (map (pos (b_st c)) (avail_positions o (qat qs k)))
     /\ nth_error (m_offsets m) k = Some (off ns k)
     /\ map (fun i => i + off ns k) (map (pos (b_st c)) (avail_positions o (qat qs k)))
        = map (fun p => mpos ns m (k, p)) (avail_positions o (qat qs k)) /\ nth_error ns k = Some n).
  { intros k c Ec r. destruct (H5 k c Ec) as (n & Hn & Hi & Ho & Hb & Hnone). exists n.
    split; [apply (sample_zero_ok n c _ o r Hi Hk); tauto|]. split; [exact Ho|]. split; [|exact Hn].
    rewrite map_map. apply map_ext. intros p. unfold mpos. rewrite (maddr_nat _ _ _ _ _ Hb), Nat2Z.id. lia. }
  assert (Eav : mapM (fun x => let* u := sample_indices o (snd (snd x)) (rnd (fst x)) (Some 0%Z) in
                             Ok (map (fun i => i + fst (snd x)) u))
                (combine (seq 0 (length (m_bufs m))) (combine (m_offsets m) (children m)))
     = Ok (map (fun k => map (fun p => mpos ns m (k, p)) (avail_positions o (qat qs k))) (seq 0 (length ns)))).
  { apply mapM_seq; [rewrite !combine_length, seq_length; lia|].
    intros k [k' [of' c]] Hx. rewrite !nth_error_combine in Hx.
    destruct (nth_error (seq 0 (length (m_bufs m))) k) as [k''|] eqn:Ek; [|discriminate].
    destruct (nth_error (m_offsets m) k) as [o''|] eqn:Eo; [|discriminate].
    destruct (nth_error (children m) k) as [c'|] eqn:Ec; [|discriminate]. injection Hx as -> -> ->.
    destruct (Hch k c Ec (rnd k')) as (n & E1 & E2 & E3 & _). cbn [fst snd]. rewrite E1. cbn [bind].
    rewrite Eo in E2. injection E2 as ->. rewrite E3. reflexivity. }
  assert (Enon : mapM (fun x => let '(k, (off, (b, n))) := x in
                             let* u := sample_indices o b (rnd k) (Some n) in
                             Ok (map (fun i => i + off) u))
                (combine (seq 0 (length (m_bufs m)))
                   (combine (m_offsets m) (combine (children m) (repeat 0%Z (length (m_bufs m))))))
     = Ok (map (fun k => map (fun p => mpos ns m (k, p)) (avail_positions o (qat qs k))) (seq 0 (length ns)))).
  { apply mapM_seq; [rewrite !combine_length, repeat_length, seq_length; lia|].
    intros k [k' [of' [c z]]] Hx. rewrite !nth_error_combine in Hx.
    destruct (nth_error (seq 0 (length (m_bufs m))) k) as [k''|] eqn:Ek; [|discriminate].
    destruct (nth_error (m_offsets m) k) as [o''|] eqn:Eo; [|discriminate].
    destruct (nth_error (children m) k) as [c'|] eqn:Ec; [|discriminate].
    destruct (nth_error (repeat 0%Z (length (m_bufs m))) k) as [z'|] eqn:Ez; [|discriminate].
    injection Hx as -> -> -> ->. apply nth_error_In, repeat_spec in Ez. subst z.
    destruct (Hch k c Ec (rnd k')) as (n & E1 & E2 & E3 & _). rewrite E1. cbn [bind].
    rewrite Eo in E2. injection E2 as ->. rewrite E3. reflexivity. }
  unfold m_sample_indices. change (0 <? 0)%Z with false. change (0 =? 0)%Z with true. cbv iota.
  destruct (sample_avail o && (1 <? stack_num o)) eqn:Eo.
  - rewrite Eav. cbn [bind]. split; [reflexivity|]. split; [reflexivity|].
    intros _ z Hz. destruct (Z.ltb_spec z 0); [lia|]. destruct (Z.eqb_spec z 0); [lia|]. reflexivity.
  - cbn [bind]. rewrite Enon. cbn [bind]. split; [reflexivity|]. split; [reflexivity|]. discriminate.
Qed.

Lemma pos_surj n (s : bst R) i : sinv n s -> i < size s -> exists p, p < size s /\ pos s p = i.
Proof.
  intros Hs Hi. apply (all_indices_In n s i Hs) in Hi. rewrite (all_indices_pos n) in Hi by exact Hs.
  apply in_map_iff in Hi as (p & Hp & Hin). apply in_seq in Hin. exists p. split; [lia|exact Hp].
Qed.

Lemma m_sample_some_ok o ns (m : mgr) qs rb rnd z : mview ns m qs ->
  m_lens m = map (@length slot) qs ->
  sample_avail o && (1 <? stack_num o) = false -> 0 < stack_num o -> (0 < z)%Z ->
  0 < list_sum (map (@length slot) qs) ->
  exists l, m_sample_indices o m rb rnd (Some z) = Ok l /\ length l = Z.to_nat z
    /\ forall i, In i l -> exists x, stored qs x /\ i = mpos ns m x.
Proof.
  intros Hv Hlens Hav Hk Hz Hpos. destruct (children_nth_inv ns m qs Hv) as (H1 & H2 & H3 & H4 & H5).
  unfold m_sample_indices. destruct (Z.ltb_spec z 0); [lia|]. destruct (Z.eqb_spec z 0) as [Hz0|Hz0]; [lia|].
  rewrite Hav, Hlens. destruct (Nat.eqb_spec (list_sum (map (@length slot) qs)) 0) as [E|E]; [lia|].
  cbn [bind]. set (lens := map (@length slot) qs) in *. set (N := length (m_bufs m)) in *.
  set (draws := map (fun j => pick lens (rb j mod list_sum lens)) (seq 0 (Z.to_nat z))).
  assert (Hd : forall d, In d draws -> exists n, nth_error lens d = Some n /\ 0 < n).
  { intros d Hd. apply in_map_iff in Hd as (j & <- & _). apply pick_ok. apply Nat.mod_upper_bound. exact E. }
  assert (HdN : forall d, In d draws -> d < N).
  { intros d Hd'. destruct (Hd d Hd') as (n & Hn & _). rewrite H3, <- H1.
    unfold lens in Hn. rewrite <- (map_length (@length slot) qs). apply nth_error_Some. congruence. }
  pose proof (bincount_sum N draws HdN) as Hsum.
  (* the sample of sub-buffer [k] *)
  assert (Hex : exists ls, mapM (fun x => let '(k, (off, (b, n))) := x in
                             let* u := sample_indices o b (rnd k) (Some n) in
                             Ok (map (fun i => i + off) u))
                (combine (seq 0 N) (combine (m_offsets m) (combine (children m)
                   (map (fun c => if c =? 0 then (-1)%Z else Z.of_nat c) (bincount N draws))))) = Ok ls
     /\ map (@length nat) ls = bincount N draws
     /\ forall l i, In l ls -> In i l -> exists x, stored qs x /\ i = mpos ns m x).
  { assert (Hone : forall k c, nth_error (children m) k = Some c -> exists u,
       sample_indices o c (rnd k) (Some (let c := length (filter (Nat.eqb k) draws) in
            if c =? 0 then (-1)%Z else Z.of_nat c)) = Ok u
       /\ length u = length (filter (Nat.eqb k) draws)
       /\ forall i, In i u -> exists x, stored qs x /\ i + off ns k = mpos ns m x).
    { intros k c Ec. destruct (H5 k c Ec) as (n & Hn & Hi & Ho & Hb & Hnone). cbn zeta.
      assert (Hopt : (stack_num o =? 1) || negb (sample_avail o) = true).
      { apply andb_false_iff in Hav as [->|Ha]; [apply orb_true_r|].
        apply Nat.ltb_ge in Ha. replace (stack_num o) with 1 by lia. reflexivity. }
      destruct (Nat.eqb_spec (length (filter (Nat.eqb k) draws)) 0) as [Hc0|Hc0].
      - exists []. unfold sample_indices. rewrite Hopt, Hc0. cbn. split; [reflexivity|]. split; [reflexivity|]. intros i [].
      - assert (Hin : In k draws).
        { destruct (filter (Nat.eqb k) draws) as [|d f] eqn:Ef; [contradiction Hc0; reflexivity|].
          assert (Hf : In d (filter (Nat.eqb k) draws)) by (rewrite Ef; left; reflexivity).
          apply filter_In in Hf as [Hf1 Hf2]. apply Nat.eqb_eq in Hf2. subst d. exact Hf1. }
        destruct (Hd k Hin) as (len & Hlen & Hlp). unfold lens in Hlen. rewrite nth_error_map in Hlen.
        destruct (nth_error qs k) as [q|] eqn:Eq; [|discriminate]. injection Hlen as <-.
        assert (Eqa : qat qs k = q) by (unfold qat; apply (nth_error_nth _ _ _ Eq)). rewrite Eqa in Hi.
        pose proof (i_len _ _ _ Hi) as Hl.
        unfold sample_indices. rewrite Hopt. destruct (Z.ltb_spec 0 (Z.of_nat (length (filter (Nat.eqb k) draws)))); [|lia].
        rewrite Nat2Z.id.
        destruct (choice_ok (rnd k) (seq 0 (size (b_st c))) (length (filter (Nat.eqb k) draws))) as [u Hu].
        { rewrite <- Hl. destruct q; [cbn in Hlp; lia|discriminate]. }
        exists u. rewrite Hu. apply choice_in in Hu as [Hu1 Hu2]. split; [reflexivity|]. split; [exact Hu1|].
        intros i Hiu. apply Hu2 in Hiu. apply in_seq in Hiu.
        destruct (pos_surj n (b_st c) i (i_s _ _ _ Hi) ltac:(lia)) as (p & Hp & Hpi).
        exists (k, p). split; [exists q; cbn [fst snd]; split; [exact Eq|lia]|].
        unfold mpos. rewrite (maddr_nat _ _ _ _ _ Hb), Nat2Z.id. lia. }
    assert (Hg : exists g : nat -> list nat, forall k c, nth_error (children m) k = Some c ->
       sample_indices o c (rnd k) (Some (let c := length (filter (Nat.eqb k) draws) in
            if c =? 0 then (-1)%Z else Z.of_nat c)) = Ok (g k)).
    { exists (fun k => match nth_error (children m) k with
                       | Some c => match sample_indices o c (rnd k) (Some (let c := length (filter (Nat.eqb k) draws) in
            if c =? 0 then (-1)%Z else Z.of_nat c)) with Ok u => u | Err _ => [] end
                       | None => [] end).
      intros k c Ec. rewrite Ec. destruct (Hone k c Ec) as (u & -> & _). reflexivity. }
    destruct Hg as [g Hg].
    exists (map (fun k => map (fun i => i + off ns k) (g k)) (seq 0 N)). split; [|split].
    - apply mapM_seq.
      { rewrite !combine_length, map_length. unfold bincount. rewrite map_length, seq_length. lia. }
      intros k [k' [of' [c z']]] Hx. rewrite !nth_error_combine in Hx.
      destruct (nth_error (seq 0 N) k) as [k''|] eqn:Ek; [|discriminate].
      destruct (nth_error (m_offsets m) k) as [o''|] eqn:Eo; [|discriminate].
      destruct (nth_error (children m) k) as [c'|] eqn:Ec; [|discriminate].
      unfold bincount in Hx. rewrite map_map, nth_error_map, Ek in Hx. cbn [option_map] in Hx.
      injection Hx as -> -> -> <-.
      assert (k' = k).
      { assert (k < N) by (rewrite <- (seq_length N 0); apply nth_error_Some; congruence).
        rewrite (nth_error_nth' _ 0) in Ek by (rewrite seq_length; lia). rewrite seq_nth in Ek by lia. injection Ek as <-. reflexivity. }
      subst k'. pose proof (Hg k c Ec) as Hgk. cbn zeta in Hgk. rewrite Hgk. cbn [bind].
      destruct (H5 k c Ec) as (n & Hn & Hi & Ho & _). rewrite Eo in Ho. injection Ho as ->. reflexivity.
    - rewrite map_map. unfold bincount. apply map_ext_in. intros k Hkin. apply in_seq in Hkin. rewrite map_length.
      destruct (nth_error (children m) k) as [c|] eqn:Ec; [|apply nth_error_None in Ec; lia].
      destruct (Hone k c Ec) as (u & Hu & Hul & _). rewrite (Hg k c Ec) in Hu. injection Hu as Hu; subst u. exact Hul.
    - intros l i Hl Hi. apply in_map_iff in Hl as (k & <- & Hkin). apply in_seq in Hkin.
      apply in_map_iff in Hi as (j & <- & Hj).
      destruct (nth_error (children m) k) as [c|] eqn:Ec; [|apply nth_error_None in Ec; lia].
      destruct (Hone k c Ec) as (u & Hu & _ & Hux). rewrite (Hg k c Ec) in Hu. injection Hu as Hu; subst u. apply Hux, Hj. }
  destruct Hex as (ls & -> & Hlen & Hin). cbn [bind]. eexists. split; [reflexivity|]. split.
  - rewrite concat_length, Hlen, Hsum. unfold draws. rewrite map_length, seq_length. reflexivity.
  - intros i Hi. apply in_concat in Hi as (l & Hl & Hil). apply (Hin l i Hl Hil).
Qed.
End Main2.

Lemma qat_mqueue {Ob A Inf R} (lf : Ob -> Ob) o ns (ops : list (mop Ob A Inf R)) k :
  qat (map (mqueue lf o ns ops) (seq 0 (length ns))) k = mqueue lf o ns ops k.
Proof.
  unfold qat. destruct (Nat.lt_ge_cases k (length ns)) as [Hk|Hk].
  - apply nth_error_nth. rewrite nth_error_map_seq. destruct (Nat.ltb_spec k (length ns)); [reflexivity|lia].
  - rewrite nth_overflow by (rewrite map_length, seq_length; exact Hk).
    unfold mqueue. apply nth_error_None in Hk. rewrite Hk. reflexivity.
Qed.

Lemma stored_mqueue {Ob A Inf R} (lf : Ob -> Ob) o ns (ops : list (mop Ob A Inf R)) x :
  snd x < length (mqueue lf o ns ops (fst x)) -> stored (map (mqueue lf o ns ops) (seq 0 (length ns))) x.
Proof. intros H. apply stored_iff. rewrite qat_mqueue. exact H. Qed.

(** C08.  Which histories run without an exception: exactly the well-formed ones. *)
Lemma C08_total_lemma : forall (Ob A Inf R : Type) (r0 : R) radd (last_frame : Ob -> Ob) o ns
    (ops : list (mop Ob A Inf R)),
  (forall n, In n ns -> 0 < n) ->
  (exists x, m_run r0 radd last_frame o (m_init r0 ns) ops = Ok x) <-> Forall (mop_ok (length ns)) ops.
Proof.
  intros Ob A Inf R r0 radd lf o ns ops Hpos.
  destruct (sim_init (Ob := Ob) (A := A) (Inf := Inf) r0 ns Hpos) as [Hs0 Hg0]. split.
  - intros [x Hx]. apply (m_run_wf r0 radd lf o ns ops _ _ x Hs0 Hg0 Hx).
  - intros Hok. destruct (m_run_sim r0 radd lf o ns ops _ _ Hs0 Hg0 Hok) as (m & bs & outs & E & _). eauto.
Qed.

(** C08.  Every sub-buffer behaves as a stand-alone buffer that receives only the calls
    addressed to it: same reported values (moved by the sub-buffer's offset), same scalar
    state, and the same rows in its part of the manager's storage. *)
Lemma C08_independent_lemma : forall (Ob A Inf R : Type) (r0 : R) radd (last_frame : Ob -> Ob) o ns
    (ops : list (mop Ob A Inf R)) m outs,
  (forall n, In n ns -> 0 < n) ->
  m_run r0 radd last_frame o (m_init r0 ns) ops = Ok (m, outs) ->
  forall k n, nth_error ns k = Some n ->
  exists b reports,
    buf_run r0 radd last_frame o (buf_init r0 n) (proj (length ns) k ops) = Ok (b, reports)
    /\ select (length ns) k outs = map (shift (off ns k)) reports
    /\ nth_error (m_bufs m) k = Some (b_st b)
    /\ nth_error (m_lens m) k = Some (size (b_st b))
    /\ nth_error (m_last m) k = Some (Z.of_nat (last_index (b_st b) + off ns k))
    /\ slice (off ns k) n (meta_rows (list_sum ns) (m_meta m)) = meta_rows n (b_meta b).
Proof.
  intros Ob A Inf R r0 radd lf o ns ops m outs Hpos Hrun k n Hn.
  destruct (run_view r0 radd lf o ns ops m outs Hpos Hrun) as (_ & _ & _ & _ & bs & Hs & Hb).
  destruct (Hb k n Hn) as (b & bouts & H1 & H2 & H3). exists b, bouts.
  assert (Ebm : bmax b = n).
  { pose proof (s_sizes _ _ _ Hs) as E. rewrite <- E, nth_error_map, H1 in Hn. injection Hn as <-. reflexivity. }
  split; [exact H2|]. split; [exact H3|].
  split; [rewrite (s_bufs _ _ _ Hs), nth_error_map, H1; reflexivity|].
  split; [rewrite (s_lens _ _ _ Hs), nth_error_map, H1; reflexivity|].
  split; [apply (s_last _ _ _ Hs k b H1)|].
  rewrite (s_rows _ _ _ Hs). pose proof (s_len _ _ _ Hs) as H4.
  rewrite <- (s_sizes _ _ _ Hs), <- (rows_sizes bs H4).
  assert (Hl : length (rows b) = n) by (rewrite <- Ebm; apply H4, (nth_error_In _ _ H1)).
  rewrite <- Hl at 1. rewrite slice_concat with (l := rows b) by (rewrite nth_error_map, H1; reflexivity).
  unfold rows. change (maxsize (b_st b)) with (bmax b). rewrite Ebm. reflexivity.
Qed.

(** C08.  [len] is the number of stored transitions, and reading at their indices gives them. *)
Lemma C08_content_lemma : forall (Ob A Inf R : Type) (r0 : R) radd (last_frame : Ob -> Ob) o ns
    (ops : list (mop Ob A Inf R)) m outs ps,
  (forall n, In n ns -> 0 < n) ->
  m_run r0 radd last_frame o (m_init r0 ns) ops = Ok (m, outs) ->
  let q k := mqueue last_frame o ns ops k in
  m_len m = list_sum (map (fun k => length (q k)) (seq 0 (length ns)))
  /\ (ps <> [] -> (forall x, In x ps -> snd x < length (q (fst x))) ->
      m_rows_at m (map (fun x => Z.of_nat (maddress ns ops x)) ps)
      = Ok (map (fun x => nth_error (q (fst x)) (snd x)) ps)).
Proof.
  intros Ob A Inf R r0 radd lf o ns ops m outs ps Hpos Hrun q.
  destruct (run_view r0 radd lf o ns ops m outs Hpos Hrun) as (Hv & _ & Ha & Hl & _). split.
  - unfold m_len. rewrite Hl, map_map. reflexivity.
  - intros Hne Hps.
    assert (Hst : forall x, In x ps -> stored (map (mqueue lf o ns ops) (seq 0 (length ns))) x)
      by (intros x Hx; apply stored_mqueue, Hps, Hx).
    rewrite <- (map_ext_in (maddr ns m)) by (intros x Hx; apply Ha, Hst, Hx).
    rewrite (m_rows_ok ns m _ ps Hv Hne Hst). f_equal. apply map_ext. intros x. rewrite qat_mqueue. reflexivity.
Qed.

(** C09.  [prev]/[next] of the manager walk inside the episode of the addressed sub-buffer. *)
Lemma C09_prev_next_lemma : forall (Ob A Inf R : Type) (r0 : R) radd (last_frame : Ob -> Ob) o ns
    (ops : list (mop Ob A Inf R)) m outs ps,
  (forall n, In n ns -> 0 < n) ->
  m_run r0 radd last_frame o (m_init r0 ns) ops = Ok (m, outs) ->
  let q k := mqueue last_frame o ns ops k in
  let addr k p := Z.of_nat (maddress ns ops (k, p)) in
  ps <> [] -> (forall x, In x ps -> snd x < length (q (fst x))) ->
  m_prev m (map (fun x => addr (fst x) (snd x)) ps)
    = Ok (map (fun x => addr (fst x) (pred_of (q (fst x)) (snd x))) ps)
  /\ m_next m (map (fun x => addr (fst x) (snd x)) ps)
    = Ok (map (fun x => addr (fst x) (succ_of (q (fst x)) (snd x))) ps).
Proof.
  intros Ob A Inf R r0 radd lf o ns ops m outs ps Hpos Hrun q addr Hne Hps.
  destruct (run_view r0 radd lf o ns ops m outs Hpos Hrun) as (Hv & _ & Ha & _ & _).
  assert (Hst : forall x, In x ps -> stored (map (mqueue lf o ns ops) (seq 0 (length ns))) x)
    by (intros x Hx; apply stored_mqueue, Hps, Hx).
  rewrite <- (map_ext_in (maddr ns m)).
  2:{ intros [k p] Hx. apply (Ha (k, p)), Hst, Hx. }
  destruct (m_prev_ok ns m _ ps Hv Hne Hst) as [-> ->]. split; f_equal; apply map_ext_in; intros [k p] Hx; cbn [fst snd];
    rewrite qat_mqueue; apply (Ha (k, _)); apply stored_mqueue; cbn [fst snd]; specialize (Hps _ Hx); cbn [fst snd] in Hps.
  - apply pred_of_lt. exact Hps.
  - apply succ_of_lt. exact Hps.
Qed.

(** C09.  [unfinished_index]: the newest index of each non-empty sub-buffer whose newest
    transition does not end an episode, in sub-buffer order. *)
Lemma C09_unfinished_index_lemma : forall (Ob A Inf R : Type) (r0 : R) radd (last_frame : Ob -> Ob) o ns
    (ops : list (mop Ob A Inf R)) m outs,
  (forall n, In n ns -> 0 < n) ->
  m_run r0 radd last_frame o (m_init r0 ns) ops = Ok (m, outs) ->
  (exists ids ts, In (MAdd ids ts) ops) ->
  let q k := mqueue last_frame o ns ops k in
  m_unfinished_index m = Ok (concat (map (fun k =>
    match q k with
    | [] => []
    | _ => if qdone (q k) (length (q k) - 1) then [] else [maddress ns ops (k, length (q k) - 1)]
    end) (seq 0 (length ns)))).
Proof.
  intros Ob A Inf R r0 radd lf o ns ops m outs Hpos Hrun Hadd q.
  destruct (run_view r0 radd lf o ns ops m outs Hpos Hrun) as (Hv & Hm & Ha & _ & _).
  rewrite (m_unfinished_ok ns m _ Hv (Hm Hadd)). do 2 f_equal. apply map_ext. intros k. rewrite qat_mqueue.
  change (mqueue lf o ns ops k) with (q k).
  destruct (q k) as [|x0 q0] eqn:Eq; [reflexivity|]. rewrite <- Eq. cbn [length Nat.eqb orb].
  assert (Hl : 0 < length (q k)) by (rewrite Eq; cbn; lia).
  destruct (Nat.eqb_spec (length (q k)) 0); [lia|]. cbn [orb].
  destruct (qdone (q k) (length (q k) - 1)); [reflexivity|]. f_equal. unfold mpos. rewrite Ha; [apply Nat2Z.id|].
  apply stored_mqueue. cbn [fst snd]. change (mqueue lf o ns ops k) with (q k). lia.
Qed.

(** C10.  [sample_indices(0)] lists all qualifying indices, sub-buffer by sub-buffer, oldest
    first in each. *)
Lemma C10_sample_all_lemma : forall (Ob A Inf R : Type) (r0 : R) radd (last_frame : Ob -> Ob) o ns
    (ops : list (mop Ob A Inf R)) m outs rb rnd,
  (forall n, In n ns -> 0 < n) -> 0 < stack_num o ->
  m_run r0 radd last_frame o (m_init r0 ns) ops = Ok (m, outs) ->
  (exists ids ts, In (MAdd ids ts) ops) ->
  let q k := mqueue last_frame o ns ops k in
  m_sample_indices o m rb rnd (Some 0%Z) = Ok (concat (map (fun k =>
    map (fun p => maddress ns ops (k, p))
      (filter (fun p => (stack_num o =? 1) || negb (sample_avail o)
                        || (first_of (q k) p + stack_num o <=? p + 1)) (seq 0 (length (q k)))))
    (seq 0 (length ns)))).
Proof.
  intros Ob A Inf R r0 radd lf o ns ops m outs rb rnd Hpos Hk Hrun Hadd q.
  destruct (run_view r0 radd lf o ns ops m outs Hpos Hrun) as (Hv & Hm & Ha & _ & _).
  destruct (m_sample_all_ok o ns m _ rb rnd Hv (Hm Hadd) Hk) as [-> _].
  unfold m_all. do 2 f_equal. apply map_ext. intros k. rewrite qat_mqueue. unfold avail_positions, has_stack.
  change (mqueue lf o ns ops k) with (q k). apply map_ext_in. intros p Hp.
  apply filter_In in Hp as [Hp _]. apply in_seq in Hp.
  unfold mpos. rewrite Ha; [apply Nat2Z.id|]. apply stored_mqueue. cbn [fst snd].
  change (mqueue lf o ns ops k) with (q k). lia.
Qed.

(** C10.  A random sample of [z > 0] indices, for every draw: when something qualifies it has
    [z] entries, all among the qualifying indices. *)
Lemma C10_sample_random_lemma : forall (Ob A Inf R : Type) (r0 : R) radd (last_frame : Ob -> Ob) o ns
    (ops : list (mop Ob A Inf R)) m outs rb rnd z all,
  (forall n, In n ns -> 0 < n) -> 0 < stack_num o ->
  m_run r0 radd last_frame o (m_init r0 ns) ops = Ok (m, outs) ->
  (exists ids ts, In (MAdd ids ts) ops) -> (0 < z)%Z ->
  m_sample_indices o m rb rnd (Some 0%Z) = Ok all ->
  match m_sample_indices o m rb rnd (Some z) with
  | Ok l => length l = Z.to_nat z /\ forall i, In i l -> In i all
  | Err _ => all = []
  end.
Proof.
  intros Ob A Inf R r0 radd lf o ns ops m outs rb rnd z all Hpos Hk Hrun Hadd Hz Hall.
  destruct (run_view r0 radd lf o ns ops m outs Hpos Hrun) as (Hv & Hm & Ha & Hlens & _).
  set (qs := map (mqueue lf o ns ops) (seq 0 (length ns))) in *.
  destruct (m_sample_all_ok o ns m qs rb rnd Hv (Hm Hadd) Hk) as (E1 & _ & E3).
  rewrite E1 in Hall. injection Hall as <-.
  destruct (sample_avail o && (1 <? stack_num o)) eqn:Eo.
  - rewrite E3 by auto. set (all := m_all o ns m qs).
    destruct all as [|x l] eqn:Ea.
    + unfold choice. destruct (Z.to_nat z) eqn:Ez; [lia|]. reflexivity.
    + rewrite <- Ea. destruct (choice_ok rb all (Z.to_nat z)) as [r Hr]; [rewrite Ea; discriminate|].
      rewrite Hr. apply choice_in in Hr. exact Hr.
  - assert (Hmem : forall x, stored qs x -> In (mpos ns m x) (m_all o ns m qs)).
    { intros x Hx. unfold m_all. apply in_concat. exists (map (fun p => mpos ns m (fst x, p)) (avail_positions o (qat qs (fst x)))).
      apply stored_iff in Hx as Hx'. split.
      - apply in_map_iff. exists (fst x). split; [reflexivity|]. apply in_seq.
        assert (fst x < length qs).
        { destruct Hx as (q & Hq & _). apply nth_error_Some. congruence. }
        unfold qs in H. rewrite map_length, seq_length in H. lia.
      - apply in_map_iff. exists (snd x). split; [destruct x; reflexivity|]. unfold avail_positions.
        apply filter_In. split; [apply in_seq; lia|].
        apply andb_false_iff in Eo as [->|Eo]; [rewrite orb_true_r; reflexivity|].
        apply Nat.ltb_ge in Eo. replace (stack_num o) with 1 by lia. reflexivity. }
    destruct (Nat.eq_dec (list_sum (map (@length _) qs)) 0) as [Hs0|Hs0].
    + unfold m_sample_indices. destruct (Z.ltb_spec z 0); [lia|]. destruct (Z.eqb_spec z 0) as [|]; [lia|].
      rewrite Eo, Hlens, Hs0. cbn [Nat.eqb bind].
      unfold m_all. rewrite (map_ext_in _ (fun _ => [])).
      * clear. induction (seq 0 (length ns)) as [|a l IH]; [reflexivity|]. exact IH.
      * intros k Hkin. apply in_seq in Hkin. unfold avail_positions.
        assert (E0 : length (qat qs k) = 0).
        { assert (Hkq : k < length qs) by (unfold qs; rewrite map_length, seq_length; lia).
          unfold qat. clear - Hs0 Hkq. revert k Hkq. induction qs as [|q qs IH]; intros k Hkq; [cbn in Hkq; lia|].
          cbn [map] in Hs0. unfold list_sum in *. cbn [fold_right] in Hs0.
          destruct k as [|k]; cbn [nth]; [lia|]. apply IH; [lia|cbn in Hkq; lia]. }
        rewrite E0. reflexivity.
    + destruct (m_sample_some_ok o ns m qs rb rnd z Hv Hlens Eo Hk Hz ltac:(lia)) as (l & -> & Hl & Hin).
      split; [exact Hl|]. intros i Hi. destruct (Hin i Hi) as (x & Hx & ->). apply Hmem, Hx.
Qed.

(** C11.  [VectorReplayBuffer(total, num)]: [num] sub-buffers of the same capacity, which is the
    least one that gives at least [total] slots. *)
Lemma C11_vector_split_lemma : forall total num, 0 < num ->
  exists n, vec_sizes total num = Ok (repeat n num)
    /\ total <= list_sum (repeat n num) < total + num
    /\ (forall n', total <= n' * num -> n <= n').
Proof.
  intros total num Hn. exists ((total + num - 1) / num). unfold vec_sizes, guard.
  destruct (Nat.ltb_spec 0 num); [|lia]. split; [reflexivity|].
  assert (E : forall k x, list_sum (repeat x k) = k * x).
  { intros k x. induction k as [|k IH]; [reflexivity|]. cbn [repeat]. unfold list_sum in *. cbn [fold_right]. lia. }
  rewrite E. pose proof (Nat.div_mod_eq (total + num - 1) num) as D.
  pose proof (Nat.mod_upper_bound (total + num - 1) num ltac:(lia)) as B.
  split; [lia|]. intros n' H'.
  assert ((total + num - 1) / num < n' + 1); [|lia].
  apply Nat.div_lt_upper_bound; lia.
Qed.

(** C11.  No sub-buffers: rejected. *)
Lemma C11_zero_rejected_lemma : forall total, vec_sizes total 0 = Err AssertionError.
Proof. reflexivity. Qed.

(** C57.  [buffer[index]] on a manager: frame stacks stay inside the episode and inside the
    sub-buffer of the index (same statement as C06, with manager indices). *)
Lemma C57_stacking_lemma : forall (Ob A Inf R : Type) (r0 : R) radd (last_frame : Ob -> Ob) o ns
    (ops : list (mop Ob A Inf R)) m outs ps,
  (forall n, In n ns -> 0 < n) -> 0 < stack_num o ->
  m_run r0 radd last_frame o (m_init r0 ns) ops = Ok (m, outs) ->
  let q k := mqueue last_frame o ns ops k in
  ps <> [] -> (forall x, In x ps -> snd x < length (q (fst x))) ->
  let n := stack_num o in
  let stack k p := map (fun j => nth_error (q k) (Nat.max (first_of (q k) p) (p - (n - 1 - j)))) (seq 0 n) in
  m_getitem o m (map (fun x => Z.of_nat (maddress ns ops x)) ps)
  = Ok (map (fun x => {|
       o_obs := map (option_map s_obs) (stack (fst x) (snd x));
       o_cur := nth_error (q (fst x)) (snd x);
       o_obs_next := if save_obs_next o
                     then map (fun x => match x with Some s => s_obs_next s | None => None end) (stack (fst x) (snd x))
                     else map (option_map s_obs) (stack (fst x) (succ_of (q (fst x)) (snd x)));
       o_info := map (option_map s_info) (stack (fst x) (snd x)) |}) ps).
Proof.
  intros Ob A Inf R r0 radd lf o ns ops m outs ps Hpos Hk Hrun q Hne Hps n stack.
  destruct (run_view r0 radd lf o ns ops m outs Hpos Hrun) as (Hv & _ & Ha & _ & _).
  set (qs := map (mqueue lf o ns ops) (seq 0 (length ns))) in *.
  assert (Hst : forall x, In x ps -> stored qs x) by (intros x Hx; apply stored_mqueue, Hps, Hx).
  rewrite <- (map_ext_in (maddr ns m)) by (intros x Hx; apply Ha, Hst, Hx).
  unfold m_getitem. rewrite (m_get_rows_ok ns m qs _ ps Hv Hne Hk Hst). cbn [bind].
  rewrite (m_rows_ok ns m qs ps Hv Hne Hst).
  assert (Ef : forall k p, frames (qat qs k) (stack_num o) p = stack k p).
  { intros k p. unfold frames, stack, q, n. unfold qs. rewrite qat_mqueue. reflexivity. }
  assert (Eq : forall k, qat qs k = q k) by (intros k; unfold qs; apply qat_mqueue).
  destruct (save_obs_next o).
  - cbn [bind]. f_equal. clear - Ef Eq. induction ps as [|x ps IH]; [reflexivity|]. cbn [map combine fst snd].
    rewrite Ef, Eq. f_equal. exact IH.
  - destruct (m_prev_ok ns m qs ps Hv Hne Hst) as [_ ->]. cbn [bind].
    rewrite <- (map_map (fun x => (fst x, succ_of (qat qs (fst x)) (snd x))) (maddr ns m)).
    rewrite (m_get_rows_ok ns m qs _ _ Hv).
    + cbn [bind]. f_equal. rewrite map_map. clear - Ef Eq. induction ps as [|x ps IH]; [reflexivity|].
      cbn [map combine fst snd]. rewrite !Ef, !Eq. f_equal. exact IH.
    + destruct ps; [contradiction|discriminate].
    + exact Hk.
    + intros x Hx. apply in_map_iff in Hx as (y & <- & Hy). apply stored_iff. cbn [fst snd].
      apply succ_of_lt. apply stored_iff, Hst, Hy.
Qed.
