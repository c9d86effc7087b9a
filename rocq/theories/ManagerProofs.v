(** Simulation between the manager and independent buffers. *)
From Verif Require Import Py PyLemmas BufferModel BufferSpec BufferProofs BufferWalkProofs
  BufferMainProofs ManagerModel ManagerSpec.
Open Scope nat_scope.

(** ** Lists *)
Lemma offsets_length a ns : length (offsets a ns) = length ns.
Proof. revert a; induction ns as [|n ns IH]; intros a; simpl; auto. Qed.

Lemma nth_error_offsets ns : forall a k, k < length ns ->
  nth_error (offsets a ns) k = Some (a + off ns k).
Proof.
  unfold off. induction ns as [|n ns IH]; intros a k H; simpl in H; [lia|].
  destruct k as [|k]; cbn [offsets nth_error firstn list_sum fold_right].
  - f_equal. lia.
  - rewrite IH by lia. f_equal. unfold list_sum. simpl. lia.
Qed.

Lemma off_S ns k n : nth_error ns k = Some n -> off ns (S k) = off ns k + n.
Proof.
  unfold off, list_sum. revert k; induction ns as [|x ns IH]; intros [|k] H; try discriminate.
  - simpl in *. injection H as ->. lia.
  - cbn [nth_error] in H. specialize (IH k H).
    change (firstn (S (S k)) (x :: ns)) with (x :: firstn (S k) ns).
    change (firstn (S k) (x :: ns)) with (x :: firstn k ns). cbn [fold_right]. lia.
Qed.

Lemma list_sum_firstn_le ns k : list_sum (firstn k ns) <= list_sum ns.
Proof.
  revert k; induction ns as [|n ns IH]; intros [|k]; simpl; try lia.
  specialize (IH k). unfold list_sum in *. lia.
Qed.

Lemma off_le_total ns k n : nth_error ns k = Some n -> off ns k + n <= list_sum ns.
Proof. intros H. rewrite <- (off_S ns k n H). apply list_sum_firstn_le. Qed.

Lemma off_mono ns j k : j <= k -> off ns j <= off ns k.
Proof.
  unfold off. revert j k; induction ns as [|n ns IH]; intros [|j] [|k] H; simpl; try lia.
  specialize (IH j k). unfold list_sum in *. lia.
Qed.

Lemma concat_length {T} (ls : list (list T)) : length (concat ls) = list_sum (map (@length T) ls).
Proof. induction ls as [|l ls IH]; simpl; [reflexivity|]. rewrite app_length. unfold list_sum in *. lia. Qed.

Lemma nth_error_concat {T} (ls : list (list T)) : forall k l i,
  nth_error ls k = Some l -> i < length l ->
  nth_error (concat ls) (off (map (@length T) ls) k + i) = nth_error l i.
Proof.
  unfold off. induction ls as [|x ls IH]; intros [|k] l i H Hi; try discriminate.
  - injection H as ->. simpl. rewrite nth_error_app1 by exact Hi. reflexivity.
  - cbn [nth_error] in H. cbn [map concat firstn].
    change (list_sum (length x :: firstn k (map (@length T) ls)))
      with (length x + list_sum (firstn k (map (@length T) ls))).
    rewrite nth_error_app2 by lia.
    replace (length x + list_sum (firstn k (map (@length T) ls)) + i - length x)
      with (list_sum (firstn k (map (@length T) ls)) + i) by lia.
    apply (IH k l i H Hi).
Qed.

Lemma upd_app1 {T} (l r : list T) i x : i < length l -> upd (l ++ r) i x = upd l i x ++ r.
Proof.
  revert i; induction l as [|a l IH]; intros i H; simpl in H; [lia|].
  destruct i as [|i]; simpl; [reflexivity|]. f_equal. apply IH. lia.
Qed.
Lemma upd_app2 {T} (l r : list T) i x : upd (l ++ r) (length l + i) x = l ++ upd r i x.
Proof. induction l as [|a l IH]; simpl; [reflexivity|]. f_equal. exact IH. Qed.

Lemma upd_concat {T} (ls : list (list T)) : forall k l i x,
  nth_error ls k = Some l -> i < length l ->
  upd (concat ls) (off (map (@length T) ls) k + i) x = concat (upd ls k (upd l i x)).
Proof.
  unfold off. induction ls as [|y ls IH]; intros [|k] l i x H Hi; try discriminate.
  - injection H as ->. simpl. apply upd_app1. exact Hi.
  - cbn [nth_error] in H. cbn [map concat firstn upd].
    change (list_sum (length y :: firstn k (map (@length T) ls)))
      with (length y + list_sum (firstn k (map (@length T) ls))).
    rewrite <- Nat.add_assoc, upd_app2. f_equal. apply (IH k l i x H Hi).
Qed.

Lemma map_upd {X Y} (f : X -> Y) l k x : map f (upd l k x) = upd (map f l) k (f x).
Proof. revert k; induction l as [|a l IH]; intros [|k]; simpl; auto. f_equal. apply IH. Qed.

Lemma upd_same {X} (l : list X) k x : nth_error l k = Some x -> upd l k x = l.
Proof.
  revert k; induction l as [|a l IH]; intros [|k] H; try discriminate; simpl in *.
  - injection H as ->. reflexivity.
  - f_equal. apply IH. exact H.
Qed.

Lemma slice_concat {T} (ls : list (list T)) : forall k l, nth_error ls k = Some l ->
  slice (off (map (@length T) ls) k) (length l) (concat ls) = l.
Proof.
  intros k l H. unfold slice. apply nth_error_ext. intros i.
  rewrite nth_error_firstn, nth_error_skipn.
  destruct (Nat.ltb_spec i (length l)) as [Hi|Hi].
  - apply (nth_error_concat ls k l i H Hi).
  - symmetry. apply nth_error_None. exact Hi.
Qed.

Lemma norm_index_mod N id k : norm_index N id = Ok k ->
  (- Z.of_nat N <= id < Z.of_nat N)%Z /\ k < N /\ (id mod Z.of_nat N = Z.of_nat k)%Z.
Proof.
  intros H. pose proof (norm_index_lt _ _ _ H) as Hk. unfold norm_index in H.
  destruct (Z.leb_spec 0 id), (Z.ltb_spec id (Z.of_nat N)),
    (Z.leb_spec (- Z.of_nat N) id), (Z.ltb_spec id 0); simpl in H; try discriminate;
    injection H as <-; split; try lia; split; try lia.
  - rewrite Z.mod_small by lia. lia.
  - rewrite zmod_case by lia. destruct (Z.ltb_spec id 0); lia.
Qed.

Lemma norm_index_total N id : (- Z.of_nat N <= id < Z.of_nat N)%Z -> exists k, norm_index N id = Ok k.
Proof.
  intros H. unfold norm_index.
  destruct (Z.leb_spec 0 id), (Z.ltb_spec id (Z.of_nat N)),
    (Z.leb_spec (- Z.of_nat N) id), (Z.ltb_spec id 0); simpl; eauto; lia.
Qed.

Section Sim.
Context {Ob A Inf R : Type}.
Notation trans := (trans Ob A Inf R).
Notation slot := (slot Ob A Inf R).
Notation bst := (bst R).
Notation buf := (buf Ob A Inf R).
Notation mgr := (mgr Ob A Inf R).

Definition rows (b : buf) : list (option slot) := meta_rows (maxsize (b_st b)) (b_meta b).
Definition bmax (b : buf) : nat := maxsize (b_st b).

(** The manager's state is the juxtaposition of the stand-alone buffers [bs]. *)
Record sim (ns : list nat) (m : mgr) (bs : list buf) : Prop := {
  s_sizes : map bmax bs = ns;
  s_bufs : m_bufs m = map b_st bs;
  s_rows : meta_rows (list_sum ns) (m_meta m) = concat (map rows bs);
  s_len : forall b, In b bs -> length (rows b) = bmax b;
  s_lens : m_lens m = map (fun b => size (b_st b)) bs;
  s_nlast : length (m_last m) = length bs;
  s_last : forall k b, nth_error bs k = Some b ->
     nth_error (m_last m) k = Some (Z.of_nat (last_index (b_st b) + off ns k));
  s_none : m_meta m = None -> forall b, In b bs -> b_meta b = None
}.

Lemma rows_sizes bs : (forall b, In b bs -> length (rows b) = bmax b) ->
  map (@length _) (map rows bs) = map bmax bs.
Proof. intros H. rewrite map_map. apply map_ext_in. exact H. Qed.

Lemma nth_error_In_upd {T} (l : list T) k x y : In y (upd l k x) -> y = x \/ In y l.
Proof.
  revert k; induction l as [|a l IH]; intros [|k]; simpl; auto.
  - intros [<-|H]; auto.
  - intros [<-|H]; auto. destruct (IH k H); auto.
Qed.

Variable r0 : R.
Variable radd : R -> R -> R.
Variable last_frame : Ob -> Ob.

Lemma add_inv o (b : buf) t b' r : add r0 radd last_frame o b t = Ok (b', r) ->
  update_state_pre_add r0 radd (b_st b) (t_rew t) (t_term t || t_trunc t) = Ok (b_st b', r)
  /\ maxsize (b_st b') = maxsize (b_st b)
  /\ last_index (b_st b') = fst (fst (fst r))
  /\ fst (fst (fst r)) < length (rows b)
  /\ b_meta b' = Some (upd (rows b) (fst (fst (fst r))) (Some (row last_frame o t))).
Proof.
  unfold add. destruct (update_state_pre_add _ _ _ _ _) as [[s' [[[i ret] len] st]]|e] eqn:E; [|discriminate].
  cbn [bind]. unfold guard at 1.
  destruct (Nat.ltb_spec i (length (meta_rows (maxsize s') (b_meta b)))) as [Hi|Hi]; [|discriminate].
  intros H. injection H as <- <-. cbn [b_st b_meta fst].
  assert (Hm : maxsize s' = maxsize (b_st b) /\ last_index s' = i).
  { unfold update_state_pre_add, guard in E. destruct (negb _); [|discriminate].
    destruct (negb _); [|discriminate]. injection E as <- <- _ _ _.
    destruct (_ || _); cbn; auto. }
  destruct Hm as [Hm Hl]. unfold rows. rewrite Hm in *. auto.
Qed.

(** One row of a manager [add]: bookkeeping of the addressed buffer and write, in this order. *)
Lemma upd_nth_other {T} (l : list T) k j x y : nth_error l k = Some y -> nth_error (upd l k x) j
  = if k =? j then Some x else nth_error l j.
Proof.
  intros H. assert (k < length l) by (apply nth_error_Some; congruence).
  rewrite nth_error_upd. destruct (Nat.eqb_spec k j); [|reflexivity].
  destruct (Nat.ltb_spec j (length l)); [reflexivity|lia].
Qed.

Definition good (ns : list nat) (bs : list buf) : Prop :=
  Forall2 (fun n b => exists q, inv n b q) ns bs.

Lemma good_nth ns bs k n b : good ns bs -> nth_error ns k = Some n -> nth_error bs k = Some b ->
  exists q, inv n b q.
Proof.
  intros H. revert k. induction H as [|n' b' ns bs H _ IH]; intros [|k] H1 H2; try discriminate.
  - injection H1 as ->. injection H2 as ->. exact H.
  - apply (IH k H1 H2).
Qed.
Lemma good_upd ns bs k n b : good ns bs -> nth_error ns k = Some n -> (exists q, inv n b q) ->
  good ns (upd bs k b).
Proof.
  intros H. revert k. induction H as [|n' b' ns bs H Hr IH]; intros [|k] H1 H2; try discriminate; simpl.
  - injection H1 as ->. constructor; auto.
  - constructor; auto. apply (IH k H1 H2).
Qed.

Lemma select_cons {T} N k id (x : T) l :
  select N k ((id, x) :: l) = if mine N k id then x :: select N k l else select N k l.
Proof. unfold select. simpl. destruct (mine N k id); reflexivity. Qed.

Lemma add_loop_sim o ns : forall xs bs last lens l,
  good ns bs -> map bmax bs = ns ->
  (forall id t, In (id, t) xs -> (- Z.of_nat (length ns) <= id < Z.of_nat (length ns))%Z) ->
  l = concat (map rows bs) -> (forall b, In b bs -> length (rows b) = bmax b) ->
  lens = map (fun b => size (b_st b)) bs -> length last = length bs ->
  (forall k b, nth_error bs k = Some b -> nth_error last k = Some (Z.of_nat (last_index (b_st b) + off ns k))) ->
  exists bs' last' lens' rs,
    add_loop r0 radd (map b_st bs) last lens xs = Ok (map b_st bs', last', lens', rs)
    /\ length rs = length xs
    /\ good ns bs' /\ map bmax bs' = ns
    /\ (forall b, In b bs' -> length (rows b) = bmax b)
    /\ forallb (fun i => i <? length l) (map (fun r => fst (fst (fst r))) rs) = true
    /\ fold_left (fun l ix => upd l (fst ix) (snd ix))
         (combine (map (fun r => fst (fst (fst r))) rs)
                  (map (fun t => Some (row last_frame o t)) (map snd xs))) l
       = concat (map rows bs')
    /\ lens' = map (fun b => size (b_st b)) bs' /\ length last' = length bs'
    /\ (forall k b, nth_error bs' k = Some b -> nth_error last' k = Some (Z.of_nat (last_index (b_st b) + off ns k)))
    /\ (forall k b, nth_error bs k = Some b -> exists b' outs,
          nth_error bs' k = Some b'
          /\ buf_run r0 radd last_frame o b (map OpAdd (select (length ns) k xs)) = Ok (b', outs)
          /\ select (length ns) k (combine (map fst xs) rs) = map (shift (off ns k)) outs).
Proof.
  induction xs as [|[id t] xs IH]; intros bs last lens l Hg Hns Hids Hl Hlen Hlens Hnl Hlast.
  - exists bs, last, lens, []. repeat split; auto.
    intros k b Hb. exists b, []. auto.
  - cbn [add_loop]. rewrite map_length.
    assert (HN : length bs = length ns) by (rewrite <- Hns, map_length; reflexivity).
    destruct (norm_index_total (length bs) id) as [k Hk].
    { rewrite HN. apply (Hids id t). left. reflexivity. }
    rewrite Hk. cbn [bind]. apply norm_index_mod in Hk as (_ & Hk & Hmod).
    destruct (nth_error bs k) as [b|] eqn:Eb; [|apply nth_error_None in Eb; lia].
    rewrite nth_error_map, Eb. cbn [option_map].
    assert (En : nth_error ns k = Some (bmax b)) by (rewrite <- Hns, nth_error_map, Eb; reflexivity).
    destruct (good_nth _ _ _ _ _ Hg En Eb) as [q Hq].
    destruct (add_ok r0 radd last_frame _ b q o t Hq) as (b' & ret & len & Ea & Hq' & _).
    pose proof (add_inv o b t b' _ Ea) as (Eu & Em & El & Hi & Eme). cbn [fst] in *.
    rewrite Eu. cbn [bind].
    rewrite map_map. change (map (fun x => maxsize (b_st x)) bs) with (map bmax bs). rewrite Hns.
    rewrite (nth_error_nth _ _ 0 (nth_error_offsets ns 0 k ltac:(lia))). cbn [Nat.add].
    assert (Hrb : length (rows b) = bmax b) by (apply Hlen; apply nth_error_In with k; exact Eb).
    assert (Hr' : rows b' = upd (rows b) (ins (b_st b)) (Some (row last_frame o t))).
    { unfold rows at 1. rewrite Eme. reflexivity. }
    assert (Hmr : map (@length _) (map rows bs) = ns) by (rewrite rows_sizes by exact Hlen; exact Hns).
    destruct (IH (upd bs k b') (upd last k (Z.of_nat (ins (b_st b) + off ns k)))
                (upd lens k (size (b_st b')))
                (upd l (ins (b_st b) + off ns k) (Some (row last_frame o t))))
      as (bs' & last' & lens' & rs & E & Hlr & Hg' & Hns' & Hlen' & Hidx & Hrows & Hlens' & Hnl' & Hlast' & Hbr).
    + apply (good_upd ns bs k (bmax b) b' Hg En). exists (push (bmax b) q [kept last_frame o t]). exact Hq'.
    + rewrite map_upd. unfold bmax at 2. rewrite Em. change (maxsize (b_st b)) with (bmax b).
      rewrite Hns. apply upd_same. exact En.
    + intros id' t' Hin. apply (Hids id' t'). right. exact Hin.
    + rewrite Hl. rewrite Nat.add_comm, <- Hmr at 1.
      rewrite (upd_concat (map rows bs) k (rows b)) by (try (rewrite nth_error_map, Eb; reflexivity); lia).
      rewrite map_upd, Hr'. reflexivity.
    + intros b0 Hb0. apply nth_error_In_upd in Hb0 as [->|Hb0]; [|apply Hlen; exact Hb0].
      rewrite Hr', upd_length. unfold bmax at 1. rewrite Em. exact Hrb.
    + rewrite map_upd, Hlens. reflexivity.
    + rewrite !upd_length. exact Hnl.
    + intros j b0 Hj. rewrite (upd_nth_other bs k j b' b Eb) in Hj.
      destruct (Nat.eqb_spec k j) as [<-|Hkj].
      * injection Hj as <-. rewrite nth_error_upd_same by lia. rewrite El. reflexivity.
      * rewrite nth_error_upd_other by exact Hkj. apply Hlast. exact Hj.
    + rewrite map_upd in E. exists bs', last', lens', ((ins (b_st b) + off ns k, ret, len, ep_start_idx (b_st b) + off ns k) :: rs).
      rewrite E. cbn [bind].
      split; [reflexivity|]. split; [cbn [length]; lia|].
      split; [exact Hg'|]. split; [exact Hns'|]. split; [exact Hlen'|].
      split.
      { cbn [map forallb fst]. rewrite upd_length in Hidx. rewrite Hidx, andb_true_r.
        apply Nat.ltb_lt. rewrite Hl, concat_length, Hmr. pose proof (off_le_total ns k _ En). lia. }
      split; [cbn [map combine fold_left fst snd]; exact Hrows|].
      split; [exact Hlens'|]. split; [exact Hnl'|]. split; [exact Hlast'|].
      intros j bj Hj.
      cbn [map fst combine]. rewrite !select_cons.
      assert (Hmi : mine (length ns) j id = (Z.of_nat k =? Z.of_nat j)%Z)
        by (unfold mine; rewrite <- HN, Hmod; reflexivity).
      rewrite Hmi.
      destruct (Z.eqb_spec (Z.of_nat k) (Z.of_nat j)) as [Hkj|Hkj].
      * assert (k = j) by lia. subst j. rewrite Eb in Hj. injection Hj as <-.
        destruct (Hbr k b') as (b2 & outs & H1 & H2 & H3).
        { apply nth_error_upd_same. exact Hk. }
        exists b2, ((ins (b_st b), ret, len, ep_start_idx (b_st b)) :: outs).
        split; [exact H1|]. split.
        -- cbn [map buf_run]. rewrite Ea. cbn [bind fst snd]. rewrite H2. reflexivity.
        -- cbn [map]. rewrite H3. reflexivity.
      * destruct (Hbr j bj) as (b2 & outs & H1 & H2 & H3).
        { rewrite nth_error_upd_other by lia. exact Hj. }
        exists b2, outs. auto.
Qed.

Lemma sim_reset ns m bs keep : sim ns m bs -> sim ns (m_reset r0 keep m) (map (buf_reset r0 keep) bs).
Proof.
  intros [H1 H2 H3 H4 H5 H6 H7 H8].
  assert (Er : forall b, rows (buf_reset r0 keep b) = rows b) by reflexivity.
  split.
  - rewrite map_map. exact H1.
  - cbn. rewrite H2, !map_map. reflexivity.
  - cbn. rewrite H3, map_map. f_equal.
  - intros b Hb. apply in_map_iff in Hb as (b0 & <- & Hb0). apply (H4 b0 Hb0).
  - cbn. rewrite H2, map_length, map_map. cbn. clear. induction bs as [|b bs IH]; simpl; congruence.
  - cbn. rewrite map_length. unfold m_offsets, m_sizes. rewrite offsets_length, !map_length, H2, map_length. reflexivity.
  - intros k b Hb. rewrite nth_error_map in Hb. destruct (nth_error bs k) as [b0|] eqn:E; [|discriminate].
    injection Hb as <-. cbn. unfold m_offsets, m_sizes. rewrite H2, map_map.
    change (map (fun x => maxsize (b_st x)) bs) with (map bmax bs). rewrite H1.
    assert (k < length ns) by (rewrite <- H1, map_length; apply nth_error_Some; congruence).
    rewrite nth_error_map, nth_error_offsets by assumption. reflexivity.
  - cbn. intros Hn b Hb. apply in_map_iff in Hb as (b0 & <- & Hb0). apply (H8 Hn b0 Hb0).
Qed.

Lemma good_reset ns bs keep : good ns bs -> good ns (map (buf_reset r0 keep) bs).
Proof.
  intros H. induction H as [|n b ns bs [q Hq] _ IH]; simpl; constructor; auto.
  exists []. apply (inv_reset r0 n b q keep Hq).
Qed.

Lemma sim_init ns : (forall n, In n ns -> 0 < n) ->
  sim ns (m_init r0 ns) (map (buf_init r0) ns) /\ good ns (map (buf_init (A := A) (Inf := Inf) (Ob := Ob) r0) ns).
Proof.
  intros Hpos. split.
  - split.
    + rewrite map_map. cbn. apply map_id.
    + cbn. rewrite map_map. reflexivity.
    + cbn. clear Hpos. induction ns as [|n ns IH]; [reflexivity|]. cbn [map concat list_sum fold_right].
      rewrite <- IH. unfold list_sum. rewrite repeat_app. reflexivity.
    + intros b Hb. apply in_map_iff in Hb as (n & <- & _). cbn. apply repeat_length.
    + cbn. rewrite map_map. clear. induction ns as [|n ns IH]; [reflexivity|]; cbn; f_equal; exact IH.
    + cbn. rewrite !map_length. apply offsets_length.
    + intros k b Hb. rewrite nth_error_map in Hb. destruct (nth_error ns k) as [n|] eqn:E; [|discriminate].
      injection Hb as <-. cbn.
      assert (k < length ns) by (apply nth_error_Some; congruence).
      rewrite nth_error_map, nth_error_offsets by assumption. reflexivity.
    + intros _ b Hb. apply in_map_iff in Hb as (n & <- & _). reflexivity.
  - induction ns as [|n ns IH]; simpl; constructor.
    + exists []. apply inv_init. apply Hpos. left. reflexivity.
    + apply IH. intros n' Hn'. apply Hpos. right. exact Hn'.
Qed.

Definition ids_of (N : nat) (ids : option (list Z)) : list Z :=
  match ids with Some ids => ids | None => map Z.of_nat (seq 0 N) end.

Lemma map_fst_combine {X Y} (l : list X) (l' : list Y) : length l = length l' -> map fst (combine l l') = l.
Proof. revert l'; induction l as [|x l IH]; intros [|y l'] H; simpl in *; try discriminate; auto. f_equal. apply IH. lia. Qed.
Lemma map_snd_combine {X Y} (l : list X) (l' : list Y) : length l = length l' -> map snd (combine l l') = l'.
Proof. revert l'; induction l as [|x l IH]; intros [|y l'] H; simpl in *; try discriminate; auto. f_equal. apply IH. lia. Qed.

Lemma mop_ok_ids N ids ts : mop_ok N (MAdd (Ob := Ob) (A := A) (Inf := Inf) (R := R) ids ts) <->
  length (ids_of N ids) = length ts /\ ids_of N ids <> []
  /\ forall i, In i (ids_of N ids) -> (- Z.of_nat N <= i < Z.of_nat N)%Z.
Proof.
  destruct ids as [ids|]; cbn [mop_ok ids_of]; [tauto|]. rewrite map_length, seq_length.
  split.
  - intros [H1 H2]. split; [congruence|]. split; [destruct N; [lia|discriminate]|].
    intros i Hi. apply in_map_iff in Hi as (j & <- & Hj). apply in_seq in Hj. lia.
  - intros (H1 & H2 & _). split; [congruence|]. destruct N; [contradiction H2; reflexivity|lia].
Qed.

Lemma sim_length ns m bs : sim ns m bs -> length bs = length ns /\ length (m_bufs m) = length ns /\ m_total m = list_sum ns.
Proof.
  intros H. pose proof (s_sizes _ _ _ H) as H1. pose proof (s_bufs _ _ _ H) as H2.
  split; [rewrite <- H1, map_length; reflexivity|]. split; [rewrite H2, <- H1, !map_length; reflexivity|].
  unfold m_total, m_sizes. rewrite H2, map_map. change (map (fun x => maxsize (b_st x)) bs) with (map bmax bs).
  rewrite H1. reflexivity.
Qed.

Lemma m_add_sim o ns m bs ids ts : sim ns m bs -> good ns bs -> mop_ok (length ns) (MAdd ids ts) ->
  exists m' bs' rs, m_add r0 radd last_frame o m ids ts = Ok (m', rs)
    /\ sim ns m' bs' /\ good ns bs' /\ m_meta m' <> None /\ length rs = length ts
    /\ (forall k b, nth_error bs k = Some b -> exists b' outs,
          nth_error bs' k = Some b'
          /\ buf_run r0 radd last_frame o b (map OpAdd (select (length ns) k (combine (ids_of (length ns) ids) ts))) = Ok (b', outs)
          /\ select (length ns) k (combine (ids_of (length ns) ids) rs) = map (shift (off ns k)) outs).
Proof.
  intros Hs Hg Hok. apply mop_ok_ids in Hok as (Hl & Hne & Hid).
  destruct (sim_length _ _ _ Hs) as (Hlb & Hlm & Htot).
  unfold m_add. rewrite Hlm. fold (ids_of (length ns) ids). set (l := ids_of (length ns) ids) in *.
  unfold guard. rewrite Hl, Nat.leb_refl.
  pose proof Hs as [H1 H2 H3 H4 H5 H6 H7 H8].
  destruct (add_loop_sim o ns (combine l ts) bs (m_last m) (m_lens m) (meta_rows (list_sum ns) (m_meta m)))
    as (bs' & last' & lens' & rs & E & Hlr & Hg' & Hns' & Hlen' & Hidx & Hrows & Hlens' & Hnl' & Hlast' & Hbr); auto.
  { intros id t Hin. apply Hid. apply in_combine_l in Hin. exact Hin. }
  rewrite H2, E. cbn [bind].
  assert (Hz : negb (length ts =? 0) = true).
  { apply negb_true_iff, Nat.eqb_neq. rewrite <- Hl. destruct l; [contradiction|discriminate]. }
  rewrite Hz, Nat.eqb_refl, Htot, Hidx.
  rewrite map_snd_combine in Hrows by exact Hl. rewrite Hrows.
  rewrite map_fst_combine in Hbr by exact Hl.
  eexists. exists bs', rs. split; [reflexivity|]. split; [|split; [exact Hg'|split; [discriminate|split; [|exact Hbr]]]].
  - split; cbn [m_bufs m_meta m_last m_lens]; auto.
    discriminate.
  - rewrite Hlr, combine_length, Hl. lia.
Qed.

Lemma buf_run_app o l1 l2 : forall (b : buf), buf_run r0 radd last_frame o b (l1 ++ l2)
  = let* x := buf_run r0 radd last_frame o b l1 in
    let* y := buf_run r0 radd last_frame o (fst x) l2 in
    Ok (fst y, snd x ++ snd y).
Proof.
  induction l1 as [|op l1 IH]; intros b.
  - cbn. destruct (buf_run r0 radd last_frame o b l2) as [[b' rs]|e]; reflexivity.
  - cbn [app buf_run]. destruct op as [t|keep]; [|apply IH].
    destruct (add r0 radd last_frame o b t) as [[b1 r]|e]; [|reflexivity]. cbn [bind fst snd].
    rewrite IH. destruct (buf_run r0 radd last_frame o b1 l1) as [[b2 rs2]|e]; [|reflexivity].
    cbn [bind fst snd]. destruct (buf_run r0 radd last_frame o b2 l2) as [[b3 rs3]|e]; reflexivity.
Qed.

Lemma select_app {T} N k (l1 l2 : list (Z * T)) : select N k (l1 ++ l2) = select N k l1 ++ select N k l2.
Proof. unfold select. rewrite filter_app, map_app. reflexivity. Qed.

Lemma m_run_sim o ns : forall ops m bs, sim ns m bs -> good ns bs -> Forall (mop_ok (length ns)) ops ->
  exists m' bs' outs, m_run r0 radd last_frame o m ops = Ok (m', outs)
    /\ sim ns m' bs' /\ good ns bs'
    /\ ((exists ids ts, In (MAdd ids ts) ops) \/ m_meta m <> None -> m_meta m' <> None)
    /\ (forall k b, nth_error bs k = Some b -> exists b' bouts,
          nth_error bs' k = Some b'
          /\ buf_run r0 radd last_frame o b (proj (length ns) k ops) = Ok (b', bouts)
          /\ select (length ns) k outs = map (shift (off ns k)) bouts).
Proof.
  induction ops as [|op ops IH]; intros m bs Hs Hg Hok.
  - exists m, bs, []. repeat split; auto; try apply Hs.
    + intros [(ids & ts & [])|H]; exact H.
    + intros k b Hb. exists b, []. auto.
  - inversion Hok as [|? ? Hop Hrest]; subst. destruct op as [ids ts|keep].
    + destruct (m_add_sim o ns m bs ids ts Hs Hg Hop) as (m1 & bs1 & rs & E1 & Hs1 & Hg1 & Hm1 & Hlr & Hb1).
      destruct (IH m1 bs1 Hs1 Hg1 Hrest) as (m2 & bs2 & outs & E2 & Hs2 & Hg2 & Hm2 & Hb2).
      cbn [m_run]. rewrite E1. cbn [bind fst snd]. rewrite E2. cbn [bind fst snd].
      destruct (sim_length _ _ _ Hs) as (_ & Hlm & _). rewrite Hlm.
      fold (ids_of (length ns) ids).
      do 3 eexists. split; [reflexivity|]. split; [exact Hs2|]. split; [exact Hg2|].
      split; [intros _; apply Hm2; right; exact Hm1|].
      intros k b Hb. destruct (Hb1 k b Hb) as (b1 & o1 & F1 & F2 & F3).
      destruct (Hb2 k b1 F1) as (b2 & o2 & F4 & F5 & F6).
      exists b2, (o1 ++ o2). split; [exact F4|]. split.
      * cbn [proj]. fold (ids_of (length ns) ids). rewrite buf_run_app, F2. cbn [bind fst snd]. rewrite F5. reflexivity.
      * rewrite select_app, F3, F6, map_app. reflexivity.
    + destruct (IH (m_reset r0 keep m) (map (buf_reset r0 keep) bs) (sim_reset _ _ _ keep Hs) (good_reset _ _ keep Hg) Hrest)
        as (m2 & bs2 & outs & E2 & Hs2 & Hg2 & Hm2 & Hb2).
      cbn [m_run]. exists m2, bs2, outs. split; [exact E2|]. split; [exact Hs2|]. split; [exact Hg2|].
      split.
      * intros [(ids & ts & [Hin|Hin])|H]; [discriminate|apply Hm2; left; eauto|apply Hm2; right; exact H].
      * intros k b Hb. destruct (Hb2 k (buf_reset r0 keep b)) as (b2 & o2 & F1 & F2 & F3).
        { rewrite nth_error_map, Hb. reflexivity. }
        exists b2, o2. auto.
Qed.

(** Only well-formed calls succeed. *)
Lemma add_loop_ids : forall xs (bufs : list bst) last lens r,
  add_loop r0 radd bufs last lens xs = Ok r ->
  length (snd r) = length xs /\
  forall id (t : trans), In (id, t) xs -> (- Z.of_nat (length bufs) <= id < Z.of_nat (length bufs))%Z.
Proof.
  induction xs as [|[id t] xs IH]; intros bufs last lens r H.
  - cbn in H. injection H as <-. cbn. split; [reflexivity|]. intros id t [].
  - cbn [add_loop] in H. destruct (norm_index (length bufs) id) as [k|e] eqn:Ek; [|discriminate].
    cbn [bind] in H. destruct (nth_error bufs k) as [s|] eqn:Es; [|discriminate].
    destruct (update_state_pre_add _ _ _ _ _) as [[s' [[[i ret] len] st]]|e]; [|discriminate]. cbn [bind] in H.
    destruct (add_loop _ _ _ _ _ xs) as [[[[b1 l1] n1] rs]|e] eqn:E; [|discriminate]. cbn [bind] in H.
    injection H as <-. apply IH in E as [E1 E2]. cbn [snd length] in *. split; [lia|].
    intros id' t' [Hin|Hin].
    + injection Hin as <- <-. apply norm_index_mod in Ek as (Ek & _). exact Ek.
    + specialize (E2 id' t' Hin). rewrite upd_length in E2. exact E2.
Qed.

Lemma m_add_wf o ns m bs ids ts x : sim ns m bs -> m_add r0 radd last_frame o m ids ts = Ok x ->
  mop_ok (length ns) (MAdd ids ts).
Proof.
  intros Hs. destruct (sim_length _ _ _ Hs) as (_ & Hlm & _).
  unfold m_add. rewrite Hlm. fold (ids_of (length ns) ids). unfold guard.
  destruct (_ <=? _); [|discriminate].
  destruct (add_loop _ _ _ _ _ _) as [[[[b1 l1] n1] rs]|e] eqn:E; [|discriminate]. cbn [bind].
  destruct (Nat.eqb_spec (length (ids_of (length ns) ids)) 0) as [Hz|Hz]; [discriminate|]. cbn [negb].
  destruct (Nat.eqb_spec (length (ids_of (length ns) ids)) (length ts)) as [Hl|Hl]; [|discriminate].
  intros _. apply mop_ok_ids. split; [exact Hl|]. split; [intros Hn; rewrite Hn in Hz; contradiction|].
  apply add_loop_ids in E as [_ E]. rewrite Hlm in E.
  intros i Hi. apply In_nth_error in Hi as [j Hj].
  destruct (nth_error ts j) as [t|] eqn:Et.
  - apply (E i t). apply nth_error_In with j. clear - Hj Et. revert j ts Hj Et.
    induction (ids_of (length ns) ids) as [|a l IH]; intros [|j] [|t0 ts] Hj Et; try discriminate; cbn in *.
    + congruence.
    + apply IH; assumption.
  - apply nth_error_None in Et. assert (j < length (ids_of (length ns) ids)) by (apply nth_error_Some; congruence). lia.
Qed.

Lemma m_run_wf o ns : forall ops m bs x, sim ns m bs -> good ns bs ->
  m_run r0 radd last_frame o m ops = Ok x -> Forall (mop_ok (length ns)) ops.
Proof.
  induction ops as [|op ops IH]; intros m bs x Hs Hg H; constructor.
  - destruct op as [ids ts|keep]; [|exact I]. cbn [m_run] in H.
    destruct (m_add _ _ _ _ _ _ _) as [y|e] eqn:E; [|discriminate]. apply (m_add_wf o ns m bs ids ts y Hs E).
  - destruct op as [ids ts|keep]; cbn [m_run] in H.
    + destruct (m_add _ _ _ _ _ _ _) as [y|e] eqn:E; [|discriminate]. cbn [bind] in H.
      pose proof (m_add_wf o ns m bs ids ts y Hs E) as Hok.
      destruct (m_add_sim o ns m bs ids ts Hs Hg Hok) as (m1 & bs1 & rs & E1 & Hs1 & Hg1 & _).
      rewrite E in E1. injection E1 as ->. cbn [fst] in H.
      destruct (m_run _ _ _ _ m1 ops) as [z|e] eqn:Er; [|discriminate]. apply (IH m1 bs1 z Hs1 Hg1 Er).
    + apply (IH _ _ x (sim_reset _ _ _ keep Hs) (good_reset _ _ keep Hg) H).
Qed.

(** ** Content of a buffer after a run *)
Lemma buf_run_inv o n : forall ops (b : buf) q b' rs, inv n b q ->
  buf_run r0 radd last_frame o b ops = Ok (b', rs) -> inv n b' (queue_from last_frame o n q ops).
Proof.
  induction ops as [|op ops IH]; intros b q b' rs Hi H.
  - cbn in *. injection H as <- <-. exact Hi.
  - destruct op as [t|keep]; cbn [buf_run queue_from] in *.
    + destruct (add_ok r0 radd last_frame n b q o t Hi) as (b1 & ret & len & E & Hi1 & _).
      rewrite E in H. cbn [bind fst snd] in H.
      destruct (buf_run r0 radd last_frame o b1 ops) as [[b2 rs2]|e] eqn:E2; [|discriminate].
      cbn [bind fst snd] in H. injection H as <- <-. apply (IH b1 _ b2 rs2 Hi1 E2).
    + apply (IH _ _ b' rs (inv_reset r0 n b q keep Hi) H).
Qed.

End Sim.
