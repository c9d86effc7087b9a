(** * CachedReplayBuffer refines the episode specification *)
From Coq Require FinFun.
From Verif Require Import Py PyLemmas BufferModel BufferSpec BufferProofs BufferWalkProofs BufferMainProofs
  ManagerModel ManagerSpec ManagerProofs ManagerWalkProofs ManagerMainProofs CachedModel CachedSpec CachedProofs.
Open Scope nat_scope.

Lemma off_cons_repeat n0 c num k : k <= num -> off (n0 :: repeat c num) (S k) = n0 + k * c.
Proof.
  intros H. unfold off. cbn [firstn]. unfold list_sum. cbn [fold_right]. f_equal.
  revert k H; induction num as [|num IH]; intros k H; destruct k as [|k]; try lia; [reflexivity|reflexivity|].
  cbn [repeat firstn fold_right]. rewrite IH by lia. lia.
Qed.

Lemma fst_comb {X Y} (l : list X) (l' : list Y) : length l = length l' -> map fst (combine l l') = l.
Proof. revert l'; induction l as [|a l IH]; intros [|b l'] H; try discriminate; cbn; [reflexivity|]. f_equal. apply IH. cbn in H. lia. Qed.
Lemma snd_comb {X Y} (l : list X) (l' : list Y) : length l = length l' -> map snd (combine l l') = l'.
Proof. revert l'; induction l as [|a l IH]; intros [|b l'] H; try discriminate; cbn; [reflexivity|]. f_equal. apply IH. cbn in H. lia. Qed.

Section SelectUnique.
Context {T : Type}.
Lemma select_none N k (xs : list (Z * T)) :
  (forall i t, In (i, t) xs -> (0 <= i < Z.of_nat N)%Z) -> ~ In (Z.of_nat k) (map fst xs) -> select N k xs = [].
Proof.
  induction xs as [|[i t] xs IH]; intros Hr Hn; [reflexivity|]. rewrite select_cons.
  unfold mine. specialize (Hr i t (or_introl eq_refl)) as Hi. rewrite Z.mod_small by exact Hi.
  destruct (Z.eqb_spec i (Z.of_nat k)) as [->|_]; [exfalso; apply Hn; left; reflexivity|].
  apply IH; [intros i' t' H; apply (Hr i' t'); right; exact H|]. intros H. apply Hn. right. exact H.
Qed.
Lemma select_one N k (xs : list (Z * T)) t :
  (forall i t, In (i, t) xs -> (0 <= i < Z.of_nat N)%Z) -> NoDup (map fst xs) -> In (Z.of_nat k, t) xs ->
  select N k xs = [t].
Proof.
  induction xs as [|[i t0] xs IH]; intros Hr Hn Hin; [destruct Hin|]. rewrite select_cons.
  unfold mine. specialize (Hr i t0 (or_introl eq_refl)) as Hi. rewrite Z.mod_small by exact Hi.
  cbn [map] in Hn. inversion Hn as [|? ? Hni Hnd]; subst.
  assert (Hr' : forall i t, In (i, t) xs -> (0 <= i < Z.of_nat N)%Z) by (intros i' t' H; apply (Hr i' t'); right; exact H).
  destruct Hin as [E|Hin].
  - injection E as -> ->. rewrite Z.eqb_refl. f_equal. apply select_none; assumption.
  - destruct (Z.eqb_spec i (Z.of_nat k)) as [->|_].
    + exfalso. apply Hni. apply in_map_iff. exists (Z.of_nat k, t). auto.
    + apply IH; assumption.
Qed.
End SelectUnique.

Section CMain.
Context {Ob A Inf R : Type}.
Notation trans := (trans Ob A Inf R).
Notation slot := (slot Ob A Inf R).
Notation buf := (buf Ob A Inf R).
Notation mgr := (mgr Ob A Inf R).
Notation cst := (cst Ob A Inf R).
Variable r0 : R.
Variable radd : R -> R -> R.
Variable last_frame : Ob -> Ob.
Variable o : opts.

Definition isdone (t : trans) : bool := t_term t || t_trunc t.

(** A cache holding the running episode [e], with the rewards [rw]. *)
Definition cinv (c : nat) (b : buf) (x : list slot * list R) : Prop :=
  inv c b (lastn c (fst x)) /\ ins (b_st b) = length (fst x) mod c /\ ep_start_idx (b_st b) = 0
  /\ ep_len (b_st b) = length (snd x) /\ ep_return (b_st b) = total r0 radd (snd x).

Definition grow (x : list slot * list R) (t : trans) : list slot * list R :=
  (fst x ++ [kept last_frame o t], snd x ++ [t_rew t]).

(** What the manager reports for a row added to a cache in state [x]. *)
Definition crow (x : list slot * list R) (c : nat) (t : trans) : nat * R * nat * nat :=
  (length (fst x) mod c, if isdone t then total r0 radd (snd (grow x t)) else r0,
   if isdone t then length (snd (grow x t)) else 0, 0).

Lemma cinv_add c b x t : cinv c b x -> exists b',
  add r0 radd last_frame o b t = Ok (b', crow x c t)
  /\ inv c b' (lastn c (fst (grow x t))) /\ (isdone t = false -> cinv c b' (grow x t)).
Proof.
  intros (H1 & H2 & H3 & H4 & H5).
  destruct (add_ok r0 radd last_frame c b _ o t H1) as (b' & ret & len & E & Hi & _ & _ & Ei & _).
  assert (Hg : inv c b' (lastn c (fst (grow x t)))).
  { unfold grow. cbn [fst]. rewrite <- lastn_app_lastn. exact Hi. }
  pose proof (add_inv r0 radd last_frame o b t b' _ E) as (Eu & _).
  pose proof (i_pos _ _ (i_s _ _ _ H1)) as Hpos.
  assert (Er : (ins (b_st b), ret, len, ep_start_idx (b_st b)) = crow x c t
               /\ (isdone t = false -> ep_start_idx (b_st b') = 0 /\ ep_len (b_st b') = length (snd (grow x t))
                   /\ ep_return (b_st b') = total r0 radd (snd (grow x t)))).
  { unfold update_state_pre_add, guard in Eu. destruct (negb (maxsize (b_st b) =? 0)); [|discriminate].
    destruct (negb _); [|discriminate].
    change (t_term t || t_trunc t) with (isdone t) in Eu.
    unfold crow, grow. cbn [fst snd]. rewrite total_snoc, app_length, <- H2, <- H4, <- H5. cbn [length].
    rewrite H3 in *. destruct (isdone t).
    - injection Eu as Es <- <-. split; [reflexivity|discriminate].
    - injection Eu as Es <- <-. split; [reflexivity|]. intros _. rewrite <- Es. cbn. auto. }
  destruct Er as [Er Er']. exists b'. rewrite <- Er. split; [exact E|]. split; [exact Hg|].
  intros Hd. destruct (Er' Hd) as (G1 & G2 & G3). split; [exact Hg|].
  split; [|auto]. rewrite Ei. cbn [advance ins]. unfold grow. cbn [fst]. rewrite app_length. cbn [length].
  rewrite (i_max _ _ (i_s _ _ _ H1)), H2, Nat.add_mod_idemp_l by lia. reflexivity.
Qed.

Lemma cinv_reset c b q x keep : inv c b q -> (keep = true -> cinv c b x) ->
  cinv c (buf_reset r0 keep b) ([], if keep then snd x else []).
Proof.
  intros Hi Hx. pose proof (i_pos _ _ (i_s _ _ _ Hi)) as Hpos. split; [apply (inv_reset r0 c b q keep Hi)|].
  cbn. rewrite Nat.mod_0_l by lia. repeat split.
  - destruct keep; [|reflexivity]. apply (Hx eq_refl).
  - destruct keep; [|reflexivity]. apply (Hx eq_refl).
Qed.

Variables n0 c num : nat.
Definition cns : list nat := n0 :: repeat c num.

Definition cur_at (st : cst) (k : nat) : list slot * list R := nth k (c_cur st) ([], []).

(** Caches named in [xs] have already received their row. *)
Definition cacheok (st : cst) (xs : list (Z * trans)) (k : nat) (b : buf) : Prop :=
  (forall t, In (Z.of_nat k, t) xs -> inv c b (lastn c (fst (grow (cur_at st k) t)))
             /\ (isdone t = false -> cinv c b (grow (cur_at st k) t)))
  /\ (~ In (Z.of_nat k) (map fst xs) -> cinv c b (cur_at st k)).

Definition jinv (m : mgr) (st : cst) (xs : list (Z * trans)) : Prop :=
  exists bs, sim cns m bs /\ length (c_cur st) = num
    /\ (exists b0, nth_error bs 0 = Some b0 /\ inv n0 b0 (c_main n0 c st)
                   /\ ins (b_st b0) = length (c_moved c st) mod n0)
    /\ forall k, k < num -> exists b, nth_error bs (S k) = Some b /\ bmax b = c /\ cacheok st xs k b.

Definition cexp (st : cst) (x : Z * trans) : nat * R * nat * nat :=
  ManagerSpec.shift (off cns (S (Z.to_nat (fst x)))) (crow (cur_at st (Z.to_nat (fst x))) c (snd x)).

Lemma cur_at_upd st fin k x k' : k < length (c_cur st) ->
  cur_at (mkCst fin (upd (c_cur st) k x)) k' = if k =? k' then x else cur_at st k'.
Proof.
  intros H. unfold cur_at. cbn [c_cur]. destruct (Nat.eqb_spec k k') as [<-|Hk].
  - apply nth_error_nth. apply nth_error_upd_same. exact H.
  - destruct (nth_error (c_cur st) k') as [y|] eqn:E.
    + rewrite (nth_error_nth _ _ _ E). apply nth_error_nth. rewrite nth_error_upd_other by exact Hk. exact E.
    + apply nth_error_None in E. rewrite !nth_overflow; [reflexivity|exact E|rewrite upd_length; exact E].
Qed.

Definition dones (xs : list (Z * trans)) : list Z :=
  map (fun x => fst x + 1)%Z (filter (fun x => isdone (snd x)) xs).

Lemma c_moves_ok : forall xs (m : mgr) st, jinv m st xs -> m_meta m <> None ->
  NoDup (map fst xs) -> (forall i t, In (i, t) xs -> (0 <= i < Z.of_nat num)%Z) ->
  exists m' mv, c_moves r0 m (dones xs) = Ok (m', mv)
    /\ jinv m' (fst (c_events r0 radd last_frame o n0 c st xs)) [] /\ m_meta m' <> None
    /\ c_fill (map (fun x => isdone (snd x)) xs) (map (cexp st) xs) mv
       = snd (c_events r0 radd last_frame o n0 c st xs).
Proof.
  induction xs as [|[id t] xs IH]; intros m st HJ Hm Hnd Hr.
  - exists m, []. cbn. auto.
  - cbn [map fst] in Hnd. inversion Hnd as [|? ? Hni Hnd']; subst.
    assert (Hid : (0 <= id < Z.of_nat num)%Z) by (apply (Hr id t); left; reflexivity).
    assert (Hr' : forall i t, In (i, t) xs -> (0 <= i < Z.of_nat num)%Z) by (intros i t' H; apply (Hr i t'); right; exact H).
    set (k := Z.to_nat id). assert (Hk : k < num) by (unfold k; lia).
    assert (Eid : id = Z.of_nat k) by (unfold k; lia).
    destruct HJ as (bs & Hs & Hlc & (b0 & E0 & Hi0 & Hins0) & Hc).
    assert (Hext : forall st' , (forall k', Z.of_nat k' <> id -> cur_at st' k' = cur_at st k') -> map (cexp st) xs = map (cexp st') xs).
    { intros st' Hst'. apply map_ext_in. intros [i t'] Hin. unfold cexp. cbn [fst snd].
      rewrite Hst'; [reflexivity|]. intros Hx. apply Hni. apply in_map_iff. exists (i, t'). cbn.
      split; [specialize (Hr' _ _ Hin); lia|exact Hin]. }
    cbn [c_events]. fold k. unfold c_event.
    change (nth k (c_cur st) ([], [])) with (cur_at st k).
    destruct (cur_at st k) as [e rw] eqn:Ecur.
    change (t_term t || t_trunc t) with (isdone t).
    destruct (Hc k Hk) as (bk & Ek & Hbk & Hck).
    destruct (proj1 Hck t) as [Hg1 Hg2]; [left; f_equal; exact Eid|]. rewrite Ecur in Hg1, Hg2.
    unfold dones. cbn [filter map snd].
    destruct (isdone t) eqn:Ed.
    + set (st' := mkCst (c_fin st ++ [e ++ [kept last_frame o t]]) (upd (c_cur st) k ([], []))).
      cbn [map fst c_moves]. change (map (fun y => (fst y + 1)%Z) (filter (fun y => isdone (snd y)) xs)) with (dones xs).
      assert (Hqne : lastn c (fst (grow (e, rw) t)) <> []).
      { intros Hx. apply (f_equal (@length _)) in Hx. rewrite lastn_length in Hx. unfold grow in Hx. cbn [fst] in Hx.
        rewrite app_length in Hx. cbn [length] in Hx. pose proof (i_pos _ _ (i_s _ _ _ Hg1)). lia. }
      destruct (c_move_ok r0 cns m bs (S k) (id + 1) b0 bk (c_main n0 c st) (lastn c (fst (grow (e, rw) t))) n0
                  Hs Hm E0 Ek ltac:(lia) ltac:(lia) Hi0 ltac:(rewrite Hbk; exact Hg1) Hqne)
        as (m' & b0' & Em & Hs' & Hm' & Hi0' & Hins').
      rewrite Em. cbn [bind fst snd].
      assert (Hklen : S k < length bs) by (apply nth_error_Some; congruence).
      assert (Emoved : c_moved c st' = c_moved c st ++ lastn c (fst (grow (e, rw) t))).
      { unfold c_moved, st'. cbn [c_fin]. rewrite map_app, concat_app. cbn [map concat]. rewrite app_nil_r. reflexivity. }
      destruct (IH m' st') as (m2 & mv & Emv & HJ2 & Hm2 & Hf); [|exact Hm'|exact Hnd'|exact Hr'|].
      { exists (upd (upd bs 0 b0') (S k) (buf_reset r0 false bk)). split; [exact Hs'|].
        split; [unfold st'; cbn [c_cur]; rewrite upd_length; exact Hlc|]. split.
        - exists b0'. split; [rewrite nth_error_upd_other by lia; apply nth_error_upd_same; lia|]. split.
          + unfold c_main. rewrite Emoved, <- lastn_app_lastn. exact Hi0'.
          + rewrite Hins', Hins0, Emoved, app_length.
            pose proof (i_pos _ _ (i_s _ _ _ Hi0)). rewrite Nat.add_mod_idemp_l by lia. reflexivity.
        - intros k' Hk'. destruct (Nat.eq_dec k k') as [<-|Hkk].
          + exists (buf_reset r0 false bk). split; [apply nth_error_upd_same; rewrite upd_length; exact Hklen|].
            split; [exact Hbk|]. split.
            * intros t' Hin. exfalso. apply Hni. apply in_map_iff. exists (Z.of_nat k, t'). auto.
            * intros _. unfold st'. rewrite cur_at_upd by lia. rewrite Nat.eqb_refl.
              apply (cinv_reset c bk _ ([],[]) false Hg1). discriminate.
          + destruct (Hc k' Hk') as (b' & Eb' & Hb' & Hcb'). exists b'. split.
            * rewrite nth_error_upd_other by lia. rewrite nth_error_upd_other by lia. exact Eb'.
            * split; [exact Hb'|]. unfold cacheok in *. unfold st'. rewrite cur_at_upd by lia.
              destruct (Nat.eqb_spec k k'); [contradiction|]. destruct Hcb' as [P1 P2]. split.
              -- intros t' Hin. apply P1. right. exact Hin.
              -- intros Hni'. apply P2. intros [Hx|Hx]; [cbn in Hx; lia|contradiction]. }
      rewrite Emv. cbn [bind fst snd].
      exists m2, ((Z.of_nat (ins (b_st b0)), Z.of_nat ((ins (b_st b0) + length (lastn c (fst (grow (e, rw) t))) - 1) mod n0)) :: mv).
      split; [reflexivity|].
      assert (Efst : fst (let '(st'', rs) := c_events r0 radd last_frame o n0 c st' xs in
                 (st'', (Z.of_nat ((length (c_moved c st) + Nat.min c (length (e ++ [kept last_frame o t])) - 1) mod n0),
                   total r0 radd (rw ++ [t_rew t]), length (rw ++ [t_rew t]),
                   Z.of_nat (length (c_moved c st) mod n0)) :: rs)) = fst (c_events r0 radd last_frame o n0 c st' xs))
        by (destruct (c_events _ _ _ _ _ _ st' xs); reflexivity).
      rewrite Efst. split; [exact HJ2|]. split; [exact Hm2|].
      cbn [map c_fill snd]. unfold cexp at 1. cbn [fst snd]. fold k. rewrite Ecur. unfold crow, ManagerSpec.shift. rewrite Ed.
      rewrite (Hext st').
      2:{ intros k' Hx. unfold st'. rewrite cur_at_upd by lia. destruct (Nat.eqb_spec k k'); [lia|reflexivity]. }
      rewrite Hf. destruct (c_events r0 radd last_frame o n0 c st' xs) as [s2 rs2]. cbn [snd].
      unfold grow. cbn [fst snd]. rewrite lastn_length, Hins0.
      pose proof (i_pos _ _ (i_s _ _ _ Hi0)) as Hn0. pose proof (i_pos _ _ (i_s _ _ _ Hg1)) as Hc0.
      assert (HL : 0 < Nat.min c (length (e ++ [kept last_frame o t]))) by (rewrite app_length; cbn [length]; lia).
      replace ((length (c_moved c st) mod n0 + Nat.min c (length (e ++ [kept last_frame o t])) - 1) mod n0)
        with ((length (c_moved c st) + Nat.min c (length (e ++ [kept last_frame o t])) - 1) mod n0); [reflexivity|].
      rewrite <- !Nat.add_sub_assoc by lia. rewrite Nat.add_mod_idemp_l by lia. reflexivity.
    + set (st' := mkCst (c_fin st) (upd (c_cur st) k (e ++ [kept last_frame o t], rw ++ [t_rew t]))).
      destruct (IH m st') as (m2 & mv & Emv & HJ2 & Hm2 & Hf); [|exact Hm|exact Hnd'|exact Hr'|].
      { exists bs. split; [exact Hs|]. split; [unfold st'; cbn [c_cur]; rewrite upd_length; exact Hlc|]. split.
        - exists b0. auto.
        - intros k' Hk'. destruct (Hc k' Hk') as (b' & Eb' & Hb' & Hcb'). exists b'. split; [exact Eb'|]. split; [exact Hb'|].
          unfold cacheok in *. unfold st'. rewrite cur_at_upd by lia. destruct (Nat.eqb_spec k k') as [<-|Hkk].
          + split.
            * intros t' Hin. exfalso. apply Hni. apply in_map_iff. exists (Z.of_nat k, t'). auto.
            * intros _. rewrite Ek in Eb'. injection Eb' as <-. apply (Hg2 eq_refl).
          + destruct Hcb' as [P1 P2]. split.
            * intros t' Hin. apply P1. right. exact Hin.
            * intros Hni'. apply P2. intros [Hx|Hx]; [cbn in Hx; lia|contradiction]. }
      exists m2, mv. split; [exact Emv|].
      assert (Efst : forall r, fst (let '(st'', rs) := c_events r0 radd last_frame o n0 c st' xs in (st'', r :: rs))
                 = fst (c_events r0 radd last_frame o n0 c st' xs))
        by (intros r; destruct (c_events _ _ _ _ _ _ st' xs); reflexivity).
      rewrite Efst. split; [exact HJ2|]. split; [exact Hm2|].
      cbn [map c_fill snd]. rewrite ?Ed. unfold cexp at 1. cbn [fst snd]. fold k. rewrite Ecur. unfold crow, ManagerSpec.shift. rewrite Ed.
      rewrite (Hext st').
      2:{ intros k' Hx. unfold st'. rewrite cur_at_upd by lia. destruct (Nat.eqb_spec k k'); [lia|reflexivity]. }
      rewrite Hf. destruct (c_events r0 radd last_frame o n0 c st' xs) as [s2 rs2]. cbn [snd].
      unfold cns. rewrite off_cons_repeat by lia. cbn [fst Nat.add].
      replace (length e mod c + (n0 + k * c)) with (n0 + k * c + length e mod c) by lia.
      reflexivity.
Qed.

Definition cids (ids : option (list Z)) : list Z :=
  match ids with Some ids => ids | None => map Z.of_nat (seq 0 num) end.

Lemma cop_ok_ids ids ts : 0 < num -> cop_ok num (CAdd (Ob := Ob) (A := A) (Inf := Inf) (R := R) ids ts) ->
  length (cids ids) = length ts /\ cids ids <> [] /\ NoDup (cids ids)
  /\ forall i, In i (cids ids) -> (0 <= i < Z.of_nat num)%Z.
Proof.
  intros Hnum. destruct ids as [ids|]; cbn [cop_ok cids]; [tauto|]. intros H.
  rewrite map_length, seq_length. split; [congruence|]. split; [destruct num; [lia|discriminate]|].
  split; [apply FinFun.Injective_map_NoDup; [intros x y; lia|apply seq_NoDup]|].
  intros i Hi. apply in_map_iff in Hi as (j & <- & Hj). apply in_seq in Hj. lia.
Qed.

Lemma jinv_cache st m k : jinv m st [] -> k < num -> exists b bs, sim cns m bs /\ nth_error bs (S k) = Some b /\ cinv c b (cur_at st k).
Proof.
  intros (bs & Hs & _ & _ & Hc) Hk. destruct (Hc k Hk) as (b & Eb & _ & Hb). exists b, bs.
  split; [exact Hs|]. split; [exact Eb|]. apply Hb. auto.
Qed.

Lemma c_add_ok (m : mgr) st ids ts : 0 < n0 -> 0 < c -> 0 < num -> jinv m st [] -> cop_ok num (CAdd ids ts) ->
  exists m', c_add r0 radd last_frame o m ids ts
     = Ok (m', snd (c_events r0 radd last_frame o n0 c st (combine (cids ids) ts)))
    /\ jinv m' (fst (c_events r0 radd last_frame o n0 c st (combine (cids ids) ts))) [] /\ m_meta m' <> None.
Proof.
  intros Hn0 Hc0 Hnum HJ Hop. destruct (cop_ok_ids ids ts Hnum Hop) as (H1 & H2 & H3 & H4).
  destruct HJ as (bs & Hs & Hlc & (b0 & E0 & Hi0 & Hins0) & Hc).
  destruct (sim_length _ _ _ Hs) as (Hlb & Hlm & _).
  assert (HlN : length cns = S num) by (unfold cns; cbn [length]; rewrite repeat_length; reflexivity).
  set (ids' := map (fun i => i + 1)%Z (cids ids)).
  assert (Eids : (match ids with None => map Z.of_nat (seq 1 (length (m_bufs m) - 1))
             | Some ids => map (fun i => i + 1)%Z ids end) = ids').
  { unfold ids'. destruct ids as [l|]; [reflexivity|]. unfold cids. rewrite Hlm, HlN. cbn [Nat.sub]. rewrite Nat.sub_0_r.
    rewrite map_map, <- seq_shift, map_map. apply map_ext. intros a. lia. }
  set (xs := combine (cids ids) ts).
  assert (Exs : combine ids' ts = map (fun x => (fst x + 1, snd x)%Z) xs).
  { unfold xs, ids'. clear. generalize (cids ids) as l. intros l. revert ts. induction l as [|a l IH]; intros [|t ts]; try reflexivity.
    cbn [map combine fst snd]. rewrite IH. reflexivity. }
  assert (Hmf : map fst xs = cids ids) by (apply fst_comb; exact H1).
  assert (Hms : map snd xs = ts) by (apply snd_comb; exact H1).
  assert (Hnd : NoDup (map fst xs)) by (rewrite Hmf; exact H3).
  assert (Hr : forall i t, In (i, t) xs -> (0 <= i < Z.of_nat num)%Z).
  { intros i t Hin. apply H4. rewrite <- Hmf. apply in_map_iff. exists (i, t). auto. }
  assert (Hg : good cns bs).
  { unfold good. assert (G : forall l ns, length l = length ns -> (forall k b n, nth_error l k = Some b -> nth_error ns k = Some n -> exists q, inv (Ob := Ob) (A := A) (Inf := Inf) (R := R) n b q) ->
      Forall2 (fun n b => exists q, inv n b q) ns l).
    { clear. induction l as [|b l IH]; intros [|n ns] Hl H; try discriminate; constructor.
      - apply (H 0 b n eq_refl eq_refl).
      - apply IH; [cbn in Hl; lia|]. intros k b' n' H1 H2. apply (H (S k) b' n' H1 H2). }
    apply G; [exact Hlb|]. intros k b n Eb En. destruct k as [|k].
    - rewrite E0 in Eb. injection Eb as <-. unfold cns in En. cbn in En. injection En as <-. eauto.
    - assert (Hk : k < num).
      { assert (S k < length cns) by (apply nth_error_Some; congruence). lia. }
      destruct (Hc k Hk) as (b' & Eb' & Hbm & Hco). rewrite Eb in Eb'. injection Eb' as <-.
      unfold cns in En. cbn [nth_error] in En. rewrite nth_error_repeat in En by exact Hk. injection En as <-.
      destruct Hco as [_ P2]. specialize (P2 (fun x => x)). destruct P2 as [Hq _]. eauto. }
  assert (Hmop : mop_ok (length cns) (MAdd (Some ids') ts)).
  { cbn [mop_ok]. unfold ids'. rewrite map_length. split; [exact H1|]. split; [destruct (cids ids); [contradiction|discriminate]|].
    intros i Hi. apply in_map_iff in Hi as (j & <- & Hj). specialize (H4 j Hj). lia. }
  destruct (m_add_sim r0 radd last_frame o cns m bs (Some ids') ts Hs Hg Hmop) as (m1 & bs1 & rs & Em & Hs1 & Hg1 & Hm1 & Hlrs & Hb1).
  unfold ids_of in Hb1.
  assert (Hadd : forall k, k < num -> exists b b' , nth_error bs (S k) = Some b /\ nth_error bs1 (S k) = Some b' /\ bmax b' = c
     /\ cinv c b (cur_at st k)
     /\ (forall t, In (Z.of_nat k, t) xs -> inv c b' (lastn c (fst (grow (cur_at st k) t)))
             /\ (isdone t = false -> cinv c b' (grow (cur_at st k) t))
             /\ select (S num) (S k) (combine ids' rs) = [ManagerSpec.shift (off cns (S k)) (crow (cur_at st k) c t)])
     /\ (~ In (Z.of_nat k) (map fst xs) -> b' = b)).
  { intros k Hk. destruct (Hc k Hk) as (b & Eb & Hbm & Hco). destruct Hco as [_ P2]. specialize (P2 (fun x => x)).
    destruct (Hb1 (S k) b Eb) as (b' & outs & F1 & F2 & F3). exists b, b'. split; [exact Eb|]. split; [exact F1|].
    split. { pose proof (s_sizes _ _ _ Hs1) as Hsz. assert (En : nth_error cns (S k) = Some (bmax b')) by (rewrite <- Hsz, nth_error_map, F1; reflexivity).
             unfold cns in En. cbn [nth_error] in En. rewrite nth_error_repeat in En by exact Hk. injection En as <-. reflexivity. }
    split; [exact P2|]. rewrite Exs, HlN in F2. rewrite HlN in F3.
    assert (Hrange : forall i t, In (i, t) (map (fun x => ((fst x + 1)%Z, snd x)) xs) -> (0 <= i < Z.of_nat (S num))%Z).
    { intros i t Hin. apply in_map_iff in Hin as ([i' t'] & E & Hin). cbn [fst snd] in E. injection E as <- <-. specialize (Hr _ _ Hin). lia. }
    assert (Hnd2 : NoDup (map fst (map (fun x : Z * trans => ((fst x + 1)%Z, snd x)) xs))).
    { rewrite map_map. cbn [fst]. rewrite <- (map_map fst (fun i => (i + 1)%Z)). apply FinFun.Injective_map_NoDup; [intros x y; lia|exact Hnd]. }
    split.
    - intros t Hin. rewrite (select_one (S num) (S k) _ t) in F2; [|exact Hrange|exact Hnd2|].
      2:{ apply in_map_iff. exists (Z.of_nat k, t). split; [cbn [fst snd]; f_equal; lia|exact Hin]. }
      destruct (cinv_add c b (cur_at st k) t P2) as (b2 & Ea & Hb2 & Hb3).
      cbn [map buf_run] in F2. rewrite Ea in F2. cbn [bind fst snd] in F2. injection F2 as <- <-.
      split; [exact Hb2|]. split; [exact Hb3|]. exact F3.
    - intros Hnin. rewrite select_none in F2; [|exact Hrange|].
      + cbn in F2. injection F2 as <- _. reflexivity.
      + rewrite map_map. cbn [fst]. intros Hx. apply in_map_iff in Hx as ([i t] & E & Hin). cbn [fst] in E. apply Hnin.
        apply in_map_iff. exists (i, t). split; [cbn; lia|exact Hin]. }
  assert (Hrs : rs = map (cexp st) xs).
  { assert (Hlx : length xs = length rs) by (unfold xs; rewrite combine_length; lia).
    apply nth_error_ext. intros j. rewrite nth_error_map.
    destruct (nth_error xs j) as [[i t]|] eqn:Ej.
    - cbn [option_map]. assert (Hin : In (i, t) xs) by (apply nth_error_In with j; exact Ej).
      assert (Hi : (0 <= i < Z.of_nat num)%Z) by apply (Hr _ _ Hin).
      set (k := Z.to_nat i). assert (Ei : i = Z.of_nat k) by (unfold k; lia).
      destruct (Hadd k ltac:(unfold k; lia)) as (b & b' & _ & _ & _ & _ & F & _).
      rewrite Ei in Hin. destruct (F t Hin) as (_ & _ & Fs).
      destruct (nth_error rs j) as [r|] eqn:Er; [|apply nth_error_None in Er; assert (j < length xs) by (apply nth_error_Some; congruence); lia].
      assert (Hin2 : In ((i + 1)%Z, r) (combine ids' rs)).
      { apply nth_error_In with j. rewrite nth_error_combine, Er.
        unfold ids'. rewrite nth_error_map, <- Hmf, nth_error_map, Ej. reflexivity. }
      rewrite (select_one (S num) (S k) (combine ids' rs) r) in Fs.
      + injection Fs as ->. unfold cexp. cbn [fst snd]. fold k. reflexivity.
      + intros i0 t0 Hx. apply in_combine_l in Hx. unfold ids' in Hx. apply in_map_iff in Hx as (j0 & <- & Hj0). specialize (H4 j0 Hj0). lia.
      + rewrite fst_comb by (unfold ids'; rewrite map_length, H1; symmetry; exact Hlrs).
        unfold ids'. apply FinFun.Injective_map_NoDup; [intros x y; lia|exact H3].
      + replace (Z.of_nat (S k)) with (i + 1)%Z by lia. exact Hin2.
    - cbn [option_map]. apply nth_error_None. apply nth_error_None in Ej. lia. }
  destruct (c_moves_ok xs m1 st) as (m2 & mv & Emv & HJ2 & Hm2 & Hf); [|exact Hm1|exact Hnd|exact Hr|].
  - exists bs1. split; [exact Hs1|]. split; [exact Hlc|]. split.
    + destruct (Hb1 0 b0 E0) as (b0' & outs & F1 & F2 & _).
      rewrite select_none in F2.
      * cbn in F2. injection F2 as <- _. eauto.
      * intros i t Hin. apply in_combine_l in Hin. unfold ids' in Hin. apply in_map_iff in Hin as (j & <- & Hj). specialize (H4 j Hj). lia.
      * rewrite fst_comb by (unfold ids'; rewrite map_length; exact H1). unfold ids'. intros Hin.
        apply in_map_iff in Hin as (j & Ej & Hj). specialize (H4 j Hj). lia.
    + intros k Hk. destruct (Hadd k Hk) as (b & b' & _ & F1 & Fm & Fc & F2 & F3). exists b'. split; [exact F1|]. split; [exact Fm|].
      split.
      * intros t Hin. destruct (F2 t Hin) as (X1 & X2 & _). auto.
      * intros Hn. rewrite (F3 Hn). exact Fc.
  - exists m2. split; [|split; [exact HJ2|exact Hm2]].
    unfold c_add. rewrite Eids. cbn [fst snd].
    rewrite Em. cbn [bind fst snd].
    assert (Ed : map fst (filter snd (combine ids' (map (fun t => t_term t || t_trunc t) ts))) = dones xs).
    { unfold dones, xs, ids'. clear. generalize (cids ids) as l. intros l. revert ts.
      induction l as [|a l IH]; intros [|t ts]; try reflexivity. cbn [map combine filter snd fst].
      unfold isdone at 1. destruct (t_term t || t_trunc t); cbn [map fst]; rewrite IH; reflexivity. }
    rewrite Ed, Emv. cbn [bind fst snd]. rewrite Hrs.
    assert (Edn : map (fun t => t_term t || t_trunc t) ts = map (fun x => isdone (snd x)) xs).
    { rewrite <- Hms, map_map. reflexivity. }
    rewrite Edn, Hf. reflexivity.
Qed.

Lemma jinv_reset (m : mgr) st keep : 0 < n0 -> jinv m st [] ->
  jinv (m_reset r0 keep m) (mkCst [] (map (fun x => ([], if keep then snd x else [])) (c_cur st))) [].
Proof.
  intros Hn0 (bs & Hs & Hlc & (b0 & E0 & Hi0 & _) & Hc).
  exists (map (buf_reset r0 keep) bs). split; [apply sim_reset; exact Hs|].
  split; [cbn [c_cur]; rewrite map_length; exact Hlc|]. split.
  - exists (buf_reset r0 keep b0). split; [rewrite nth_error_map, E0; reflexivity|].
    split; [apply (inv_reset r0 n0 b0 _ keep Hi0)|]. cbn. rewrite Nat.mod_0_l by lia. reflexivity.
  - intros k Hk. destruct (Hc k Hk) as (b & Eb & Hbm & Hco). exists (buf_reset r0 keep b).
    split; [rewrite nth_error_map, Eb; reflexivity|]. split; [exact Hbm|].
    destruct Hco as [_ P2]. specialize (P2 (fun x => x)). split; [intros t []|]. intros _.
    unfold cur_at. cbn [c_cur].
    assert (E : nth k (map (fun x => ([] : list slot, if keep then snd x else [])) (c_cur st)) ([], [])
                = ([], if keep then snd (cur_at st k) else [])).
    { unfold cur_at. destruct (nth_error (c_cur st) k) as [x|] eqn:Ex; [|apply nth_error_None in Ex; lia].
      rewrite (nth_error_nth _ _ _ Ex). apply nth_error_nth. rewrite nth_error_map, Ex. reflexivity. }
    rewrite E. apply (cinv_reset c b _ (cur_at st k) keep (proj1 P2)). intros _. exact P2.
Qed.

Lemma jinv_init : 0 < n0 -> 0 < c -> jinv (m_init r0 cns) (c_start num) [].
Proof.
  intros Hn0 Hc0. destruct (sim_init (Ob := Ob) (A := A) (Inf := Inf) r0 cns) as [Hs _].
  { intros n [<-|Hn]; [exact Hn0|]. apply repeat_spec in Hn. lia. }
  exists (map (buf_init r0) cns). split; [exact Hs|].
  split; [cbn; apply repeat_length|]. split.
  - exists (buf_init r0 n0). split; [reflexivity|]. split; [apply inv_init; exact Hn0|].
    cbn. rewrite Nat.mod_0_l by lia. reflexivity.
  - intros k Hk. exists (buf_init r0 c). split.
    + rewrite nth_error_map. unfold cns. cbn [nth_error]. rewrite nth_error_repeat by exact Hk. reflexivity.
    + split; [reflexivity|]. split; [intros t []|]. intros _. unfold cur_at, c_start. cbn [c_cur].
      assert (E : nth k (repeat ([] : list slot, [] : list R) num) ([], []) = ([], []))
        by (apply nth_error_nth, nth_error_repeat; exact Hk).
      rewrite E. split; [apply inv_init; exact Hc0|]. cbn. rewrite Nat.mod_0_l by lia. auto.
Qed.

Lemma c_run_ok : 0 < n0 -> 0 < c -> 0 < num -> forall ops (m : mgr) st, jinv m st [] -> Forall (cop_ok num) ops ->
  exists m', c_run r0 radd last_frame o m ops = Ok (m', snd (c_spec r0 radd last_frame o n0 num c st ops))
    /\ jinv m' (fst (c_spec r0 radd last_frame o n0 num c st ops)) [].
Proof.
  intros Hn0 Hc0 Hnum. induction ops as [|op ops IH]; intros m st HJ Hok.
  - exists m. cbn. auto.
  - inversion Hok as [|? ? H1 H2]; subst. destruct op as [ids ts|keep]; cbn [c_run c_spec].
    + destruct (c_add_ok m st ids ts Hn0 Hc0 Hnum HJ H1) as (m1 & E & HJ1 & _). rewrite E. cbn [bind fst snd].
      unfold cids in *. destruct (c_events r0 radd last_frame o n0 c st _) as [st1 rs1]. cbn [fst snd] in *.
      destruct (IH m1 st1 HJ1 H2) as (m2 & E2 & HJ2). rewrite E2. cbn [bind fst snd].
      destruct (c_spec r0 radd last_frame o n0 num c st1 ops) as [st2 rs2]. cbn [fst snd] in *. eauto.
    + apply IH; [apply jinv_reset; assumption|exact H2].
Qed.

(** The view used by the walk lemmas. *)
Definition cqs (st : cst) : list (list slot) := map (c_queue n0 c st) (seq 0 (S num)).

Lemma jinv_view (m : mgr) st : jinv m st [] ->
  mview cns m (cqs st)
  /\ m_lens m = map (@length slot) (cqs st)
  /\ forall x, stored (cqs st) x -> maddr cns m x = Z.of_nat (c_address n0 c st x).
Proof.
  intros (bs & Hs & Hlc & (b0 & E0 & Hi0 & Hins0) & Hc).
  destruct (sim_length _ _ _ Hs) as (Hlb & Hlm & _).
  assert (HlN : length cns = S num) by (unfold cns; cbn [length]; rewrite repeat_length; reflexivity).
  assert (Hall : forall k b, nth_error bs k = Some b -> k < S num /\ inv (bmax b) b (c_queue n0 c st k)
     /\ (forall p, p < length (c_queue n0 c st k) -> off cns k + pos (b_st b) p = c_address n0 c st (k, p))).
  { intros k b Eb. assert (Hk : k < S num) by (rewrite <- HlN, <- Hlb; apply nth_error_Some; congruence).
    split; [exact Hk|]. destruct k as [|k].
    - rewrite E0 in Eb. injection Eb as <-. assert (Hb : bmax b0 = n0) by apply (i_max _ _ (i_s _ _ _ Hi0)).
      rewrite Hb. split; [exact Hi0|]. intros p Hp. cbn [c_queue] in Hp.
      unfold c_address, ring. cbn [fst snd].
      rewrite (pos_place n0 (b_st b0) (length (c_moved c st)) p (i_s _ _ _ Hi0) Hins0); [reflexivity| |rewrite <- (i_len _ _ _ Hi0); exact Hp].
      rewrite <- (i_len _ _ _ Hi0). unfold c_main. rewrite lastn_length. lia.
    - destruct (Hc k ltac:(lia)) as (b' & Eb' & Hbm & Hco). rewrite Eb in Eb'. injection Eb' as <-.
      destruct Hco as [_ P2]. specialize (P2 (fun x => x)). destruct P2 as (Q1 & Q2 & _). rewrite Hbm.
      split; [exact Q1|]. intros p Hp. cbn [c_queue] in Hp. unfold c_cache in Hp.
      change (nth k (c_cur st) ([], [])) with (cur_at st k) in Hp.
      unfold c_address, ring. cbn [fst snd]. change (nth k (c_cur st) ([], [])) with (cur_at st k).
      unfold cns at 1. rewrite off_cons_repeat by lia.
      rewrite (pos_place c (b_st b) (length (fst (cur_at st k))) p (i_s _ _ _ Q1) Q2); [reflexivity| |rewrite <- (i_len _ _ _ Q1); exact Hp].
      rewrite <- (i_len _ _ _ Q1), lastn_length. lia. }
  assert (Hq : forall k, nth_error (cqs st) k = if k <? S num then Some (c_queue n0 c st k) else None).
  { intros k. unfold cqs. rewrite nth_error_map_seq. cbn [Nat.add]. reflexivity. }
  split; [|split].
  - exists bs. split; [exact Hs|]. split; [unfold cqs; rewrite map_length, seq_length; lia|].
    intros k b q Eb Eq. rewrite Hq in Eq. destruct (Hall k b Eb) as (Hk & Hi & _).
    destruct (Nat.ltb_spec k (S num)); [|lia]. injection Eq as <-. exact Hi.
  - rewrite (s_lens _ _ _ Hs). apply nth_error_ext. intros k. rewrite !nth_error_map, Hq.
    destruct (nth_error bs k) as [b|] eqn:Eb.
    + destruct (Hall k b Eb) as (Hk & Hi & _). destruct (Nat.ltb_spec k (S num)); [|lia]. cbn [option_map].
      rewrite (i_len _ _ _ Hi). reflexivity.
    + apply nth_error_None in Eb. destruct (Nat.ltb_spec k (S num)); [lia|reflexivity].
  - intros [k p] (q & Eq & Hp). cbn [fst snd] in *. rewrite Hq in Eq.
    destruct (Nat.ltb_spec k (S num)) as [Hk|Hk]; [|discriminate]. injection Eq as <-.
    unfold maddr. cbn [fst snd]. rewrite (s_bufs _ _ _ Hs), nth_error_map.
    destruct (nth_error bs k) as [b|] eqn:Eb; [|apply nth_error_None in Eb; lia]. cbn [option_map].
    f_equal. apply (Hall k b Eb). exact Hp.
Qed.

Lemma qat_cqs st k : k <= num -> qat (cqs st) k = c_queue n0 c st k.
Proof.
  intros H. unfold qat, cqs. apply nth_error_nth. rewrite nth_error_map_seq.
  destruct (Nat.ltb_spec k (S num)) as [H'|H']; [reflexivity|]. clear - H H'. lia.
Qed.

End CMain.

(** C12.  Every history of well-formed calls runs, reports what the episode specification says,
    and leaves the main buffer holding the newest [n0] of the rows of all finished episodes (each
    cut to its last [c] rows) in order of completion, and each cache holding its environment's
    running episode.  [len] counts both. *)
Lemma C12_cached_buffer_lemma : forall (Ob A Inf R : Type) (r0 : R) radd (last_frame : Ob -> Ob) o n0 num c
    (ops : list (cop Ob A Inf R)),
  0 < n0 -> 0 < num -> 0 < c -> Forall (cop_ok num) ops ->
  let '(st, reports) := c_spec r0 radd last_frame o n0 num c (c_start num) ops in
  exists m0 m, c_init r0 n0 num c = Ok m0
    /\ c_run r0 radd last_frame o m0 ops = Ok (m, reports)
    /\ m_lens m = map (fun k => length (c_queue n0 c st k)) (seq 0 (S num))
    /\ forall ps, ps <> [] -> (forall x, In x ps -> fst x <= num /\ snd x < length (c_queue n0 c st (fst x))) ->
         m_rows_at m (map (fun x => Z.of_nat (c_address n0 c st x)) ps)
         = Ok (map (fun x => nth_error (c_queue n0 c st (fst x)) (snd x)) ps).
Proof.
  intros Ob A Inf R r0 radd lf o n0 num c ops Hn0 Hnum Hc Hok.
  destruct (c_run_ok r0 radd lf o n0 c num Hn0 Hc Hnum ops _ _ (jinv_init (Ob := Ob) (A := A) (Inf := Inf) r0 radd lf o n0 c num Hn0 Hc) Hok) as (m & E & HJ).
  destruct (c_spec r0 radd lf o n0 num c (c_start num) ops) as [st reports]. cbn [fst snd] in *.
  exists (m_init r0 (cns n0 c num)), m.
  destruct (jinv_view r0 radd lf o n0 c num m st HJ) as (Hv & Hl & Ha).
  split. { unfold c_init, guard. destruct (Nat.ltb_spec 0 num); [|lia]. destruct (Nat.ltb_spec 0 c); [|lia]. reflexivity. }
  split; [exact E|]. split; [rewrite Hl; unfold cqs; rewrite map_map; reflexivity|].
  intros ps Hne Hps.
  assert (Hst : forall x, In x ps -> stored (cqs n0 c num st) x).
  { intros x Hx. apply stored_iff. destruct (Hps x Hx) as [G1 G2]. rewrite qat_cqs by exact G1. exact G2. }
  rewrite <- (map_ext_in (maddr (cns n0 c num) m)) by (intros x Hx; apply Ha, Hst, Hx).
  rewrite (m_rows_ok _ m _ ps Hv Hne Hst). f_equal. apply map_ext_in. intros x Hx.
  rewrite qat_cqs by apply (Hps x Hx). reflexivity.
Qed.

(** C12.  [prev]/[next] on the same indices stay inside the episode and the sub-buffer. *)
Lemma C12_prev_next_lemma : forall (Ob A Inf R : Type) (r0 : R) radd (last_frame : Ob -> Ob) o n0 num c
    (ops : list (cop Ob A Inf R)) m0 m reports ps,
  0 < n0 -> 0 < num -> 0 < c -> Forall (cop_ok num) ops ->
  c_init r0 n0 num c = Ok m0 -> c_run r0 radd last_frame o m0 ops = Ok (m, reports) ->
  let st := fst (c_spec r0 radd last_frame o n0 num c (c_start num) ops) in
  let q k := c_queue n0 c st k in
  let addr k p := Z.of_nat (c_address n0 c st (k, p)) in
  ps <> [] -> (forall x, In x ps -> fst x <= num /\ snd x < length (q (fst x))) ->
  m_prev m (map (fun x => addr (fst x) (snd x)) ps)
    = Ok (map (fun x => addr (fst x) (pred_of (q (fst x)) (snd x))) ps)
  /\ m_next m (map (fun x => addr (fst x) (snd x)) ps)
    = Ok (map (fun x => addr (fst x) (succ_of (q (fst x)) (snd x))) ps).
Proof.
  intros Ob A Inf R r0 radd lf o n0 num c ops m0 m reports ps Hn0 Hnum Hc Hok E0 E st q addr Hne Hps.
  destruct (c_run_ok r0 radd lf o n0 c num Hn0 Hc Hnum ops _ _ (jinv_init (Ob := Ob) (A := A) (Inf := Inf) r0 radd lf o n0 c num Hn0 Hc) Hok) as (m' & E' & HJ).
  assert (m' = m).
  { unfold c_init, guard in E0. destruct (Nat.ltb_spec 0 num); [|lia]. destruct (Nat.ltb_spec 0 c); [|lia].
    injection E0 as <-. unfold cns in E'. rewrite E in E'. injection E' as <- _. reflexivity. }
  subst m'. fold st in HJ. clear E'.
  destruct (jinv_view r0 radd lf o n0 c num m st HJ) as (Hv & Hl & Ha).
  assert (Hst : forall x, In x ps -> stored (cqs n0 c num st) x).
  { intros x Hx. apply stored_iff. destruct (Hps x Hx) as [G1 G2]. rewrite qat_cqs by exact G1. exact G2. }
  rewrite <- (map_ext_in (maddr (cns n0 c num) m)).
  2:{ intros [k p] Hx. apply (Ha (k, p)), Hst, Hx. }
  destruct (m_prev_ok _ m _ ps Hv Hne Hst) as [-> ->].
  split; f_equal; apply map_ext_in; intros [k p] Hx; cbn [fst snd];
    destruct (Hps _ Hx) as [G1 G2]; cbn [fst snd] in G1, G2;
    rewrite qat_cqs by exact G1; apply (Ha (k, _)); apply stored_iff; cbn [fst snd]; rewrite qat_cqs by exact G1.
  - apply pred_of_lt. exact G2.
  - apply succ_of_lt. exact G2.
Qed.

(** C58 is false: [buffer_ids = [-1]] is accepted and writes an unfinished transition straight
    into the main buffer ("+1 means it's never the main buffer" fails for -1). *)
Lemma C58_main_only_whole_episodes_refuted_lemma : exists (m m' : mgr nat nat unit Z) r,
  c_init 0%Z 4 2 3 = Ok m
  /\ c_add 0%Z Z.add (fun x => x) plain m (Some [-1]%Z) [zt 7 false] = Ok (m', r)
  /\ nth_error (m_lens m') 0 = Some 1
  /\ m_rows_at m' [0%Z] = Ok [Some (kept (fun x => x) plain (zt 7 false))]
  /\ isdone (zt 7 false) = false.
Proof. do 3 eexists. split; [reflexivity|]. split; [vm_compute; reflexivity|]. repeat split. Qed.

(** C58, second case: the same environment twice in one call, both rows ending an episode.  Both
    rows are moved, the second is reported at index -1, and [last_index] of the main buffer is
    left at -1. *)
Lemma C58_duplicate_ids_refuted_lemma : exists (m m' : mgr nat nat unit Z) r,
  c_init 0%Z 4 2 3 = Ok m
  /\ c_add 0%Z Z.add (fun x => x) plain m (Some [0; 0]%Z) [zt 1 true; zt 2 true] = Ok (m', r)
  /\ r = [(1%Z, 1%Z, 1, 0%Z); ((-1)%Z, 2%Z, 1, (-1)%Z)]
  /\ nth_error (m_lens m') 0 = Some 2 /\ nth_error (m_last m') 0 = Some (-1)%Z.
Proof. do 3 eexists. split; [reflexivity|]. split; [vm_compute; reflexivity|]. repeat split. Qed.
