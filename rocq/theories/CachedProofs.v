(** * Proofs about CachedReplayBuffer *)
From Verif Require Import Py PyLemmas BufferModel BufferSpec BufferProofs BufferMainProofs
  ManagerModel ManagerSpec ManagerProofs ManagerWalkProofs ManagerMainProofs CachedModel CachedSpec.
Open Scope nat_scope.

Lemma lastn_app_lastn {X} n (l xs : list X) : lastn n (lastn n l ++ xs) = lastn n (l ++ xs).
Proof.
  apply nth_error_ext. intros i. rewrite !nth_error_lastn, !app_length, lastn_length.
  destruct (Nat.lt_ge_cases (length l) n) as [G|G].
  - replace (lastn n l) with l by (unfold lastn; replace (length l - n) with 0 by lia; reflexivity).
    f_equal. lia.
  - destruct (Nat.lt_ge_cases (i + length xs) n) as [K|K].
    + rewrite !nth_error_app1 by (rewrite ?lastn_length; lia). rewrite nth_error_lastn. f_equal. lia.
    + rewrite !nth_error_app2 by (rewrite ?lastn_length; lia). rewrite lastn_length. f_equal. lia.
Qed.

Section Adv.
Context {R : Type}.
Notation bst := (bst R).

Lemma advance_n_state n : forall k (s : bst), sinv n s ->
  let y := advance_n k s in
  sinv n (fst y) /\ ins (fst y) = (ins s + k) mod n /\ snd y = map (fun j => (ins s + j) mod n) (seq 0 k)
  /\ (0 < k -> last_index (fst y) = (ins s + k - 1) mod n).
Proof.
  induction k as [|k IH]; intros s Hs y; subst y.
  - cbn. pose proof (i_ins _ _ Hs). rewrite Nat.add_0_r, Nat.mod_small by assumption.
    split; [exact Hs|]. split; [reflexivity|]. split; [reflexivity|lia].
  - cbn [advance_n]. pose proof (sinv_advance n s Hs) as Hs'. pose proof (i_pos _ _ Hs) as Hn.
    pose proof (i_ins _ _ Hs) as Hi.
    destruct (IH (advance s) Hs') as (H1 & H2 & H3 & H4).
    assert (Ei : ins (advance s) = (ins s + 1) mod n) by (cbn; rewrite (i_max _ _ Hs); reflexivity).
    assert (El : last_index (advance s) = ins s) by reflexivity.
    destruct (advance_n k (advance s)) as [s' l] eqn:Ea. cbn [fst snd] in *.
    split; [exact H1|]. split.
    { rewrite H2, Ei, Nat.add_mod_idemp_l by lia. f_equal. lia. }
    split.
    { cbn [seq map]. rewrite Nat.add_0_r, Nat.mod_small by exact Hi. f_equal.
      rewrite H3, <- seq_shift, map_map. apply map_ext. intros j. rewrite Ei, Nat.add_mod_idemp_l by lia.
      f_equal. lia. }
    intros _. destruct k as [|k].
    + cbn in Ea. injection Ea as <- <-. rewrite El. replace (ins s + 1 - 1) with (ins s) by lia.
      rewrite Nat.mod_small by exact Hi. reflexivity.
    + rewrite H4 by lia. rewrite Ei. replace ((ins s + 1) mod n + S k - 1) with ((ins s + 1) mod n + k) by lia.
      rewrite Nat.add_mod_idemp_l by lia. f_equal. lia.
Qed.
End Adv.

Section Move.
Context {Ob A Inf R : Type}.
Notation trans := (trans Ob A Inf R).
Notation slot := (slot Ob A Inf R).
Notation buf := (buf Ob A Inf R).
Notation mgr := (mgr Ob A Inf R).

Lemma update_st (b src b' : buf) l : update b src = Ok (b', l) -> l <> [] ->
  b_st b' = fst (advance_n (length l) (b_st b)) /\ b_meta b' <> None.
Proof.
  unfold update. destruct (_ || _); [intros H; injection H as <- <-; contradiction|].
  destruct (length (all_indices (b_st src)) =? 0); [intros H; injection H as <- <-; contradiction|].
  pose proof (advance_n_len (length (all_indices (b_st src))) (b_st b)) as Hl.
  destruct (advance_n _ _) as [s' ui] eqn:E. cbn [snd] in Hl.
  destruct (mapM _ _) as [rws|e]; [|discriminate]. cbn [bind]. unfold guard.
  destruct (forallb _ _); [|discriminate]. intros H Hne. injection H as <- <-. cbn [b_st b_meta].
  rewrite Hl, E. split; [reflexivity|discriminate].
Qed.

Lemma last_map_nat l : l <> [] -> last (map Z.of_nat l) 0%Z = Z.of_nat (last l 0).
Proof.
  induction l as [|a l IH]; [contradiction|]. intros _. destruct l as [|b l]; [reflexivity|].
  change (last (map Z.of_nat (a :: b :: l)) 0%Z) with (last (map Z.of_nat (b :: l)) 0%Z).
  rewrite IH by discriminate. reflexivity.
Qed.
Lemma last_seq_map (f : nat -> nat) k : 0 < k -> last (map f (seq 0 k)) 0 = f (k - 1).
Proof.
  intros H. destruct k as [|k]; [lia|]. rewrite seq_S, map_app. cbn [map]. rewrite last_last. f_equal. lia.
Qed.

Variable r0 : R.

Lemma c_move_ok ns (m : mgr) bs k id b0 bk q0 qk n0 :
  sim ns m bs -> m_meta m <> None -> nth_error bs 0 = Some b0 -> nth_error bs k = Some bk -> 0 < k ->
  id = Z.of_nat k -> inv n0 b0 q0 -> inv (bmax bk) bk qk -> qk <> [] ->
  exists m' b0', c_move r0 m id = Ok (m', (Z.of_nat (ins (b_st b0)), Z.of_nat ((ins (b_st b0) + length qk - 1) mod n0)))
    /\ sim ns m' (upd (upd bs 0 b0') k (buf_reset r0 false bk)) /\ m_meta m' <> None
    /\ inv n0 b0' (push n0 q0 qk) /\ ins (b_st b0') = (ins (b_st b0) + length qk) mod n0.
Proof.
  intros Hs Hm E0 Ek Hk -> Hi0 Hik Hne.
  assert (Hn0 : bmax b0 = n0) by apply (i_max _ _ (i_s _ _ _ Hi0)).
  destruct (sim_length _ _ _ Hs) as (Hlb & Hlm & _).
  assert (Hklt : k < length bs) by (apply nth_error_Some; congruence).
  destruct (child_inv ns m bs 0 b0 q0 Hs E0 ltac:(rewrite Hn0; exact Hi0)) as (c0 & F0 & S0 & I0 & M0 & N0).
  destruct (child_inv ns m bs k bk qk Hs Ek Hik) as (ck & Fk & Sk & Ik & Mk & Nk).
  rewrite Hn0 in I0.
  destruct (update_ok n0 (bmax bk) c0 q0 ck qk I0 Ik) as (b0' & l & Eu & Hi' & Hll & El).
  assert (Hlpos : 0 < length qk) by (destruct qk; [contradiction|cbn; lia]).
  assert (Hlne : l <> []) by (intros ->; cbn in Hll; lia).
  destruct (update_st _ _ _ _ Eu Hlne) as [Est Hmeta]. rewrite Hll, S0 in Est. rewrite S0 in El.
  destruct (advance_n_state n0 (length qk) (b_st b0) (i_s _ _ _ Hi0)) as (G1 & G2 & G3 & G4).
  rewrite <- Est in G1, G2, G4. rewrite <- El in G3. specialize (G4 Hlpos).
  pose proof (i_ins _ _ (i_s _ _ _ Hi0)) as Hins. pose proof (i_pos _ _ (i_s _ _ _ Hi0)) as Hnp.
  set (m' := mkMgr (map b_st (upd (upd bs 0 b0') k (buf_reset r0 false bk)))
                (match m_meta m with
                 | Some rws => Some (meta_rows (maxsize (b_st b0')) (b_meta b0') ++ skipn (maxsize (b_st b0')) rws)
                 | None => None end)
                (upd (upd (m_last m) 0 (Z.of_nat ((ins (b_st b0) + length qk - 1) mod n0))) k (Z.of_nat (off ns k)))
                (upd (upd (m_lens m) 0 (size (b_st b0'))) k 0)).
  exists m', b0'. split; [|split; [|split; [|split; [exact Hi'|exact G2]]]].
  - unfold c_move. unfold norm_index. rewrite Hlm, <- Hlb.
    destruct (Z.leb_spec 0 (Z.of_nat k)); [|lia]. destruct (Z.ltb_spec (Z.of_nat k) (Z.of_nat (length bs))); [|lia].
    cbn [andb bind]. rewrite Nat2Z.id, F0, Fk, Eu. cbn [bind].
    destruct (Nat.eqb_spec (length l) 0); [lia|].
    assert (E1 : nth_error (upd (m_bufs m) 0 (b_st b0')) k = Some (b_st bk)).
    { rewrite nth_error_upd_other by lia. rewrite (s_bufs _ _ _ Hs), nth_error_map, Ek. reflexivity. }
    rewrite E1.
    assert (E2 : nth_error (upd (upd (m_bufs m) 0 (b_st b0')) k (bst_reset r0 false (b_st bk))) 0 = Some (b_st b0')).
    { rewrite nth_error_upd_other by lia. apply nth_error_upd_same. lia. }
    rewrite E2. rewrite (last_map_nat l Hlne).
    assert (Elast : last l 0 = (ins (b_st b0) + length qk - 1) mod n0).
    { rewrite G3, last_seq_map by lia. f_equal. lia. }
    assert (Ehd : hd 0%Z (map Z.of_nat l) = Z.of_nat (ins (b_st b0))).
    { rewrite G3. destruct (length qk) as [|j]; [lia|]. cbn [seq map hd]. rewrite Nat.add_0_r, Nat.mod_small by exact Hins. reflexivity. }
    rewrite Elast, Ehd. unfold m'. do 3 f_equal.
    + rewrite !map_upd, (s_bufs _ _ _ Hs). reflexivity.
    + do 2 f_equal. unfold m_offsets, m_sizes. rewrite (s_bufs _ _ _ Hs), map_map.
      change (map (fun x => maxsize (b_st x)) bs) with (map bmax bs). rewrite (s_sizes _ _ _ Hs).
      apply nth_error_nth. rewrite nth_error_offsets by (rewrite <- Hlb; exact Hklt). reflexivity.
  - destruct (m_meta m) as [rws|] eqn:Em; [|contradiction].
    destruct (meta_length ns m bs rws Hs Em) as [Hlr Hsl].
    assert (Hb0 : bmax b0' = n0) by apply (i_max _ _ (i_s _ _ _ Hi')).
    assert (Hup : forall j b, nth_error (upd (upd bs 0 b0') k (buf_reset r0 false bk)) j = Some b ->
        (j = 0 /\ b = b0') \/ (j = k /\ b = buf_reset r0 false bk) \/ (j <> 0 /\ j <> k /\ nth_error bs j = Some b)).
    { intros j b Hj. destruct (Nat.eq_dec k j) as [<-|Hkj].
      - rewrite nth_error_upd_same in Hj by (rewrite upd_length; exact Hklt). injection Hj as <-. auto.
      - rewrite nth_error_upd_other in Hj by exact Hkj. destruct (Nat.eq_dec 0 j) as [<-|Hj0].
        + rewrite nth_error_upd_same in Hj by lia. injection Hj as <-. auto.
        + rewrite nth_error_upd_other in Hj by exact Hj0. auto. }
    assert (Hrl : forall b, In b (upd (upd bs 0 b0') k (buf_reset r0 false bk)) -> length (rows b) = bmax b).
    { intros b Hb. apply In_nth_error in Hb as [j Hj]. destruct (Hup j b Hj) as [[_ ->]|[[_ ->]|(_ & _ & H)]].
      - rewrite Hb0. change (length (rows b0')) with (length (meta_rows (bmax b0') (b_meta b0'))). rewrite Hb0. apply (i_rows _ _ _ Hi').
      - change (rows (buf_reset r0 false bk)) with (rows bk). change (bmax (buf_reset r0 false bk)) with (bmax bk).
        apply (s_len _ _ _ Hs), (nth_error_In _ _ Ek).
      - apply (s_len _ _ _ Hs), (nth_error_In _ _ H). }
    split.
    + rewrite !map_upd. rewrite Hb0. change (bmax (buf_reset r0 false bk)) with (bmax bk).
      rewrite (s_sizes _ _ _ Hs).
      assert (X0 : nth_error ns 0 = Some n0) by (rewrite <- (s_sizes _ _ _ Hs), nth_error_map, E0; cbn; rewrite Hn0; reflexivity).
      rewrite (upd_same ns 0 n0 X0). apply upd_same. rewrite <- (s_sizes _ _ _ Hs), nth_error_map, Ek. reflexivity.
    + reflexivity.
    + unfold m'. cbn [m_meta meta_rows].
      destruct bs as [|x bs]; [discriminate|]. injection E0 as ->. destruct k as [|k]; [lia|].
      cbn [upd map concat]. change (maxsize (b_st b0')) with (bmax b0'). f_equal.
      pose proof (s_rows _ _ _ Hs) as H3. rewrite Em in H3. cbn [meta_rows map concat] in H3. rewrite H3.
      assert (Hr0 : length (rows b0) = bmax b0') by (rewrite Hb0, <- Hn0; apply (s_len _ _ _ Hs); left; reflexivity).
      rewrite <- Hr0, skipn_app, Nat.sub_diag, skipn_all. cbn [app skipn]. f_equal.
      rewrite map_upd. change (rows (buf_reset r0 false bk)) with (rows bk).
      rewrite upd_same; [reflexivity|]. rewrite nth_error_map. cbn in Ek. rewrite Ek. reflexivity.
    + exact Hrl.
    + unfold m'. cbn [m_lens]. rewrite !map_upd, (s_lens _ _ _ Hs). reflexivity.
    + unfold m'. cbn [m_last]. rewrite !upd_length. apply (s_nlast _ _ _ Hs).
    + intros j b Hj. unfold m'. cbn [m_last]. pose proof (s_nlast _ _ _ Hs) as Hnl.
      destruct (Hup j b Hj) as [[-> ->]|[[-> ->]|(H1 & H2 & H3)]].
      * rewrite nth_error_upd_other by lia. rewrite nth_error_upd_same by lia. rewrite G4.
        unfold off. cbn [firstn list_sum fold_right]. rewrite Nat.add_0_r. reflexivity.
      * rewrite nth_error_upd_same by (rewrite upd_length; lia). reflexivity.
      * rewrite nth_error_upd_other by lia. rewrite nth_error_upd_other by lia. apply (s_last _ _ _ Hs j b H3).
    + unfold m'. cbn [m_meta]. discriminate.
  - unfold m'. cbn [m_meta]. destruct (m_meta m); [discriminate|contradiction].
Qed.
End Move.
