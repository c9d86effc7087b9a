From Verif Require Import Py PyLemmas BufferModel BufferSpec BufferProofs BufferMainProofs ManagerModel ManagerSpec ManagerProofs ManagerMainProofs RenumSpec.
Open Scope nat_scope.

(** C370. What a part of a vector buffer holds and reports depends only on the calls meant for it and its capacity: not on the numbers, capacities and calls of the others. *)
Lemma C370_local_lemma : forall (Ob A Inf R : Type) (r0 : R) radd (last_frame : Ob -> Ob) o ns ns' (ops ops' : list (mop Ob A Inf R)) m m' outs outs' k k' n,
  (forall n, In n ns -> 0 < n) -> (forall n, In n ns' -> 0 < n) ->
  m_run r0 radd last_frame o (m_init r0 ns) ops = Ok (m, outs) -> m_run r0 radd last_frame o (m_init r0 ns') ops' = Ok (m', outs') ->
  nth_error ns k = Some n -> nth_error ns' k' = Some n -> proj (length ns) k ops = proj (length ns') k' ops' ->
  nth_error (m_bufs m) k = nth_error (m_bufs m') k' /\ nth_error (m_lens m) k = nth_error (m_lens m') k'
  /\ slice (off ns k) n (meta_rows (list_sum ns) (m_meta m)) = slice (off ns' k') n (meta_rows (list_sum ns') (m_meta m'))
  /\ map (unshift (off ns k)) (select (length ns) k outs) = map (unshift (off ns' k')) (select (length ns') k' outs').
Proof.
  intros Ob A Inf R r0 radd last_frame o ns ns' ops ops' m m' outs outs' k k' n Hn Hn' E E' Hk Hk' Hp.
  destruct (C08_independent_lemma _ _ _ _ r0 radd last_frame o ns ops m outs Hn E k n Hk) as (b & rs & B1 & B2 & B3 & B4 & B5 & B6).
  destruct (C08_independent_lemma _ _ _ _ r0 radd last_frame o ns' ops' m' outs' Hn' E' k' n Hk') as (b' & rs' & B1' & B2' & B3' & B4' & B5' & B6').
  rewrite Hp, B1' in B1. injection B1 as -> ->. split; [congruence|]. split; [congruence|]. split; [congruence|]. rewrite B2, B2', !map_map.
  apply map_ext. intros [[[i ret] len] st]. unfold shift, unshift. rewrite !Nat.add_sub. reflexivity.
Qed.
(** C370. So do the rows, frame stacks, predecessors and successors read from it. *)
Lemma C370_reads_lemma : forall (Ob A Inf R : Type) (r0 : R) radd (last_frame : Ob -> Ob) o ns ns' (ops ops' : list (mop Ob A Inf R)) m m' outs outs' k k' n ps,
  (forall n, In n ns -> 0 < n) -> (forall n, In n ns' -> 0 < n) -> 0 < stack_num o ->
  m_run r0 radd last_frame o (m_init r0 ns) ops = Ok (m, outs) -> m_run r0 radd last_frame o (m_init r0 ns') ops' = Ok (m', outs') ->
  nth_error ns k = Some n -> nth_error ns' k' = Some n -> proj (length ns) k ops = proj (length ns') k' ops' ->
  ps <> [] -> (forall p, In p ps -> p < length (mqueue last_frame o ns ops k)) ->
  let addr p := Z.of_nat (maddress ns ops (k, p)) in let addr' p := Z.of_nat (maddress ns' ops' (k', p)) in
  m_rows_at m (map addr ps) = m_rows_at m' (map addr' ps)
  /\ m_getitem o m (map addr ps) = m_getitem o m' (map addr' ps)
  /\ (exists pp, m_prev m (map addr ps) = Ok (map addr pp) /\ m_prev m' (map addr' ps) = Ok (map addr' pp))
  /\ (exists pp, m_next m (map addr ps) = Ok (map addr pp) /\ m_next m' (map addr' ps) = Ok (map addr' pp)).
Proof.
  intros Ob A Inf R r0 radd last_frame o ns ns' ops ops' m m' outs outs' k k' n ps Hn Hn' Hs E E' Hk Hk' Hp Hne Hps addr addr'.
  assert (Hq : mqueue last_frame o ns' ops' k' = mqueue last_frame o ns ops k) by (unfold mqueue; rewrite Hk, Hk', Hp; reflexivity).
  assert (Hx : forall x, In x (map (fun p => (k, p)) ps) -> snd x < length (mqueue last_frame o ns ops (fst x))).
  { intros x Hx. apply in_map_iff in Hx. destruct Hx as (p & <- & Ip). apply Hps. exact Ip. }
  assert (Hx' : forall x, In x (map (fun p => (k', p)) ps) -> snd x < length (mqueue last_frame o ns' ops' (fst x))).
  { intros x Hx0. apply in_map_iff in Hx0. destruct Hx0 as (p & <- & Ip). cbn [fst snd]. rewrite Hq. apply Hps. exact Ip. }
  assert (N1 : map (fun p => (k, p)) ps <> []) by (destruct ps; [congruence|discriminate]).
  assert (N2 : map (fun p => (k', p)) ps <> []) by (destruct ps; [congruence|discriminate]).
  destruct (C08_content_lemma _ _ _ _ r0 radd last_frame o ns ops m outs (map (fun p => (k, p)) ps) Hn E) as (_ & R1). specialize (R1 N1 Hx).
  destruct (C08_content_lemma _ _ _ _ r0 radd last_frame o ns' ops' m' outs' (map (fun p => (k', p)) ps) Hn' E') as (_ & R2). specialize (R2 N2 Hx').
  pose proof (C57_stacking_lemma _ _ _ _ r0 radd last_frame o ns ops m outs (map (fun p => (k, p)) ps) Hn Hs E N1 Hx) as G1.
  pose proof (C57_stacking_lemma _ _ _ _ r0 radd last_frame o ns' ops' m' outs' (map (fun p => (k', p)) ps) Hn' Hs E' N2 Hx') as G2.
  destruct (C09_prev_next_lemma _ _ _ _ r0 radd last_frame o ns ops m outs (map (fun p => (k, p)) ps) Hn E N1 Hx) as (P1 & Q1).
  destruct (C09_prev_next_lemma _ _ _ _ r0 radd last_frame o ns' ops' m' outs' (map (fun p => (k', p)) ps) Hn' E' N2 Hx') as (P2 & Q2).
  cbn zeta in *. rewrite !map_map in *. cbn [fst snd] in *. subst addr addr'.
  split; [rewrite R1, R2; rewrite Hq; reflexivity|]. split; [rewrite G1, G2; rewrite Hq; reflexivity|]. split.
  - exists (map (pred_of (mqueue last_frame o ns ops k)) ps). rewrite !map_map, P1, P2, Hq. split; reflexivity.
  - exists (map (succ_of (mqueue last_frame o ns ops k)) ps). rewrite !map_map, Q1, Q2, Hq. split; reflexivity.
Qed.
Lemma renum_mine N s k i : renumbers N s -> k < N -> mine N (s k) (renum_id N s i) = mine N k i.
Proof.
  intros [H1 H2] Hk. unfold mine, renum_id. pose proof (Z.mod_pos_bound i (Z.of_nat N) ltac:(lia)) as B. set (j := Z.to_nat (i mod Z.of_nat N)%Z) in *.
  assert (Hj : j < N) by (subst j; lia). pose proof (H1 j Hj). rewrite Z.mod_small by lia.
  destruct (Z.eqb_spec (Z.of_nat (s j)) (Z.of_nat (s k))) as [E|E], (Z.eqb_spec (i mod Z.of_nat N) (Z.of_nat k)) as [E'|E']; try reflexivity; exfalso.
  - apply E'. apply Nat2Z.inj in E. apply H2 in E; try assumption. subst j. lia.
  - apply E. replace j with k by (subst j; lia). reflexivity.
Qed.
Lemma renum_select (T : Type) N s k ids (l : list T) : renumbers N s -> k < N -> select N (s k) (combine (map (renum_id N s) ids) l) = select N k (combine ids l).
Proof.
  intros H Hk. unfold select. revert l. induction ids as [|i ids IH]; intros [|x l]; [reflexivity..|]. cbn [map combine filter fst]. rewrite (renum_mine N s k i H Hk).
  destruct (mine N k i); cbn [map snd]; rewrite IH; reflexivity.
Qed.
Lemma renum_proj (Ob A Inf R : Type) N s k (ops : list (mop Ob A Inf R)) : renumbers N s -> k < N -> proj N (s k) (map (renum N s) ops) = proj N k ops.
Proof.
  intros H Hk. induction ops as [|[ids ts|keep] ops IH]; [reflexivity|..]; cbn [map renum proj]; [|rewrite IH; reflexivity].
  rewrite IH. rewrite renum_select by assumption. reflexivity.
Qed.
(** C370. Renumbered calls to parts in another order run when the calls run, and part [s k] then holds what part [k] held. *)
Lemma C370_renumber_lemma : forall (Ob A Inf R : Type) (r0 : R) radd (last_frame : Ob -> Ob) o ns ns' (ops : list (mop Ob A Inf R)) s m outs,
  (forall n, In n ns -> 0 < n) -> length ns' = length ns -> renumbers (length ns) s -> (forall k, k < length ns -> nth_error ns' (s k) = nth_error ns k) ->
  m_run r0 radd last_frame o (m_init r0 ns) ops = Ok (m, outs) ->
  exists m' outs', m_run r0 radd last_frame o (m_init r0 ns') (map (renum (length ns) s) ops) = Ok (m', outs')
  /\ forall k n, nth_error ns k = Some n ->
     nth_error (m_bufs m') (s k) = nth_error (m_bufs m) k
     /\ slice (off ns' (s k)) n (meta_rows (list_sum ns') (m_meta m')) = slice (off ns k) n (meta_rows (list_sum ns) (m_meta m))
     /\ map (unshift (off ns' (s k))) (select (length ns') (s k) outs') = map (unshift (off ns k)) (select (length ns) k outs).
Proof.
  intros Ob A Inf R r0 radd last_frame o ns ns' ops s m outs Hn Hl Hs Hns E.
  assert (Hn' : forall n, In n ns' -> 0 < n).
  { intros n Hin. apply In_nth_error in Hin. destruct Hin as (j & Hj).
    assert (Hjl : j < length ns) by (rewrite <- Hl; apply nth_error_Some; congruence).
    assert (Hsur : exists k, k < length ns /\ s k = j).
    { destruct Hs as [S1 S2]. assert (Inc : incl (seq 0 (length ns)) (map s (seq 0 (length ns)))).
      { apply NoDup_length_incl.
        - clear -S2. assert (G : forall l, (forall x, In x l -> x < length ns) -> NoDup l -> NoDup (map s l)).
          { induction l as [|x l IH]; intros Hb Nd; cbn [map]; constructor; inversion Nd; subst.
            - intros I. apply in_map_iff in I. destruct I as (y & Ey & Iy). apply S2 in Ey; [subst; contradiction|apply Hb; right; exact Iy|apply Hb; left; reflexivity].
            - apply IH; [intros y Iy; apply Hb; right; exact Iy|assumption]. }
          apply G; [intros x Hx; apply in_seq in Hx; lia|apply seq_NoDup].
        - rewrite map_length. reflexivity.
        - intros y Hy. apply in_map_iff in Hy. destruct Hy as (x & <- & Ix). apply in_seq in Ix. apply in_seq. specialize (S1 x ltac:(lia)). lia. }
      specialize (Inc j ltac:(apply in_seq; lia)). apply in_map_iff in Inc. destruct Inc as (k & Ek & Ik). apply in_seq in Ik. exists k. split; [lia|exact Ek]. }
    destruct Hsur as (k & Hk & <-). rewrite Hns in Hj by exact Hk. apply Hn. eapply nth_error_In. exact Hj. }
  assert (Hok : Forall (mop_ok (length ns)) ops) by (apply (C08_total_lemma _ _ _ _ r0 radd last_frame o ns ops Hn); eauto).
  assert (Hok' : Forall (mop_ok (length ns')) (map (renum (length ns) s) ops)).
  { rewrite Hl. clear -Hok Hs. induction Hok as [|op ops Ho Hok IH]; cbn [map]; constructor; [|exact IH]. destruct op as [ids ts|keep]; [|exact I]. cbn [renum mop_ok].
    assert (Hb : forall i, 0 < length ns -> (- Z.of_nat (length ns) <= renum_id (length ns) s i < Z.of_nat (length ns))%Z).
    { intros i Hp. unfold renum_id. pose proof (Z.mod_pos_bound i (Z.of_nat (length ns)) ltac:(lia)) as B. destruct Hs as [S1 _].
      specialize (S1 (Z.to_nat (i mod Z.of_nat (length ns)))). lia. }
    assert (Hp : 0 < length ns).
    { destruct ids as [ids|]; cbn in Ho; [|lia]. destruct Ho as (_ & Hne & Hr). destruct ids as [|i ids]; [congruence|]. specialize (Hr i (or_introl eq_refl)). lia. }
    split; [|split].
    - rewrite map_length. destruct ids as [ids|]; cbn in Ho; [tauto|]. rewrite map_length, seq_length. lia.
    - destruct ids as [ids|]; cbn in Ho; [destruct ids; [tauto|discriminate]|]. destruct (length ns); [lia|discriminate].
    - intros i Hi. apply in_map_iff in Hi. destruct Hi as (j & <- & _). apply Hb. exact Hp. }
  destruct (proj2 (C08_total_lemma _ _ _ _ r0 radd last_frame o ns' _ Hn') Hok') as ((m' & outs') & E').
  exists m', outs'. split; [exact E'|]. intros k n Hk. assert (Hkl : k < length ns) by (apply nth_error_Some; congruence).
  destruct (C370_local_lemma _ _ _ _ r0 radd last_frame o ns' ns (map (renum (length ns) s) ops) ops m' m outs' outs (s k) k n Hn' Hn E' E) as (P1 & _ & P2 & P3).
  - rewrite Hns by exact Hkl. exact Hk.
  - exact Hk.
  - rewrite Hl. apply renum_proj; assumption.
  - auto.
Qed.
