From Verif Require Import Py PyLemmas BufferModel BufferSpec BufferProofs BufferWalkProofs BufferMainProofs ManagerModel ManagerSpec ManagerProofs ManagerMainProofs
  CachedModel CachedSpec CachedMainProofs OnecSpec.
Open Scope nat_scope.
Section Onec.
Context {Ob A Inf R : Type}.
Variable r0 : R.
Variable radd : R -> R -> R.
Variable last_frame : Ob -> Ob.
Notation trans := (trans Ob A Inf R).
Notation buf := (buf Ob A Inf R).
Lemma adds_inv o n : forall (ts : list trans) (b : buf) q b' outs, inv n b q ->
  buf_run r0 radd last_frame o b (map OpAdd ts) = Ok (b', outs) -> inv n b' (push n q (map (kept last_frame o) ts)).
Proof.
  induction ts as [|t ts IH]; intros b q b' outs Hr E.
  - cbn in E. injection E as <- <-. cbn [map]. rewrite push_nil; [exact Hr|]. destruct Hr as [[] L ? ? ?]. lia.
  - cbn [map buf_run] in E. destruct (add_ok r0 radd last_frame n b q o t Hr) as (b1 & ret & len & Ea & Hi1 & _). rewrite Ea in E. cbn [bind fst snd] in E.
    destruct (buf_run r0 radd last_frame o b1 (map OpAdd ts)) as [[b2 rs]|e] eqn:E2; [|discriminate]. cbn [bind fst snd] in E. injection E as <- <-.
    cbn [map]. change (kept last_frame o t :: map (kept last_frame o) ts) with ([kept last_frame o t] ++ map (kept last_frame o) ts). rewrite <- push_push. eapply IH; [exact Hi1|exact E2].
Qed.
Lemma count_adds (ts : list trans) : forall c, count_from c (map OpAdd ts) = c + length ts.
Proof. induction ts as [|t ts IH]; intros c; cbn [map count_from length]; [lia|]. rewrite IH. lia. Qed.
(** The specification of the cached buffer on whole episodes of one environment. *)
Lemma spec_whole o n c ids : ids = None \/ ids = Some [0%Z] -> 0 < n -> forall (ts : list trans) l, whole c l ts -> forall st e rews ep,
  c_cur st = [(e, rews)] -> length e = l -> e_cnt ep = length (c_moved c st) + l -> e_start ep = length (c_moved c st) -> e_rews ep = rews ->
  let '(st', rs) := c_spec r0 radd last_frame o n 1 c st (map (fun t => CAdd ids [t]) ts) in
  c_moved c st' = c_moved c st ++ e ++ map (kept last_frame o) ts /\ (exists rews', c_cur st' = [([], rews')]) /\ length rs = length ts
  /\ at_ends ts rs = map zreport (at_ends ts (snd (epi_run r0 radd n ep (map OpAdd ts)))).
Proof.
  intros Hids Hn ts l Hw. induction Hw as [|l t ts D Hw IH|l t ts D Hl Hw IH]; intros st e rews ep Hc He H1 H2 H3.
  - cbn. destruct e; [|discriminate]. rewrite !app_nil_r. repeat split. eauto.
  - cbn [map c_spec epi_run].
    assert (Ei : combine (match ids with Some ids => ids | None => map Z.of_nat (seq 0 1) end) [t] = [(0%Z, t)]) by (destruct Hids as [->| ->]; reflexivity).
    rewrite Ei. cbn [c_events]. unfold c_event. change (Z.to_nat 0) with 0. rewrite Hc. cbn [nth]. rewrite D. cbn [epi_step]. rewrite D.
    specialize (IH (mkCst (c_fin st) (upd [(e, rews)] 0 (e ++ [kept last_frame o t], rews ++ [t_rew t]))) (e ++ [kept last_frame o t]) (rews ++ [t_rew t])
      (mkEpi (S (e_cnt ep)) (e_start ep) (e_rews ep ++ [t_rew t])) eq_refl).
    destruct (c_spec r0 radd last_frame o n 1 c (mkCst (c_fin st) (upd [(e, rews)] 0 (e ++ [kept last_frame o t], rews ++ [t_rew t]))) (map (fun t => CAdd ids [t]) ts)) as [st' rs'] eqn:Es.
    destruct (epi_run r0 radd n (mkEpi (S (e_cnt ep)) (e_start ep) (e_rews ep ++ [t_rew t])) (map OpAdd ts)) as [ep' rs2] eqn:Ee.
    destruct IH as (P1 & P2 & P3 & P4).
    { rewrite app_length. cbn [length]. lia. }
    { cbn [e_cnt]. unfold c_moved in *. cbn [c_fin]. lia. }
    { exact H2. }
    { cbn [e_rews]. rewrite H3. reflexivity. }
    split; [|split; [exact P2|split]].
    + rewrite P1. unfold c_moved. cbn [c_fin]. rewrite <- !app_assoc. reflexivity.
    + cbn [app length]. rewrite P3. reflexivity.
    + cbn [app]. unfold at_ends in *. cbn [combine filter fst snd]. rewrite D. exact P4.
  - cbn [map c_spec epi_run].
    assert (Ei : combine (match ids with Some ids => ids | None => map Z.of_nat (seq 0 1) end) [t] = [(0%Z, t)]) by (destruct Hids as [->| ->]; reflexivity).
    rewrite Ei. cbn [c_events]. unfold c_event. change (Z.to_nat 0) with 0. rewrite Hc. cbn [nth]. rewrite D. cbn [epi_step]. rewrite D.
    set (st1 := mkCst (c_fin st ++ [e ++ [kept last_frame o t]]) (upd [(e, rews)] 0 ([], []))) in *.
    assert (Em : c_moved c st1 = c_moved c st ++ e ++ [kept last_frame o t]).
    { unfold c_moved, st1. cbn [c_fin]. rewrite map_app, concat_app. cbn [map concat]. rewrite app_nil_r. f_equal. unfold lastn.
      replace (length (e ++ [kept last_frame o t]) - c) with 0 by (rewrite app_length; cbn [length]; lia). reflexivity. }
    specialize (IH st1 [] [] (mkEpi (S (e_cnt ep)) (S (e_cnt ep)) []) eq_refl eq_refl).
    destruct (c_spec r0 radd last_frame o n 1 c st1 (map (fun t => CAdd ids [t]) ts)) as [st' rs'] eqn:Es.
    destruct (epi_run r0 radd n (mkEpi (S (e_cnt ep)) (S (e_cnt ep)) []) (map OpAdd ts)) as [ep' rs2] eqn:Ee.
    destruct IH as (P1 & P2 & P3 & P4).
    { cbn [e_cnt]. rewrite Em, !app_length. cbn [length]. lia. }
    { cbn [e_start]. rewrite Em, !app_length. cbn [length]. lia. }
    { reflexivity. }
    split; [|split; [exact P2|split]].
    + rewrite P1, Em. cbn [app]. rewrite <- !app_assoc. reflexivity.
    + cbn [app length]. rewrite P3. reflexivity.
    + cbn [app snd]. unfold at_ends in *. cbn [combine filter fst snd]. rewrite D. cbn [map snd]. rewrite P4. cbn [snd]. f_equal. unfold zreport.
      rewrite app_length. cbn [length]. rewrite He, Nat.min_r by lia. rewrite H1, H2, H3. replace (length (c_moved c st) + (l + 1) - 1) with (length (c_moved c st) + l) by lia. reflexivity.
Qed.
End Onec.

Lemma rebuilt (T : Type) (f : nat -> T) (P : T -> Prop) m : (forall x, P x -> exists p, p < m /\ f p = x) -> forall l, (forall x, In x l -> P x) -> exists ps, map f ps = l /\ forall p, In p ps -> p < m.
Proof.
  intros H. induction l as [|x l IH]; intros Hl; [exists []; split; [reflexivity|intros p []]|].
  destruct IH as (ps & E & B); [intros y Hy; apply Hl; right; exact Hy|]. destruct (H x (Hl x (or_introl eq_refl))) as (p & Hp & Ep).
  exists (p :: ps). cbn [map]. split; [congruence|]. intros y [<-|Hy]; [exact Hp|apply B; exact Hy].
Qed.
(** C371. After whole episodes, none longer than the cache, a cached buffer of one environment holds in its main buffer, at the same indices, what a replay buffer of that
    size holds; its cache is empty, neighbours agree, and so do the reports of the additions that end an episode. *)
Lemma C371_one_environment_lemma : forall (Ob A Inf R : Type) (r0 : R) radd (last_frame : Ob -> Ob) o n c ids (ts : list (trans Ob A Inf R)),
  0 < n -> 0 < c -> ids = None \/ ids = Some [0%Z] -> whole c 0 ts ->
  exists m0 m reports b outs, c_init r0 n 1 c = Ok m0
  /\ c_run r0 radd last_frame o m0 (map (fun t => CAdd ids [t]) ts) = Ok (m, reports)
  /\ buf_run r0 radd last_frame o (buf_init r0 n) (map OpAdd ts) = Ok (b, outs)
  /\ m_lens m = [size (b_st b); 0]
  /\ at_ends ts reports = map zreport (at_ends ts outs)
  /\ forall index, index <> [] -> (forall i, In i index -> (0 <= i < Z.of_nat (size (b_st b)))%Z) ->
       m_rows_at m index = rows_at b index /\ m_prev m index = prev b index /\ m_next m index = next b index.
Proof.
  intros Ob A Inf R r0 radd last_frame o n c ids ts Hn Hc Hids Hw.
  assert (Hok : Forall (cop_ok (Ob := Ob) (A := A) (Inf := Inf) (R := R) 1) (map (fun t => CAdd ids [t]) ts)).
  { apply Forall_forall. intros op Hop. apply in_map_iff in Hop. destruct Hop as (t & <- & _). destruct Hids as [->| ->]; cbn; [reflexivity|].
    repeat split; try discriminate; try (repeat constructor; cbn; tauto); destruct H as [<-|[]]; lia. }
  pose proof (C12_cached_buffer_lemma _ _ _ _ r0 radd last_frame o n 1 c _ Hn Nat.lt_0_1 Hc Hok) as M.
  pose proof (spec_whole r0 radd last_frame o n c ids Hids Hn ts 0 Hw (c_start 1) [] [] epi0 eq_refl eq_refl eq_refl eq_refl eq_refl) as S.
  pose proof (C12_prev_next_lemma _ _ _ _ r0 radd last_frame o n 1 c (map (fun t => CAdd ids [t]) ts)) as PN.
  destruct (c_spec r0 radd last_frame o n 1 c (c_start 1) (map (fun t => CAdd ids [t]) ts)) as [st rs] eqn:Es.
  destruct M as (m0 & m & E0 & E1 & El & Er). destruct S as (S1 & (rw & S2) & S3 & S4).
  change (c_moved c (c_start 1)) with (@nil (slot Ob A Inf R)) in S1. cbn [app] in S1.
  destruct (C02_episode_report_lemma _ _ _ _ r0 radd last_frame o n (map OpAdd ts) Hn) as (b & Eb).
  exists m0, m, rs, b. eexists. split; [exact E0|]. split; [exact E1|]. split; [exact Eb|].
  pose proof (adds_inv r0 radd last_frame o n ts (buf_init r0 n) [] b _ (inv_init r0 n Hn) Eb) as Hi. unfold push in Hi. cbn [app] in Hi.
  set (q := lastn n (map (kept last_frame o) ts)) in *.
  assert (Hq : c_queue n c st 0 = q) by (unfold c_queue, c_main; rewrite S1; reflexivity).
  assert (Hq1 : c_queue n c st 1 = []) by (unfold c_queue, c_cache; rewrite S2; reflexivity).
  pose proof (i_len _ _ _ Hi) as Hl. pose proof (i_s _ _ _ Hi) as Hs.
  assert (C0 : ins (b_st (buf_init (Ob := Ob) (A := A) (Inf := Inf) r0 n)) = 0 mod n) by (cbn; rewrite Nat.mod_0_l by lia; reflexivity).
  pose proof (buf_run_count r0 radd last_frame o n (map OpAdd ts) (buf_init r0 n) [] 0 b _ (inv_init r0 n Hn) C0 eq_refl Eb) as [C1 C2].
  rewrite count_adds in C1, C2. cbn [Nat.add] in C1, C2.
  assert (Ha : forall p, p < length q -> Z.of_nat (c_address n c st (0, p)) = zpos b p).
  { intros p Hp. unfold zpos, c_address, ring. cbn [fst snd]. rewrite S1, map_length. f_equal. symmetry. apply (pos_place n); try assumption. lia. }
  split; [rewrite El; cbn [seq map]; rewrite Hq, Hq1, Hl; reflexivity|]. split; [exact S4|].
  intros index Hne Hx.
  assert (Hsur : forall i, (0 <= i < Z.of_nat (size (b_st b)))%Z -> exists p, p < length q /\ zpos b p = i).
  { intros i Hib. assert (Hin : In (Z.to_nat i) (all_indices (b_st b))).
    { unfold all_indices, arange. destruct Hs as [H1 H2 H3 H4 H5 H6 H7]. apply in_app_iff. destruct (Nat.lt_ge_cases (Z.to_nat i) (ins (b_st b))).
      - right. apply in_seq. lia.
      - left. apply in_seq. lia. }
    rewrite (all_indices_pos n) in Hin by exact Hs. apply in_map_iff in Hin. destruct Hin as (p & Ep & Ip). apply in_seq in Ip. exists p. split; [lia|]. unfold zpos. lia. }
  destruct (rebuilt Z (zpos b) _ (length q) Hsur index Hx) as (ps & <- & Hps).
  assert (Hq0 : q <> []). { destruct ps as [|p ps]; [exfalso; apply Hne; reflexivity|]. specialize (Hps p (or_introl eq_refl)). intros Q. rewrite Q in Hps. cbn in Hps. lia. }
  assert (Em : map (zpos b) ps = map (fun x => Z.of_nat (c_address n c st x)) (map (fun p => (0, p)) ps)).
  { rewrite map_map. apply map_ext_in. intros p Hp. symmetry. apply Ha, Hps, Hp. }
  assert (Hne' : map (fun p => (0, p)) ps <> []) by (destruct ps; [exfalso; apply Hne; reflexivity|discriminate]).
  assert (Hb' : forall x, In x (map (fun p => (0, p)) ps) -> fst x <= 1 /\ snd x < length (c_queue n c st (fst x))).
  { intros x Hx'. apply in_map_iff in Hx'. destruct Hx' as (p & <- & Hp). cbn [fst snd]. rewrite Hq. split; [lia|apply Hps, Hp]. }
  destruct (PN m0 m rs (map (fun p => (0, p)) ps) Hn Nat.lt_0_1 Hc Hok E0 E1 Hne' Hb') as (Q1 & Q2). cbn [fst] in Q1, Q2.
  split; [|split].
  - rewrite Em, (Er _ Hne' Hb'). rewrite <- Em. transitivity (rows_at b (map Z.of_nat (map (pos (b_st b)) ps))); [|rewrite map_map; reflexivity].
    rewrite (rows_at_stored n b q ps Hi Hq0 Hps). rewrite map_map. cbn [fst snd]. rewrite Hq. reflexivity.
  - rewrite Em. rewrite map_map in Q1 |- *. cbn [fst snd] in Q1. rewrite map_map in Q1. cbn [fst snd] in Q1. rewrite Q1, <- (map_map (fun p => (0, p)) (fun x => Z.of_nat (c_address n c st x))), <- Em, (prev_ok n b q ps Hi Hq0 Hps).
    f_equal. apply map_ext_in. intros p Hp. rewrite Hq. apply Ha. apply pred_of_lt, Hps, Hp.
  - rewrite Em. rewrite map_map in Q2 |- *. cbn [fst snd] in Q2. rewrite map_map in Q2. cbn [fst snd] in Q2. rewrite Q2, <- (map_map (fun p => (0, p)) (fun x => Z.of_nat (c_address n c st x))), <- Em, (next_ok n b q ps Hi Hq0 Hps).
    f_equal. apply map_ext_in. intros p Hp. rewrite Hq. apply Ha. apply succ_of_lt, Hps, Hp.
  - exact r0. - exact radd. - exact r0. - exact radd.
Qed.
