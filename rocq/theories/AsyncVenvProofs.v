(** * Asynchronous steps and resets of the vector environment, as AsyncCollector uses them *)
From Verif Require Import Py PyLemmas VenvModel VenvProofs.
From Verif Require CollectSpec.
From Coq Require Import Permutation.
Open Scope nat_scope.
Notation part := CollectSpec.part.

Lemma part_nil {T} k (ids : list nat) (xs : list T) : ~ In k ids -> part k (ids, xs) = [].
Proof.
  unfold part. cbn [fst snd]. revert xs. induction ids as [|i ids IH]; intros [|x xs] H; try reflexivity. cbn [combine filter fst]. destruct (Nat.eqb_spec i k) as [->|]; [destruct H; left; reflexivity|].
  apply IH. intros F. apply H. right. exact F.
Qed.
Lemma part_one {T} k (ids : list nat) (xs : list T) j x : NoDup ids -> nth_error ids j = Some k -> nth_error xs j = Some x -> part k (ids, xs) = [x].
Proof.
  unfold part. cbn [fst snd]. revert xs j. induction ids as [|i ids IH]; intros xs j Hn Hj Hx; [destruct j; discriminate|]. inversion Hn as [|? ? Hi Hn']; subst.
  destruct xs as [|y xs]; [destruct j; discriminate|]. cbn [combine filter fst]. destruct j as [|j]; cbn [nth_error] in *.
  - injection Hj as ->. injection Hx as ->. rewrite Nat.eqb_refl. cbn. f_equal. exact (part_nil k ids xs Hi).
  - destruct (Nat.eqb_spec i k) as [->|]; [destruct Hi; eapply nth_error_In; exact Hj|]. apply (IH xs j Hn' Hj Hx).
Qed.
Lemma results_length {E Act R} (f : E -> cmd Act -> E * R) cs : forall e, length (results f e cs) = length cs.
Proof. induction cs as [|c cs IH]; intros e; [reflexivity|]. cbn. f_equal. apply IH. Qed.
Lemma final_app {E Act R} (f : E -> cmd Act -> E * R) cs1 cs2 e : final f e (cs1 ++ cs2) = final f (final f e cs1) cs2.
Proof. revert e. induction cs1 as [|c cs IH]; intros e; [reflexivity|]. apply IH. Qed.

Lemma combine_fst_snd {X Y} (l : list (X * Y)) : combine (map fst l) (map snd l) = l.
Proof. induction l as [|[x y] l IH]; [reflexivity|]. cbn. rewrite IH. reflexivity. Qed.

Section V.
Context {E Act R : Type}.
Variable f : E -> cmd Act -> E * R.
Variable dummy : bool.
Notation venv := (@venv E Act R).

(** Everything but the pipes, the waiting and the ready lists. *)
Definition same (v v' : venv) : Prop := map w_hist (workers v') = map w_hist (workers v) /\ (is_closed v', wait_num v', timed v') = (is_closed v, wait_num v, timed v).
Lemma recv_same v k : same v (fst (recv_conn dummy v k)) /\ ready_id (fst (recv_conn dummy v k)) = ready_id v.
Proof.
  unfold recv_conn. destruct (nth_error (workers v) k) as [w|] eqn:Ew; [|split; [split|]; reflexivity].
  destruct (wrecv dummy w) as [w' r] eqn:Er. cbn [fst]. split; [|reflexivity]. split; [|reflexivity]. cbn [set_workers workers].
  assert (Eh : w_hist w' = w_hist w). { unfold wrecv in Er. destruct (w_q w); [injection Er as <- _; reflexivity|]. destruct dummy; injection Er as <- _; reflexivity. }
  apply nth_error_ext. intros i. rewrite !nth_error_map. destruct (Nat.eq_dec k i) as [<-|Ne].
  - rewrite nth_error_upd_same by (apply nth_error_Some; congruence). rewrite Ew. cbn. rewrite Eh. reflexivity.
  - rewrite nth_error_upd_other by exact Ne. reflexivity.
Qed.
Lemma collect_one_same v c v' x : collect_one dummy v c = (v', Ok x) -> same v v' /\ ready_id v' = ready_id v ++ [fst x].
Proof.
  unfold collect_one. destruct (index_of c (waiting_conn v)) as [wi|]; [|discriminate]. destruct (nth_error (waiting_id v) wi) as [id|]; [|discriminate].
  set (v1 := set_waiting v _ _). pose proof (recv_same v1 c) as [[S1 S2] S3]. destruct (recv_conn dummy v1 c) as [v2 [r|]]; [|discriminate]. intros Hx. injection Hx as <- <-.
  cbn [fst] in *. split; [split; [exact S1|exact S2]|]. cbn [set_ready ready_id]. rewrite S3. reflexivity.
Qed.
Lemma same_trans a b c : same a b -> same b c -> same a c.
Proof. intros [A1 A2] [B1 B2]. split; congruence. Qed.
Lemma collect_same : forall conns v v' l, collect dummy v conns = (v', Ok l) -> same v v' /\ ready_id v' = ready_id v ++ map fst l.
Proof.
  induction conns as [|c conns IH]; intros v v' l H; cbn [collect] in H.
  - injection H as <- <-. split; [split; reflexivity|]. rewrite app_nil_r. reflexivity.
  - destruct (collect_one dummy v c) as [v1 [x|]] eqn:E1; [|discriminate]. destruct (collect dummy v1 conns) as [v2 [l2|]] eqn:E2; [|discriminate]. injection H as <- <-.
    destruct (collect_one_same v c v1 x E1) as [S1 R1]. destruct (IH v1 v2 l2 E2) as [S2 R2]. split; [eapply same_trans; eassumption|]. rewrite R2, R1, <- app_assoc. reflexivity.
Qed.
Lemma collect_alias_same : forall fuel pos v v' l, collect_alias dummy fuel pos v = (v', Ok l) -> same v v' /\ ready_id v' = ready_id v ++ map fst l.
Proof.
  induction fuel as [|fuel IH]; intros pos v v' l H; cbn [collect_alias] in H; [discriminate|]. destruct (nth_error (waiting_conn v) pos) as [c|].
  - destruct (collect_one dummy v c) as [v1 [x|]] eqn:E1; [|discriminate]. destruct (collect_alias dummy fuel (S pos) v1) as [v2 [l2|]] eqn:E2; [|discriminate]. injection H as <- <-.
    destruct (collect_one_same v c v1 x E1) as [S1 R1]. destruct (IH _ v1 v2 l2 E2) as [S2 R2]. split; [eapply same_trans; eassumption|]. rewrite R2, R1, <- app_assoc. reflexivity.
  - injection H as <- <-. split; [split; reflexivity|]. rewrite app_nil_r. reflexivity.
Qed.
Lemma fetch_same v rounds v' l : fetch dummy v rounds = (v', Ok l) -> same v v' /\ ready_id v' = ready_id v ++ map fst l.
Proof.
  unfold fetch. destruct dummy eqn:Ed; [destruct (waiting_conn v); [discriminate|]; rewrite <- Ed; apply collect_alias_same|].
  destruct (wait_until _ _ _ _ _); [|discriminate]. rewrite <- Ed. apply collect_same.
Qed.

Variable e0 : list E.
Notation N := (length e0).
Notation inv := (inv f dummy e0).

(** The result that an environment returns is that of the last command in its history. *)
Lemma last_result v out l k w e r : inv v (out ++ l) -> nth_error (workers v) k = Some w -> nth_error e0 k = Some e -> NoDup (map fst l) -> In (Z.of_nat k, r) l ->
  ~ In (Z.of_nat k) (waiting_id v) -> exists h c, w_hist w = h ++ [c] /\ r = snd (f (final f e h) c).
Proof.
  intros H Ew Ee Hn Hr Hw. pose proof (i_wok f dummy e0 v _ H k w e Ew Ee) as Hk.
  assert (Em : memz k (waiting_id v) = false) by (destruct (memz k (waiting_id v)) eqn:F; [apply memz_In in F; contradiction|reflexivity]). rewrite Em in Hk. destruct Hk as (_ & Hres & _).
  rewrite outs_app in Hres.
  assert (Eo : outs_of k l = [r]). { apply In_nth_error in Hr as [j Hj]. clear - Hn Hj. rewrite <- (combine_fst_snd l). eapply outs_combine_in; [exact Hn| |].
    - rewrite nth_error_map, Hj. reflexivity. - rewrite nth_error_map, Hj. reflexivity. }
  rewrite Eo in Hres. destruct (exists_last (l := w_hist w)) as (h & c & Eh).
  { intros F. rewrite F in Hres. cbn in Hres. destruct (outs_of k out); discriminate. }
  exists h, c. split; [exact Eh|]. rewrite Eh, results_snoc in Hres. apply app_inj_tail in Hres as [_ Hres]. exact Hres.
Qed.

Lemma zmap_in k (l : list nat) : In (Z.of_nat k) (map Z.of_nat l) <-> In k l.
Proof. rewrite in_map_iff. split; [intros (x & Ex & Hx); apply Nat2Z.inj in Ex; subst; exact Hx|]. intros Hk. exists k. auto. Qed.
Lemma zmap_nodup (l : list nat) : NoDup l -> NoDup (map Z.of_nat l).
Proof. apply FinFun.Injective_map_NoDup. intros a b. lia. Qed.
Lemma nodup_zmap (l : list nat) : NoDup (map Z.of_nat l) -> NoDup l.
Proof. apply NoDup_map_inv. Qed.
Lemma to_of_nat (l : list nat) : map Z.to_nat (map Z.of_nat l) = l.
Proof. rewrite map_map. rewrite (map_ext _ (fun x => x)) by (intros; apply Nat2Z.id). apply map_id. Qed.

Lemma step_facts v out acts ids rounds v' l : inv v out -> is_closed v = false -> NoDup ids ->
  v_step f dummy v (Some acts) (Some (map Z.of_nat ids)) rounds = (v', Ok l) ->
  length acts = length ids /\ is_closed v' = false /\ inv v' (out ++ l) /\ wait_num v' = wait_num v /\ timed v' = timed v
  /\ (dummy = false -> timed v = false -> min (wait_num v) (length (waiting_id v) + length ids) <= length l)
  /\ (forall k, In k ids -> In (Z.of_nat k) (ready_id v))
  /\ (exists ks, map fst l = map Z.of_nat ks /\ NoDup ks /\ ks <> [] /\ (forall k, In k ks -> k < N)
       /\ (forall k, In (Z.of_nat k) (ready_id v') <-> (In (Z.of_nat k) (ready_id v) /\ ~ In k ids) \/ In k ks))
  /\ (forall k w', nth_error (workers v') k = Some w' -> exists w, nth_error (workers v) k = Some w /\ w_hist w' = w_hist w ++ map CStep (part k (ids, acts)))
  /\ (forall k w' e r, nth_error (workers v') k = Some w' -> nth_error e0 k = Some e -> In (Z.of_nat k, r) l -> exists h c, w_hist w' = h ++ [c] /\ r = snd (f (final f e h) c)).
Proof.
  intros H Hc Hn Hs. pose proof (zmap_nodup ids Hn) as Hnz.
  destruct (inv_step f dummy e0 v out (Some acts) (Some (map Z.of_nat ids)) rounds H Hnz) as [I1 I2]. rewrite Hs in I1, I2. cbn [fst snd] in I1, I2.
  destruct (I2 l eq_refl) as (Hne & _ & Hmin). clear I2. cbv zeta in Hmin. cbn [wrap_id] in Hmin. rewrite app_length, map_length in Hmin.
  unfold v_step in Hs. rewrite Hc, (i_async _ _ _ v out H) in Hs. unfold step_async, wrap_id in Hs.
  destruct (assert_id v (map Z.of_nat ids)) eqn:Ha; [cbn [negb] in Hs|discriminate].
  destruct (Nat.eqb_spec (length acts) (length (map Z.of_nat ids))) as [El|]; [cbn [negb] in Hs|discriminate].
  pose proof (assert_id_ready f dummy e0 v out _ H Ha) as Hr.
  destruct (inv_sent f dummy e0 v out acts _ H Ha El Hnz) as (v1 & E1 & H1 & W1 & _). rewrite E1 in Hs.
  destruct (fetch_same _ rounds v' l Hs) as [[Sh Sc] Rd]. cbn [set_ready ready_id workers is_closed wait_num timed] in Sh, Sc, Rd.
  assert (Hks : mapM (norm_index (env_num v)) (map Z.of_nat ids) = Ok ids).
  { rewrite <- (to_of_nat ids) at 2. apply (norm_ids f dummy e0 v out _ H). intros i Hi. apply Hr, Hi. }
  assert (Hc1 : map fst (combine (map Z.of_nat ids) (map (CStep (Act := Act)) acts)) = map Z.of_nat ids).
  { clear - El. rewrite map_length in El. revert acts El. induction ids as [|i ids IH]; intros [|a acts] El; try discriminate; [reflexivity|]. cbn. f_equal. apply IH. injection El; auto. }
  assert (Hc2 : map snd (combine (map Z.of_nat ids) (map (CStep (Act := Act)) acts)) = map CStep acts).
  { clear - El. rewrite map_length in El. revert acts El. induction ids as [|i ids IH]; intros [|a acts] El; try discriminate; [reflexivity|]. cbn. f_equal. apply IH. injection El; auto. }
  rewrite map_length in El.
  destruct (send_async_eq f dummy _ v ids ltac:(rewrite Hc1; exact Hks)) as (v2 & S1 & S2 & ws & Ev2 & Lw). rewrite E1 in S2. injection S2 as S2.
  destruct (send_all_nodup f dummy _ v ids ltac:(rewrite Hc1; exact Hks) Hn) as (ws2 & E3 & L3 & O3 & S3). rewrite S1 in E3. injection E3 as E3.
  assert (ws2 = ws) by (subst v2; apply (f_equal workers) in E3; cbn in E3; congruence). subst ws2. rewrite Hc2 in S3.
  assert (Ew1 : workers v1 = ws) by (rewrite S2, Ev2; reflexivity).
  assert (Er1 : ready_id v1 = ready_id v) by (rewrite S2, Ev2; reflexivity). rewrite Er1 in Rd.
  assert (Ec1 : (is_closed v1, wait_num v1, timed v1) = (false, wait_num v, timed v)) by (rewrite S2, Ev2; cbn; rewrite Hc; reflexivity). rewrite Ec1 in Sc. injection Sc as Sc1 Sc2 Sc3.
  pose proof (inv_nodup _ _ _ _ _ I1) as Hnd.
  assert (Hnl : NoDup (map fst l)). { rewrite Rd in Hnd. rewrite app_assoc in Hnd. clear - Hnd. induction (waiting_id v' ++ _) as [|x m IH]; [exact Hnd|]. apply IH. inversion Hnd; assumption. }
  assert (Hrange : forall i, In i (map fst l) -> (0 <= i < Z.of_nat N)%Z).
  { intros i Hi. apply (inv_range _ _ _ _ _ i I1). right. rewrite Rd. apply in_or_app. right. exact Hi. }
  assert (Hks' : map fst l = map Z.of_nat (map Z.to_nat (map fst l))).
  { rewrite map_map. rewrite (map_ext_in _ (fun x => x)); [symmetry; apply map_id|]. intros i Hi. apply Hrange in Hi. lia. }
  split; [exact El|]. split; [exact Sc1|]. split; [exact I1|]. split; [exact Sc2|]. split; [exact Sc3|]. split; [exact Hmin|]. split; [intros k Hk; apply Hr, zmap_in, Hk|]. split; [|split].
  - exists (map Z.to_nat (map fst l)). split; [exact Hks'|]. split; [rewrite Hks' in Hnl; apply nodup_zmap, Hnl|]. split; [destruct l; [destruct Hne; reflexivity|discriminate]|]. split.
    + intros k Hk. apply in_map_iff in Hk as (i & <- & Hi). apply Hrange in Hi. lia.
    + intros k. rewrite Rd, in_app_iff, filter_In. rewrite Hks' at 1. rewrite zmap_in. apply or_iff_compat_r, and_iff_compat_l.
      rewrite negb_true_iff, <- not_true_iff_false. apply not_iff_compat. rewrite existsb_exists. split; [intros (x & Hx & Ex); apply Z.eqb_eq in Ex; subst x; apply zmap_in, Hx|].
      intros Hk. exists (Z.of_nat k). split; [apply zmap_in, Hk|apply Z.eqb_refl].
  - intros k w' Ew'. assert (Eh : nth_error (map w_hist (workers v')) k = Some (w_hist w')) by (rewrite nth_error_map, Ew'; reflexivity). rewrite Sh, Ew1, nth_error_map in Eh.
    destruct (nth_error ws k) as [w1|] eqn:Ek; [|discriminate]. injection Eh as Eh. destruct (in_dec Nat.eq_dec k ids) as [Hk|Hk].
    + apply In_nth_error in Hk as [j Hj]. destruct (nth_error acts j) as [a|] eqn:Ea; [|apply nth_error_None in Ea; pose proof (proj1 (nth_error_Some ids j) ltac:(congruence)); lia].
      destruct (S3 j k (CStep a) Hj ltac:(rewrite nth_error_map, Ea; reflexivity)) as (w & X1 & X2). rewrite Ek in X2. injection X2 as ->. exists w. split; [exact X1|].
      rewrite (part_one k ids acts j a Hn Hj Ea), <- Eh. unfold wsend. destruct (f (w_env w) (CStep a)). reflexivity.
    + exists w1. rewrite <- (O3 k Hk). split; [exact Ek|]. rewrite part_nil by exact Hk. cbn. rewrite app_nil_r. symmetry. exact Eh.
  - intros k w' e r Ew' Ee Hl. eapply last_result; try eassumption. intros F. clear - Hnd F Rd Hl. rewrite Rd in Hnd.
    induction (waiting_id v') as [|x m IH]; [destruct F|]. cbn in Hnd. inversion Hnd as [|? ? Hx Hm]; subst. destruct F as [->|F]; [|apply IH; assumption].
    apply Hx. apply in_or_app. right. apply in_or_app. right. apply in_map_iff. exists (Z.of_nat k, r). auto.
Qed.

Lemma reset_facts v out ids v' l : inv v out -> is_closed v = false -> NoDup ids ->
  v_reset f dummy v (Some (map Z.of_nat ids)) = (v', Ok l) ->
  is_closed v' = false /\ inv v' (out ++ l) /\ wait_num v' = wait_num v /\ timed v' = timed v /\ map fst l = map Z.of_nat ids
  /\ waiting_id v' = waiting_id v /\ ready_id v' = ready_id v
  /\ (forall k, In k ids -> In (Z.of_nat k) (ready_id v))
  /\ (forall k w', nth_error (workers v') k = Some w' -> exists w, nth_error (workers v) k = Some w /\ w_hist w' = w_hist w ++ map (fun _ => CReset) (part k (ids, ids)))
  /\ (forall k w' e r, nth_error (workers v') k = Some w' -> nth_error e0 k = Some e -> In (Z.of_nat k, r) l -> exists h c, w_hist w' = h ++ [c] /\ r = snd (f (final f e h) c)).
Proof.
  intros H Hc Hn Hs. pose proof (zmap_nodup ids Hn) as Hnz.
  pose proof (inv_reset f dummy e0 v out (Some (map Z.of_nat ids)) H Hnz) as I1. rewrite Hs in I1. cbn [fst snd] in I1.
  unfold v_reset in Hs. rewrite Hc, (i_async _ _ _ v out H) in Hs. unfold wrap_id in Hs. cbn [andb] in Hs.
  destruct (assert_id v (map Z.of_nat ids)) eqn:Ha; [cbn [negb] in Hs|discriminate].
  pose proof (assert_id_ready f dummy e0 v out _ H Ha) as Hr.
  assert (Hks : mapM (norm_index (env_num v)) (map Z.of_nat ids) = Ok ids).
  { rewrite <- (to_of_nat ids) at 2. apply (norm_ids f dummy e0 v out _ H). intros i Hi. apply Hr, Hi. }
  assert (Em : map (fun i => (i, CReset (Act := Act))) (map Z.of_nat ids) = combine (map Z.of_nat ids) (map (fun _ => CReset) (map Z.of_nat ids))) by (clear; induction (map Z.of_nat ids) as [|i l IH]; [reflexivity|cbn; rewrite IH; reflexivity]).
  destruct (send_recv_nodup f dummy v (map Z.of_nat ids) (map (fun _ => CReset) (map Z.of_nat ids)) ids) as (ws & rs & E1 & ws' & E2 & L2 & Lr & O2 & S2); [apply map_length|exact Hks|exact Hn| |].
  { intros k w Hk Ew Ed. pose proof (proj1 (nth_error_Some (workers v) k) ltac:(congruence)) as Hlt. rewrite (i_len _ _ _ v out H) in Hlt.
    destruct (nth_error e0 k) as [e|] eqn:Ee; [|apply nth_error_None in Ee; lia]. pose proof (i_wok _ _ _ v out H _ w e Ew Ee) as Hw.
    assert (Em' : memz k (waiting_id v) = false). { destruct (memz k (waiting_id v)) eqn:F; [|reflexivity]. apply memz_In in F. destruct (Hr (Z.of_nat k)) as [_ F']; [apply zmap_in, Hk|contradiction]. }
    rewrite Em' in Hw. apply Hw, Ed. }
  rewrite Em, E1 in Hs. destruct ids as [|i0 ids0] eqn:Ei; [discriminate|]. rewrite <- Ei in *. replace (map Z.of_nat ids) with (Z.of_nat i0 :: map Z.of_nat ids0) in Hs at 1 by (rewrite Ei; reflexivity).
  rewrite E2 in Hs. injection Hs as <- <-.
  assert (Hfst : map fst (combine (map Z.of_nat ids) rs) = map Z.of_nat ids).
  { clear - Lr. rewrite map_length in Lr. revert rs Lr. induction ids as [|i ids IH]; intros [|r rs] El; try discriminate; [reflexivity|]. cbn. f_equal. apply IH. injection El; auto. }
  split; [exact Hc|]. split; [exact I1|]. split; [reflexivity|]. split; [reflexivity|]. split; [exact Hfst|]. split; [reflexivity|]. split; [reflexivity|]. split; [intros k Hk; apply Hr, zmap_in, Hk|]. split.
  - intros k w' Ew'. cbn [set_workers workers] in Ew'. destruct (in_dec Nat.eq_dec k ids) as [Hk|Hk].
    + apply In_nth_error in Hk as [j Hj]. destruct (S2 j k CReset Hj) as (w & w2 & X1 & X2 & _ & _ & X3 & _). { rewrite !nth_error_map, Hj. reflexivity. }
      rewrite Ew' in X2. injection X2 as <-. exists w. split; [exact X1|]. rewrite (part_one k ids ids j k Hn Hj Hj). exact X3.
    + exists w'. rewrite <- (O2 k Hk). split; [exact Ew'|]. rewrite part_nil by exact Hk. cbn. rewrite app_nil_r. reflexivity.
  - intros k w' e r Ew' Ee Hl. eapply last_result; try eassumption; [rewrite Hfst; exact Hnz|]. cbn [set_workers waiting_id].
    assert (Hk : In (Z.of_nat k) (map Z.of_nat ids)) by (rewrite <- Hfst; apply in_map_iff; exists (Z.of_nat k, r); auto). apply Hr, Hk.
Qed.
(** Nothing is running: every environment can be reset. *)
Lemma reset_total v out : inv v out -> is_closed v = false -> waiting_id v = [] -> 0 < N ->
  exists v' l, v_reset f dummy v None = (v', Ok l).
Proof.
  intros H Hc Hw HN. set (ids := seq 0 N).
  assert (Hall : forall i, In i (map Z.of_nat ids) -> In i (ready_id v)).
  { intros i Hi. pose proof (i_perm _ _ _ v out H) as P. rewrite Hw in P. cbn in P. eapply Permutation_in; [apply Permutation_sym, P|exact Hi]. }
  assert (Ew : wrap_id v None = map Z.of_nat ids) by (cbn; unfold env_num; rewrite (i_len _ _ _ v out H); reflexivity).
  unfold v_reset. rewrite Hc, Ew.
  assert (Ha : assert_id v (map Z.of_nat ids) = true).
  { unfold assert_id. apply forallb_forall. intros i Hi. rewrite Hw. cbn. apply existsb_exists. exists i. split; [apply Hall, Hi|apply Z.eqb_refl]. }
  rewrite Ha. rewrite andb_false_r.
  assert (Hks : mapM (norm_index (env_num v)) (map Z.of_nat ids) = Ok ids).
  { rewrite <- (to_of_nat ids) at 2. apply (norm_ids f dummy e0 v out _ H). exact Hall. }
  assert (Em : map (fun i => (i, CReset (Act := Act))) (map Z.of_nat ids) = combine (map Z.of_nat ids) (map (fun _ => CReset) (map Z.of_nat ids))) by (clear; induction (map Z.of_nat ids) as [|i l IH]; [reflexivity|cbn; rewrite IH; reflexivity]).
  destruct (send_recv_nodup f dummy v (map Z.of_nat ids) (map (fun _ => CReset) (map Z.of_nat ids)) ids) as (ws & rs & E1 & ws' & E2 & L2 & Lr & O2 & S2); [apply map_length|exact Hks|apply seq_NoDup| |].
  { intros k w Hk Ekw Ed. pose proof (proj1 (nth_error_Some (workers v) k) ltac:(congruence)) as Hlt. rewrite (i_len _ _ _ v out H) in Hlt.
    destruct (nth_error e0 k) as [e|] eqn:Ee; [|apply nth_error_None in Ee; lia]. pose proof (i_wok _ _ _ v out H _ w e Ekw Ee) as Hwk. rewrite Hw in Hwk. cbn in Hwk. apply Hwk, Ed. }
  rewrite Em, E1. unfold ids in *. destruct N as [|n]; [lia|]. cbn [seq map] in E2 |- *. rewrite E2. eauto.
Qed.
(** Waiting for running environments fails only when the schedule ends. *)
Lemma fetch_total v out rounds : inv v out -> is_closed v = false -> (exists v' l, v_step f dummy v None (Some (waiting_id v)) rounds = (v', Ok l)) \/ exists v', v_step f dummy v None (Some (waiting_id v)) rounds = (v', Err OutOfFuel).
Proof.
  intros H Hc. unfold v_step. rewrite Hc, (i_async _ _ _ v out H). unfold step_async, fetch. destruct dummy eqn:Ed.
  - destruct (waiting_conn v) as [|c cs] eqn:Ec; [right; eauto|]. rewrite <- Ed in *.
    destruct (inv_collect_alias f dummy e0 (S (length (c :: cs))) 0 v out H) as (v1 & l & E1 & _); [rewrite Ec; lia|lia|]. rewrite E1. left. eauto.
  - destruct (wait_until (S (length rounds)) (wait_num v) (timed v) rounds (waiting_conn v)) as [ready|] eqn:Ew; [|right; eauto]. rewrite <- Ed in *.
    apply wait_until_ok in Ew as (_ & W1 & W2 & _). destruct (inv_collect f dummy e0 ready v out H W1 W2) as (v1 & l & E1 & _). rewrite E1. left. eauto.
Qed.
Lemma drain_facts v out rounds v' l : inv v out -> v_step f dummy v None (Some (waiting_id v)) rounds = (v', Ok l) ->
  inv v' (out ++ l) /\ is_closed v' = false /\ (dummy = false -> timed v = false -> min (wait_num v) (length (waiting_id v)) <= length l)
  /\ length (waiting_id v') + length l = length (waiting_id v).
Proof.
  intros H Hs. assert (Hn : NoDup (wrap_id v (Some (waiting_id v)))).
  { cbn. pose proof (inv_nodup _ _ _ _ _ H) as X. clear - X. induction (waiting_id v) as [|x m IH]; [constructor|]. cbn in X. inversion X as [|? ? X1 X2]; subst. constructor; [intros F; apply X1, in_or_app; left; exact F|apply IH, X2]. }
  destruct (inv_step f dummy e0 v out None (Some (waiting_id v)) rounds H Hn) as [I1 I2]. rewrite Hs in I1, I2. cbn [fst snd] in I1, I2.
  destruct (I2 l eq_refl) as (_ & _ & Hmin). cbv zeta in Hmin. rewrite app_nil_r in Hmin.
  unfold v_step in Hs. destruct (is_closed v) eqn:Hc; [discriminate|]. rewrite (i_async _ _ _ v out H) in Hs. unfold step_async in Hs.
  destruct (fetch_same v rounds v' l Hs) as [[_ Sc] Rd]. rewrite Hc in Sc. injection Sc as Sc1 Sc2 Sc3.
  split; [exact I1|]. split; [exact Sc1|]. split; [exact Hmin|].
  pose proof (Permutation_length (i_perm _ _ _ _ _ H)) as P1. pose proof (Permutation_length (i_perm _ _ _ _ _ I1)) as P2. rewrite !app_length in *. rewrite Rd, app_length, map_length in P2. lia.
Qed.
End V.
