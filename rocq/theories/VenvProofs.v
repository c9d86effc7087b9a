(** * Proofs about the vector environments *)
From Verif Require Import Py PyLemmas VenvModel.
From Coq Require Import Permutation.
Open Scope nat_scope.

(** ** Specification: what an environment does with a list of commands *)
Fixpoint final {E Act R} (estep : E -> cmd Act -> E * R) (e : E) (cs : list (cmd Act)) : E :=
  match cs with [] => e | c :: cs => final estep (fst (estep e c)) cs end.
Fixpoint results {E Act R} (estep : E -> cmd Act -> E * R) (e : E) (cs : list (cmd Act)) : list R :=
  match cs with [] => [] | c :: cs => snd (estep e c) :: results estep (fst (estep e c)) cs end.
(** The results with id [k] in a list of outputs. *)
Definition outs_of {R} (k : nat) (out : list (Z * R)) : list R := map snd (filter (fun p => Z.eqb (fst p) (Z.of_nat k)) out).

Lemma nodup_app {X} (l m : list X) : NoDup l -> NoDup m -> (forall x, In x l -> ~ In x m) -> NoDup (l ++ m).
Proof.
  intros Hl Hm Hd. induction l as [|i l IH]; [exact Hm|]. inversion Hl as [|? ? Hi Hl']; subst. cbn. constructor.
  - intros F. apply in_app_or in F as [F|F]; [contradiction|]. apply (Hd i); [left; reflexivity|exact F].
  - apply IH; [exact Hl'|intros j Hj; apply Hd; right; exact Hj].
Qed.

Section Gen.
Context {E Act R : Type}.
Variable estep : E -> cmd Act -> E * R.
Notation final := (final estep).
Notation results := (results estep).

Lemma final_snoc e cs c : final e (cs ++ [c]) = fst (estep (final e cs) c).
Proof. revert e. induction cs as [|d cs IH]; intros e; [reflexivity|]. apply IH. Qed.
Lemma results_snoc e cs c : results e (cs ++ [c]) = results e cs ++ [snd (estep (final e cs) c)].
Proof. revert e. induction cs as [|d cs IH]; intros e; [reflexivity|]. cbn. rewrite IH. reflexivity. Qed.

Section Class.
Variable dummy : bool.
Notation worker := (@worker E Act R).
Notation venv := (@venv E Act R).
Notation wsend := (wsend estep dummy).
Notation wrecv := (@wrecv E Act R dummy).

(** ** Sends and receives *)
Lemma send_all_nodup : forall (l : list (Z * cmd Act)) (v : venv) ks,
  mapM (norm_index (env_num v)) (map fst l) = Ok ks -> NoDup ks ->
  exists ws, send_all estep dummy v l = (set_workers v ws, Ok tt) /\ length ws = env_num v
    /\ (forall k, ~ In k ks -> nth_error ws k = nth_error (workers v) k)
    /\ (forall j k c, nth_error ks j = Some k -> nth_error (map snd l) j = Some c -> exists w, nth_error (workers v) k = Some w /\ nth_error ws k = Some (wsend w c)).
Proof.
  induction l as [|[i c] l IH]; intros v ks Hk Hn; cbn [map mapM fst] in Hk.
  - injection Hk as <-. exists (workers v). split; [destruct v; reflexivity|]. split; [reflexivity|]. split; [reflexivity|]. intros j k c Hj. destruct j; discriminate.
  - destruct (norm_index (env_num v) i) as [k0|] eqn:Ei; [|discriminate]. cbn [bind] in Hk. destruct (mapM (norm_index (env_num v)) (map fst l)) as [ks'|] eqn:El; [|discriminate]. cbn [bind] in Hk. injection Hk as <-.
    inversion Hn as [|? ? Hk0 Hn']; subst. cbn [send_all]. unfold send_at. rewrite Ei.
    assert (Hlt : k0 < length (workers v)). { unfold norm_index, env_num in Ei. destruct (_ && _)%bool eqn:B1; [injection Ei as <-; lia|]. destruct (_ && _)%bool eqn:B2 in Ei; [injection Ei as <-; lia|discriminate]. }
    destruct (nth_error (workers v) k0) as [w|] eqn:Ew; [|apply nth_error_None in Ew; lia].
    set (v1 := set_workers v (upd (workers v) k0 (wsend w c))).
    assert (Hn1 : env_num v1 = env_num v) by (unfold env_num, v1; cbn; apply upd_length).
    destruct (IH v1 ks' ltac:(rewrite Hn1; exact El) Hn') as (ws & E1 & L1 & O1 & S1). fold v1 in E1. rewrite E1.
    exists ws. split; [reflexivity|]. split; [congruence|]. split.
    + intros k Hk. rewrite O1 by (intros F; apply Hk; right; exact F). cbn. apply nth_error_upd_other. intros ->. apply Hk. left. reflexivity.
    + intros j k d Hj Hd. destruct j as [|j]; cbn [nth_error map] in *.
      * injection Hj as <-. injection Hd as <-. exists w. split; [exact Ew|]. rewrite O1 by exact Hk0. cbn. apply nth_error_upd_same. exact Hlt.
      * destruct (S1 j k d Hj Hd) as (w1 & W1 & W2). exists w1. split; [|exact W2]. rewrite <- W1. cbn. symmetry. apply nth_error_upd_other. intros <-. apply Hk0. eapply nth_error_In. exact Hj.
Qed.
Lemma recv_all_nodup : forall (ids : list Z) (v : venv) ks,
  mapM (norm_index (env_num v)) ids = Ok ks -> NoDup ks ->
  (forall k, In k ks -> exists w, nth_error (workers v) k = Some w /\ w_q w <> []) ->
  exists ws rs, recv_all dummy v ids = (set_workers v ws, Ok (combine ids rs)) /\ length ws = env_num v /\ length rs = length ids
    /\ (forall k, ~ In k ks -> nth_error ws k = nth_error (workers v) k)
    /\ (forall j k, nth_error ks j = Some k -> exists w w' r, nth_error (workers v) k = Some w /\ wrecv w = (w', Ok r) /\ nth_error ws k = Some w' /\ nth_error rs j = Some r).
Proof.
  induction ids as [|i ids IH]; intros v ks Hk Hn Hq; cbn [mapM] in Hk.
  - injection Hk as <-. exists (workers v), []. split; [destruct v; reflexivity|]. split; [reflexivity|]. split; [reflexivity|]. split; [reflexivity|]. intros j k Hj. destruct j; discriminate.
  - destruct (norm_index (env_num v) i) as [k0|] eqn:Ei; [|discriminate]. cbn [bind] in Hk. destruct (mapM (norm_index (env_num v)) ids) as [ks'|] eqn:El; [|discriminate]. cbn [bind] in Hk. injection Hk as <-.
    inversion Hn as [|? ? Hk0 Hn']; subst. cbn [recv_all]. unfold recv_at. rewrite Ei. unfold recv_conn.
    destruct (Hq k0 ltac:(left; reflexivity)) as (w & Ew & Hw). rewrite Ew.
    assert (Hr : exists w' r, wrecv w = (w', Ok r)). { unfold VenvModel.wrecv. destruct (w_q w) as [|r q]; [destruct Hw; reflexivity|]. eexists _, _. reflexivity. }
    destruct Hr as (w' & r & Hr). rewrite Hr.
    set (v1 := set_workers v (upd (workers v) k0 w')).
    assert (Hn1 : env_num v1 = env_num v) by (unfold env_num, v1; cbn; apply upd_length).
    assert (Hlt : k0 < length (workers v)) by (apply nth_error_Some; congruence).
    destruct (IH v1 ks' ltac:(rewrite Hn1; exact El) Hn') as (ws & rs & E1 & L1 & Lr & O1 & S1).
    { intros k Hk. destruct (Hq k ltac:(right; exact Hk)) as (w1 & W1 & W2). exists w1. split; [|exact W2]. rewrite <- W1. cbn. apply nth_error_upd_other. intros <-. contradiction. }
    rewrite E1. exists ws, (r :: rs). split; [reflexivity|]. split; [congruence|]. split; [cbn; congruence|]. split.
    + intros k Hk. rewrite O1 by (intros F; apply Hk; right; exact F). cbn. apply nth_error_upd_other. intros ->. apply Hk. left. reflexivity.
    + intros j k Hj. destruct j as [|j]; cbn [nth_error] in *.
      * injection Hj as <-. exists w, w', r. split; [exact Ew|]. split; [exact Hr|]. split; [|reflexivity]. rewrite O1 by exact Hk0. cbn. apply nth_error_upd_same. exact Hlt.
      * destruct (S1 j k Hj) as (w1 & w2 & r1 & W1 & W2 & W3 & W4). exists w1, w2, r1. split; [|auto]. rewrite <- W1. cbn. symmetry. apply nth_error_upd_other. intros <-. apply Hk0. eapply nth_error_In. exact Hj.
Qed.

Lemma send_recv_nodup : forall (v : venv) ids cs ks, length cs = length ids -> mapM (norm_index (env_num v)) ids = Ok ks -> NoDup ks ->
  (forall k w, In k ks -> nth_error (workers v) k = Some w -> dummy = false -> w_q w = []) ->
  exists ws rs, send_all estep dummy v (combine ids cs) = (set_workers v ws, Ok tt) /\
  exists ws', recv_all dummy (set_workers v ws) ids = (set_workers v ws', Ok (combine ids rs)) /\ length ws' = env_num v /\ length rs = length ids
    /\ (forall k, ~ In k ks -> nth_error ws' k = nth_error (workers v) k)
    /\ (forall j k c, nth_error ks j = Some k -> nth_error cs j = Some c -> exists w w', nth_error (workers v) k = Some w /\ nth_error ws' k = Some w'
          /\ w_env w' = fst (estep (w_env w) c) /\ nth_error rs j = Some (snd (estep (w_env w) c)) /\ w_hist w' = w_hist w ++ [c] /\ (dummy = false -> w_q w' = [])).
Proof.
  intros v ids cs ks Hl Hk Hn Hq.
  assert (Hc1 : map fst (combine ids cs) = ids). { clear - Hl. revert cs Hl. induction ids as [|i ids IH]; intros [|c cs] H; try discriminate; [reflexivity|]. cbn. f_equal. apply IH. injection H; auto. }
  assert (Hc2 : map snd (combine ids cs) = cs). { clear - Hl. revert cs Hl. induction ids as [|i ids IH]; intros [|c cs] H; try discriminate; [reflexivity|]. cbn. f_equal. apply IH. injection H; auto. }
  destruct (send_all_nodup (combine ids cs) v ks) as (ws & E1 & L1 & O1 & S1); [rewrite Hc1; exact Hk|exact Hn|]. rewrite Hc2 in S1.
  assert (Lks : length ks = length ids). { clear - Hk. revert ks Hk. induction ids as [|i ids IH]; intros ks H; cbn [mapM] in H; [injection H as <-; reflexivity|]. destruct (norm_index (env_num v) i); [|discriminate]. cbn [bind] in H. destruct (mapM (norm_index (env_num v)) ids); [|discriminate]. cbn [bind] in H. injection H as <-. cbn. f_equal. apply IH. reflexivity. }
  destruct (recv_all_nodup ids (set_workers v ws) ks) as (ws' & rs & E2 & L2 & Lr & O2 & S2).
  - unfold env_num. cbn [set_workers workers]. rewrite L1. exact Hk.
  - exact Hn.
  - intros k Hin. apply In_nth_error in Hin as [j Hj]. assert (Hj' : j < length cs) by (rewrite Hl, <- Lks; apply nth_error_Some; congruence).
    destruct (nth_error cs j) as [c|] eqn:Ec; [|apply nth_error_None in Ec; lia]. destruct (S1 j k c Hj Ec) as (w & W1 & W2). exists (wsend w c). split; [exact W2|].
    unfold VenvModel.wsend. destruct (estep (w_env w) c). cbn. destruct dummy; [discriminate|]. destruct (w_q w); discriminate.
  - exists ws, rs. split; [exact E1|]. exists ws'. split; [exact E2|]. split; [unfold env_num in L2; cbn in L2; congruence|]. split; [exact Lr|]. split.
    + intros k Hin. rewrite O2, <- O1 by exact Hin. reflexivity.
    + intros j k c Hj Hc. destruct (S1 j k c Hj Hc) as (w & W1 & W2). destruct (S2 j k Hj) as (w1 & w' & r & V1 & V2 & V3 & V4). cbn in V1. rewrite W2 in V1. injection V1 as <-.
      pose proof (Hq k w ltac:(eapply nth_error_In; exact Hj) W1) as Hq0. exists w, w'. split; [exact W1|]. split; [exact V3|].
      unfold VenvModel.wsend in V2. destruct (estep (w_env w) c) as [e r0] eqn:Ee. unfold VenvModel.wrecv in V2. cbn [w_q w_env w_hist] in V2. destruct dummy.
      * injection V2 as <- <-. cbn. split; [reflexivity|]. split; [exact V4|]. split; [reflexivity|discriminate].
      * rewrite (Hq0 eq_refl) in V2. cbn in V2. injection V2 as <- <-. cbn. split; [reflexivity|]. split; [exact V4|]. split; [reflexivity|reflexivity].
Qed.

(** ** The asynchronous invariant *)
Variable e0 : list E.
Notation N := (length e0).
Definition wok (wait : bool) (ret : list R) (e : E) (w : worker) : Prop :=
  w_env w = final e (w_hist w)
  /\ if wait then exists r, w_q w = [r] /\ ret ++ [r] = results e (w_hist w)
     else ret = results e (w_hist w) /\ (dummy = false -> w_q w = []).
Lemma wok_send ret e w c : wok false ret e w -> wok true ret e (wsend w c).
Proof.
  intros (He & Hr & Hq). unfold wok, VenvModel.wsend. destruct (estep (w_env w) c) as [e' r] eqn:Es. cbn. rewrite He in Es. split; [rewrite final_snoc, Es; reflexivity|].
  exists r. rewrite results_snoc, Es. cbn. split; [|rewrite Hr; reflexivity]. destruct dummy; [reflexivity|]. rewrite (Hq eq_refl). reflexivity.
Qed.
Lemma wok_recv ret e w : wok true ret e w -> exists w' r, wrecv w = (w', Ok r) /\ wok false (ret ++ [r]) e w' /\ w_hist w' = w_hist w.
Proof.
  intros (He & r & Hq & Hr). unfold VenvModel.wrecv. rewrite Hq. eexists _, r. split; [reflexivity|]. unfold wok. destruct dummy; cbn.
  - split; [|reflexivity]. split; [exact He|]. split; [exact Hr|discriminate].
  - split; [|reflexivity]. split; [exact He|]. split; [exact Hr|reflexivity].
Qed.
Lemma wok_call ret e w c : wok false ret e w -> exists w' r, wcall estep dummy w c = (w', Ok r) /\ wok false (ret ++ [r]) e w'.
Proof.
  intros H. unfold wcall. destruct dummy eqn:Ed.
  - destruct H as (He & Hr & Hq). destruct (estep (w_env w) c) as [e' r] eqn:Es. eexists _, r. split; [reflexivity|]. rewrite He in Es. unfold wok. cbn. rewrite final_snoc, results_snoc, Es, Hr. split; [reflexivity|]. split; [reflexivity|]. rewrite Ed. discriminate.
  - assert (H1 : wok true ret e (wsend w c)) by (apply wok_send; exact H). apply wok_recv in H1 as (w' & r & H1 & H2 & _). rewrite Ed in H1. exists w', r. split; [exact H1|exact H2].
Qed.

Definition memz (k : nat) (l : list Z) : bool := existsb (Z.eqb (Z.of_nat k)) l.
Lemma memz_In k l : memz k l = true <-> In (Z.of_nat k) l.
Proof. unfold memz. rewrite existsb_exists. split; [intros (x & Hx & Ex); apply Z.eqb_eq in Ex; subst; exact Hx|]. intros H. exists (Z.of_nat k). split; [exact H|apply Z.eqb_refl]. Qed.
Definition zids : list Z := map Z.of_nat (seq 0 N).
Lemma zids_nodup : NoDup zids.
Proof. unfold zids. apply FinFun.Injective_map_NoDup; [intros a b; lia|apply seq_NoDup]. Qed.
Lemma zids_in i : In i zids <-> (0 <= i < Z.of_nat N)%Z.
Proof. unfold zids. rewrite in_map_iff. split; [intros (k & <- & Hk); apply in_seq in Hk; lia|]. intros H. exists (Z.to_nat i). rewrite in_seq. lia. Qed.

Record inv (v : venv) (out : list (Z * R)) : Prop := {
  i_async : is_async v = true;
  i_len : length (workers v) = N;
  i_conn : waiting_conn v = map Z.to_nat (waiting_id v);
  i_perm : Permutation (waiting_id v ++ ready_id v) zids;
  i_wok : forall k w e, nth_error (workers v) k = Some w -> nth_error e0 k = Some e -> wok (memz k (waiting_id v)) (outs_of k out) e w;
  i_wn : 1 <= wait_num v
}.
Lemma inv_nodup v out : inv v out -> NoDup (waiting_id v ++ ready_id v).
Proof. intros H. eapply Permutation_NoDup; [apply Permutation_sym, (i_perm v out H)|apply zids_nodup]. Qed.
Lemma inv_range v out i : inv v out -> In i (waiting_id v) \/ In i (ready_id v) -> (0 <= i < Z.of_nat N)%Z.
Proof. intros H Hi. apply zids_in. eapply Permutation_in; [apply (i_perm v out H)|]. apply in_or_app. exact Hi. Qed.
Lemma assert_id_ready v out ids : inv v out -> assert_id v ids = true -> forall i, In i ids -> In i (ready_id v) /\ ~ In i (waiting_id v).
Proof.
  intros H Ha i Hi. unfold assert_id in Ha. rewrite forallb_forall in Ha. specialize (Ha i Hi). apply andb_prop in Ha as [A1 A2].
  apply existsb_exists in A2 as (x & Hx & Ex). apply Z.eqb_eq in Ex. subst x. split; [exact Hx|]. intros F. apply negb_true_iff in A1.
  assert (existsb (Z.eqb i) (waiting_id v) = true) by (apply existsb_exists; exists i; split; [exact F|apply Z.eqb_refl]). congruence.
Qed.
Lemma norm_ids v out ids : inv v out -> (forall i, In i ids -> In i (ready_id v)) -> mapM (norm_index (env_num v)) ids = Ok (map Z.to_nat ids).
Proof.
  intros H Hi. induction ids as [|i ids IH]; [reflexivity|]. cbn [mapM map]. assert (Hr : (0 <= i < Z.of_nat N)%Z) by (apply (inv_range v out i H); right; apply Hi; left; reflexivity).
  unfold norm_index at 1. unfold env_num. rewrite (i_len v out H). replace ((0 <=? i)%Z && (i <? Z.of_nat N)%Z)%bool with true by (symmetry; apply andb_true_intro; split; lia). cbn [bind].
  unfold env_num in IH. rewrite (i_len v out H) in IH. rewrite IH by (intros j Hj; apply Hi; right; exact Hj). reflexivity.
Qed.
Lemma to_nat_nodup ids : (forall i, In i ids -> (0 <= i)%Z) -> NoDup ids -> NoDup (map Z.to_nat ids).
Proof.
  induction ids as [|i ids IH]; intros H Hn; [constructor|]. inversion Hn as [|? ? Hi Hn']; subst. cbn. constructor.
  - intros F. apply in_map_iff in F as (j & Ej & Hj). assert (j = i) by (pose proof (H i ltac:(left; reflexivity)); pose proof (H j ltac:(right; exact Hj)); lia). subst. contradiction.
  - apply IH; [intros j Hj; apply H; right; exact Hj|exact Hn'].
Qed.
Lemma outs_app k (o1 o2 : list (Z * R)) : outs_of k (o1 ++ o2) = outs_of k o1 ++ outs_of k o2.
Proof. unfold outs_of. rewrite filter_app, map_app. reflexivity. Qed.
Lemma outs_cons k i (r : R) out : outs_of k ((i, r) :: out) = (if Z.eqb i (Z.of_nat k) then [r] else []) ++ outs_of k out.
Proof. unfold outs_of. cbn. destruct (Z.eqb i (Z.of_nat k)); reflexivity. Qed.
(** The outputs of distinct ids. *)
Lemma outs_combine_notin k (ids : list Z) (rs : list R) : ~ In (Z.of_nat k) ids -> outs_of k (combine ids rs) = [].
Proof.
  revert rs. induction ids as [|i ids IH]; intros [|r rs] H; try reflexivity. cbn [combine]. rewrite outs_cons. destruct (Z.eqb_spec i (Z.of_nat k)) as [->|]; [destruct H; left; reflexivity|].
  cbn. apply IH. intros F. apply H. right. exact F.
Qed.
Lemma outs_combine_in k (ids : list Z) (rs : list R) j r : NoDup ids -> nth_error ids j = Some (Z.of_nat k) -> nth_error rs j = Some r -> outs_of k (combine ids rs) = [r].
Proof.
  revert rs j. induction ids as [|i ids IH]; intros rs j Hn Hj Hr; [destruct j; discriminate|]. inversion Hn as [|? ? Hi Hn']; subst. destruct rs as [|r0 rs]; [destruct j; discriminate|].
  cbn [combine]. rewrite outs_cons. destruct j as [|j]; cbn [nth_error] in *.
  - injection Hj as ->. injection Hr as ->. rewrite Z.eqb_refl. cbn. rewrite outs_combine_notin by exact Hi. reflexivity.
  - destruct (Z.eqb_spec i (Z.of_nat k)) as [->|_]; [destruct Hi; eapply nth_error_In; exact Hj|]. cbn. apply (IH rs j Hn' Hj Hr).
Qed.

(** reset *)
Lemma inv_reset v out ids : inv v out -> NoDup (wrap_id v ids) ->
  inv (fst (v_reset estep dummy v ids)) (out ++ match snd (v_reset estep dummy v ids) with Ok l => l | Err _ => [] end).
Proof.
  intros H Hn. unfold v_reset. destruct (is_closed v); [cbn; rewrite app_nil_r; exact H|]. rewrite (i_async v out H). cbn [andb].
  set (l := wrap_id v ids) in *. destruct (assert_id v l) eqn:Ha; cbn [negb]; [|cbn; rewrite app_nil_r; exact H].
  pose proof (assert_id_ready v out l H Ha) as Hr.
  assert (Hks : mapM (norm_index (env_num v)) l = Ok (map Z.to_nat l)) by (apply (norm_ids v out l H); intros i Hi; apply Hr, Hi).
  assert (Hpos : forall i, In i l -> (0 <= i < Z.of_nat N)%Z) by (intros i Hi; apply (inv_range v out i H); right; apply Hr, Hi).
  assert (Hnk : NoDup (map Z.to_nat l)) by (apply to_nat_nodup; [intros i Hi; apply Hpos in Hi; lia|exact Hn]).
  assert (Em : map (fun i => (i, CReset (Act := Act))) l = combine l (map (fun _ => CReset) l)) by (clear; induction l as [|i l IH]; [reflexivity|cbn; rewrite IH; reflexivity]).
  destruct (send_recv_nodup v l (map (fun _ => CReset) l) (map Z.to_nat l)) as (ws & rs & E1 & ws' & E2 & L2 & Lr & O2 & S2); [apply map_length|exact Hks|exact Hnk| |].
  { intros k w Hk Ew Ed. apply in_map_iff in Hk as (i & <- & Hi). pose proof (proj1 (nth_error_Some (workers v) (Z.to_nat i)) ltac:(congruence)) as Hlt. rewrite (i_len v out H) in Hlt.
    destruct (nth_error e0 (Z.to_nat i)) as [e|] eqn:Ee; [|apply nth_error_None in Ee; lia]. pose proof (i_wok v out H _ w e Ew Ee) as Hw.
    assert (Em' : memz (Z.to_nat i) (waiting_id v) = false). { destruct (memz (Z.to_nat i) (waiting_id v)) eqn:F; [|reflexivity]. apply memz_In in F. pose proof (Hpos i Hi). rewrite Z2Nat.id in F by lia. destruct (Hr i Hi) as [_ F']. contradiction. }
    rewrite Em' in Hw. apply Hw, Ed. }
  rewrite Em, E1. destruct l as [|i0 l0] eqn:El.
  { cbn in E1. injection E1 as E1. assert (ws = workers v) by (apply (f_equal workers) in E1; cbn in E1; congruence). subst ws. cbn [fst snd]. rewrite app_nil_r.
    destruct H. constructor; cbn; assumption. }
  rewrite <- El in *. rewrite E2. cbn [fst snd]. 
  constructor; cbn [set_workers is_async workers waiting_conn waiting_id ready_id wait_num]; try (apply H).
  { rewrite L2. apply (i_len v out H). }
  intros k w e Ew Ee. rewrite outs_app. destruct (in_dec Z.eq_dec (Z.of_nat k) l) as [Hi|Hi].
  - apply In_nth_error in Hi as [j Hj].
    assert (Hj1 : nth_error (map Z.to_nat l) j = Some k) by (rewrite nth_error_map, Hj; cbn; rewrite Nat2Z.id; reflexivity).
    assert (Hj2 : nth_error (map (fun _ => CReset (Act := Act)) l) j = Some CReset) by (rewrite nth_error_map, Hj; reflexivity).
    destruct (S2 j k CReset Hj1 Hj2) as (w0 & w' & W1 & W2 & W3 & W4 & W5 & W6). rewrite W2 in Ew. injection Ew as <-.
    pose proof (i_wok v out H k w0 e W1 Ee) as Hw.
    assert (Em' : memz k (waiting_id v) = false). { destruct (memz k (waiting_id v)) eqn:F; [|reflexivity]. apply memz_In in F. destruct (Hr (Z.of_nat k) ltac:(eapply nth_error_In; exact Hj)) as [_ F']. contradiction. }
    rewrite Em' in *. destruct Hw as (He & Hret & _). rewrite (outs_combine_in k l rs j _ Hn Hj W4). split; [rewrite W3, W5, final_snoc, He; reflexivity|].
    split; [|exact W6]. rewrite W5, results_snoc, Hret, <- He. reflexivity.
  - rewrite outs_combine_notin, app_nil_r by exact Hi. apply (i_wok v out H k w e); [|exact Ee]. rewrite <- Ew. symmetry. apply O2. intros F. apply in_map_iff in F as (i & Ei & Fi). apply Hi. pose proof (Hpos i Fi). replace (Z.of_nat k) with i by lia. exact Fi.
Qed.

(** send_async *)
Lemma send_async_eq : forall l (v : venv) ks, mapM (norm_index (env_num v)) (map fst l) = Ok ks ->
  exists v1, send_all estep dummy v l = (v1, Ok tt) /\ send_async estep dummy v l = (set_waiting v1 (waiting_conn v ++ ks) (waiting_id v ++ map fst l), Ok tt)
    /\ exists ws, v1 = set_workers v ws /\ length ws = env_num v.
Proof.
  assert (Hlt : forall n i k, norm_index n i = Ok k -> k < n).
  { intros n i k H. unfold norm_index in H. destruct (_ && _)%bool eqn:B1; [injection H as <-; lia|]. destruct (_ && _)%bool eqn:B2 in H; [injection H as <-; lia|discriminate]. }
  assert (G : forall l (v : venv) wc wi ks, mapM (norm_index (env_num v)) (map fst l) = Ok ks ->
    exists ws, send_all estep dummy v l = (set_workers v ws, Ok tt) /\ send_async estep dummy (set_waiting v wc wi) l = (set_waiting (set_workers v ws) (wc ++ ks) (wi ++ map fst l), Ok tt) /\ length ws = env_num v).
  { induction l as [|[i c] l IH]; intros v wc wi ks Hk; cbn [map mapM fst] in Hk.
    - injection Hk as <-. exists (workers v). cbn. rewrite !app_nil_r. destruct v; repeat split; reflexivity.
    - destruct (norm_index (env_num v) i) as [k0|] eqn:Ei; [|discriminate]. cbn [bind] in Hk. destruct (mapM (norm_index (env_num v)) (map fst l)) as [ks'|] eqn:El; [|discriminate]. cbn [bind] in Hk. injection Hk as <-.
      cbn [send_all send_async]. unfold send_at. change (env_num (set_waiting v wc wi)) with (env_num v). rewrite Ei. change (workers (set_waiting v wc wi)) with (workers v).
      pose proof (Hlt _ _ _ Ei) as Hk0. unfold env_num in Hk0. destruct (nth_error (workers v) k0) as [w|] eqn:Ew; [|apply nth_error_None in Ew; lia].
      set (v1 := set_workers v (upd (workers v) k0 (wsend w c))).
      assert (Hn1 : env_num v1 = env_num v) by (unfold env_num, v1; cbn; apply upd_length).
      change (env_num (set_workers (set_waiting v wc wi) (upd (workers v) k0 (wsend w c)))) with (env_num v1). rewrite Hn1, Ei.
      destruct (IH v1 (wc ++ [k0]) (wi ++ [i]) ks' ltac:(rewrite Hn1; exact El)) as (ws & E1 & E2 & L).
      exists ws. split; [exact E1|]. split; [|congruence].
      change (set_waiting (set_workers (set_waiting v wc wi) (upd (workers v) k0 (wsend w c))) (waiting_conn (set_workers (set_waiting v wc wi) (upd (workers v) k0 (wsend w c))) ++ [k0]) (waiting_id (set_workers (set_waiting v wc wi) (upd (workers v) k0 (wsend w c))) ++ [i]))
        with (set_waiting v1 (wc ++ [k0]) (wi ++ [i])). rewrite E2. rewrite <- !app_assoc. reflexivity. }
  intros l v ks Hk. destruct (G l v (waiting_conn v) (waiting_id v) ks Hk) as (ws & E1 & E2 & L).
  exists (set_workers v ws). split; [exact E1|]. split; [|exists ws; split; [reflexivity|exact L]].
  replace (set_waiting v (waiting_conn v) (waiting_id v)) with v in E2 by (destruct v; reflexivity). exact E2.
Qed.
(** The state after the sends of a legal step. *)
Lemma inv_sent v out acts ids : inv v out -> assert_id v ids = true -> length acts = length ids -> NoDup ids ->
  exists v1, send_async estep dummy v (combine ids (map CStep acts)) = (v1, Ok tt)
    /\ inv (set_ready v1 (filter (fun x => negb (existsb (Z.eqb x) ids)) (ready_id v1))) out
    /\ waiting_id v1 = waiting_id v ++ ids /\ wait_num v1 = wait_num v /\ timed v1 = timed v.
Proof.
  intros H Ha Hl Hn. pose proof (assert_id_ready v out ids H Ha) as Hr.
  assert (Hc1 : map fst (combine ids (map (CStep (Act := Act)) acts)) = ids). { clear - Hl. revert ids Hl. induction acts as [|a acts IH]; intros [|i ids] Hl; try discriminate; [reflexivity|]. cbn. f_equal. apply IH. injection Hl; auto. }
  assert (Hc2 : map snd (combine ids (map (CStep (Act := Act)) acts)) = map CStep acts). { clear - Hl. revert ids Hl. induction acts as [|a acts IH]; intros [|i ids] Hl; try discriminate; [reflexivity|]. cbn. f_equal. apply IH. injection Hl; auto. }
  assert (Hks : mapM (norm_index (env_num v)) ids = Ok (map Z.to_nat ids)) by (apply (norm_ids v out ids H); intros i Hi; apply Hr, Hi).
  assert (Hpos : forall i, In i ids -> (0 <= i < Z.of_nat N)%Z) by (intros i Hi; apply (inv_range v out i H); right; apply Hr, Hi).
  assert (Hnk : NoDup (map Z.to_nat ids)) by (apply to_nat_nodup; [intros i Hi; apply Hpos in Hi; lia|exact Hn]).
  destruct (send_async_eq (combine ids (map CStep acts)) v (map Z.to_nat ids) ltac:(rewrite Hc1; exact Hks)) as (v1 & E1 & E2 & ws & Ev1 & Lw).
  destruct (send_all_nodup (combine ids (map CStep acts)) v (map Z.to_nat ids) ltac:(rewrite Hc1; exact Hks) Hnk) as (ws2 & E3 & L3 & O3 & S3). rewrite E1 in E3. injection E3 as E3.
  subst v1. assert (ws2 = ws) by (apply (f_equal workers) in E3; cbn in E3; congruence). subst ws2. rewrite Hc1 in E2. rewrite Hc2 in S3. eexists. split; [exact E2|]. split; [|repeat split].
  constructor; cbn [set_ready set_waiting set_workers is_async workers waiting_conn waiting_id ready_id wait_num].
  - apply (i_async v out H).
  - rewrite Lw. apply (i_len v out H).
  - rewrite map_app, (i_conn v out H). reflexivity.
  - pose proof (inv_nodup v out H) as Hnd. rewrite <- app_assoc. eapply Permutation_trans; [|apply (i_perm v out H)]. apply Permutation_app_head.
    assert (Hnr : NoDup (ready_id v)) by (clear - Hnd; induction (waiting_id v) as [|x l IH]; [exact Hnd|apply IH; inversion Hnd; assumption]).
    apply NoDup_Permutation; [|exact Hnr|].
    + apply nodup_app; [exact Hn|apply NoDup_filter, Hnr|]. intros x Hx F. apply filter_In in F as [_ F]. apply negb_true_iff in F.
      assert (existsb (Z.eqb x) ids = true) by (apply existsb_exists; exists x; split; [exact Hx|apply Z.eqb_refl]). congruence.
    + intros x. rewrite in_app_iff, filter_In. split.
      * intros [Hx|[Hx _]]; [apply Hr, Hx|exact Hx].
      * intros Hx. destruct (in_dec Z.eq_dec x ids) as [Hi|Hi]; [left; exact Hi|right]. split; [exact Hx|]. apply negb_true_iff. destruct (existsb (Z.eqb x) ids) eqn:F; [|reflexivity]. apply existsb_exists in F as (y & Hy & Ey). apply Z.eqb_eq in Ey. subst y. contradiction.
  - intros k w e Ew Ee. assert (Emem : memz k (waiting_id v ++ ids) = (memz k (waiting_id v) || memz k ids)%bool) by (unfold memz; apply existsb_app). rewrite Emem.
    destruct (memz k ids) eqn:Ek.
    + apply memz_In in Ek. destruct (Hr _ Ek) as [_ Hw]. assert (Em' : memz k (waiting_id v) = false). { destruct (memz k (waiting_id v)) eqn:F; [|reflexivity]. apply memz_In in F. contradiction. } rewrite Em'. cbn [orb].
      apply In_nth_error in Ek as [j Hj].
      assert (Hj1 : nth_error (map Z.to_nat ids) j = Some k) by (rewrite nth_error_map, Hj; cbn; rewrite Nat2Z.id; reflexivity).
      assert (Hj' : j < length acts) by (rewrite Hl; apply nth_error_Some; congruence). destruct (nth_error acts j) as [a|] eqn:Ea; [|apply nth_error_None in Ea; lia].
      destruct (S3 j k (CStep a) Hj1 ltac:(rewrite nth_error_map, Ea; reflexivity)) as (w0 & W1 & W2). rewrite W2 in Ew. injection Ew as <-. apply wok_send. rewrite <- Em'. apply (i_wok v out H k w0 e W1 Ee).
    + rewrite orb_false_r. apply (i_wok v out H k w e); [|exact Ee]. rewrite <- Ew. symmetry. apply O3. intros F. apply in_map_iff in F as (i & Ei & Fi). pose proof (Hpos i Fi).
      assert (memz k ids = true) by (apply memz_In; replace (Z.of_nat k) with i by lia; exact Fi). congruence.
  - apply (i_wn v out H).
Qed.

(** ** Collecting results *)
Lemma index_of_some k l n : index_of k l = Some n -> nth_error l n = Some k.
Proof. revert n. induction l as [|x l IH]; intros n H; [discriminate|]. cbn in H. destruct (Nat.eqb_spec x k) as [->|]; [injection H as <-; reflexivity|]. destruct (index_of k l); [|discriminate]. injection H as <-. cbn. apply IH. reflexivity. Qed.
Lemma index_of_in k l : In k l -> exists n, index_of k l = Some n.
Proof. induction l as [|x l IH]; intros H; [destruct H|]. cbn. destruct (Nat.eqb_spec x k); [eexists; reflexivity|]. destruct H as [H|H]; [contradiction|]. destruct (IH H) as [m ->]. eexists. reflexivity. Qed.
Lemma pop_perm {X} n (l : list X) x : nth_error l n = Some x -> Permutation l (x :: pop n l).
Proof. revert l. induction n as [|n IH]; intros [|y l] H; try discriminate; [injection H as ->; apply Permutation_refl|]. cbn in *. eapply Permutation_trans; [apply perm_skip, IH, H|apply perm_swap]. Qed.
Lemma pop_map {X Y} (f : X -> Y) n l : pop n (map f l) = map f (pop n l).
Proof. revert l. induction n as [|n IH]; intros [|y l]; try reflexivity. cbn. rewrite IH. reflexivity. Qed.
Lemma pop_length {X} n (l : list X) : n < length l -> S (length (pop n l)) = length l.
Proof. revert l. induction n as [|n IH]; intros [|y l] H; cbn in *; try lia. rewrite IH; lia. Qed.

Lemma inv_collect_one v out c : inv v out -> In c (waiting_conn v) ->
  exists v1 r, collect_one dummy v c = (v1, Ok (Z.of_nat c, r)) /\ inv v1 (out ++ [(Z.of_nat c, r)])
    /\ Permutation (waiting_conn v) (c :: waiting_conn v1) /\ length (waiting_conn v) = S (length (waiting_conn v1))
    /\ wait_num v1 = wait_num v /\ timed v1 = timed v.
Proof.
  intros H Hc. unfold collect_one. destruct (index_of_in c _ Hc) as [n En]. rewrite En. pose proof (index_of_some _ _ _ En) as Hn.
  pose proof Hn as Hn'. rewrite (i_conn v out H), nth_error_map in Hn'. destruct (nth_error (waiting_id v) n) as [i|] eqn:Ei; [|discriminate]. cbn in Hn'. injection Hn' as Hi.
  assert (Hir : (0 <= i < Z.of_nat N)%Z) by (apply (inv_range v out i H); left; eapply nth_error_In; exact Ei). assert (Ec : i = Z.of_nat c) by lia. rewrite Ec in *. clear Hi.
  unfold recv_conn. cbn [set_waiting workers]. assert (Hlt : c < N) by lia.
  destruct (nth_error (workers v) c) as [w|] eqn:Ew; [|apply nth_error_None in Ew; rewrite (i_len v out H) in Ew; lia].
  destruct (nth_error e0 c) as [e|] eqn:Ee; [|apply nth_error_None in Ee; lia].
  pose proof (i_wok v out H c w e Ew Ee) as Hw. assert (Em : memz c (waiting_id v) = true) by (apply memz_In; eapply nth_error_In; exact Ei). rewrite Em in Hw.
  apply wok_recv in Hw as (w' & r & Hr & Hw' & _). rewrite Hr. eexists _, r. split; [reflexivity|].
  pose proof (pop_perm n (waiting_id v) _ Ei) as Hp. pose proof (inv_nodup v out H) as Hnd.
  assert (Hni : ~ In (Z.of_nat c) (pop n (waiting_id v))).
  { assert (Hd : NoDup (Z.of_nat c :: pop n (waiting_id v))). { eapply Permutation_NoDup; [exact Hp|]. clear - Hnd. induction (waiting_id v) as [|x l IH]; [constructor|]. cbn in Hnd. inversion Hnd as [|? ? Hx Hl]; subst. constructor; [intros F; apply Hx, in_or_app; left; exact F|apply IH, Hl]. }
    inversion Hd; assumption. }
  split; [|split; [|split; [|split; reflexivity]]].
  - constructor; cbn [set_ready set_waiting set_workers is_async workers waiting_conn waiting_id ready_id wait_num].
    + apply (i_async v out H).
    + rewrite upd_length. apply (i_len v out H).
    + rewrite (i_conn v out H), pop_map. reflexivity.
    + eapply Permutation_trans; [|apply (i_perm v out H)]. rewrite app_assoc. eapply Permutation_trans; [apply Permutation_app_comm|]. cbn [app].
      rewrite app_comm_cons. apply Permutation_app_tail, Permutation_sym, Hp.
    + intros k x e' Ex Ee'. rewrite outs_app, outs_cons. destruct (Z.eqb_spec (Z.of_nat c) (Z.of_nat k)) as [Eq|Ne].
      * assert (k = c) by lia. subst k. rewrite nth_error_upd_same in Ex by (rewrite (i_len v out H); exact Hlt). injection Ex as <-. rewrite Ee in Ee'. injection Ee' as <-.
        assert (Em' : memz c (pop n (waiting_id v)) = false). { destruct (memz c (pop n (waiting_id v))) eqn:F; [|reflexivity]. apply memz_In in F. contradiction. }
        rewrite Em'. exact Hw'.
      * cbn. rewrite app_nil_r. rewrite nth_error_upd_other in Ex by (intros <-; lia).
        assert (Em' : memz k (pop n (waiting_id v)) = memz k (waiting_id v)). { apply eq_true_iff_eq. rewrite !memz_In. split; intros F.
          - eapply Permutation_in; [apply Permutation_sym, Hp|right; exact F].
          - eapply Permutation_in in F; [|exact Hp]. destruct F as [F|F]; [congruence|exact F]. }
        rewrite Em'. apply (i_wok v out H k x e' Ex Ee').
    + apply (i_wn v out H).
  - cbn [set_ready set_workers set_waiting waiting_conn]. apply pop_perm, Hn.
  - cbn [set_ready set_workers set_waiting waiting_conn]. symmetry. apply pop_length. apply nth_error_Some. congruence.
Qed.
Lemma inv_collect : forall conns v out, inv v out -> NoDup conns -> (forall c, In c conns -> In c (waiting_conn v)) ->
  exists v1 l, collect dummy v conns = (v1, Ok l) /\ inv v1 (out ++ l) /\ map fst l = map Z.of_nat conns.
Proof.
  induction conns as [|c conns IH]; intros v out H Hn Hc.
  - exists v, []. cbn. rewrite app_nil_r. auto.
  - inversion Hn as [|? ? Hcn Hn']; subst. cbn [collect]. destruct (inv_collect_one v out c H ltac:(apply Hc; left; reflexivity)) as (v1 & r & E1 & H1 & P1 & _). rewrite E1.
    destruct (IH v1 (out ++ [(Z.of_nat c, r)]) H1 Hn') as (v2 & l & E2 & H2 & M2).
    { intros d Hd. pose proof (Hc d ltac:(right; exact Hd)) as F. eapply Permutation_in in F; [|exact P1]. destruct F as [->|F]; [contradiction|exact F]. }
    rewrite E2. eexists _, _. split; [reflexivity|]. split; [rewrite <- app_assoc in H2; exact H2|]. cbn. rewrite M2. reflexivity.
Qed.
(** The aliased loop takes every other waiting worker. *)
Lemma inv_collect_alias : forall fuel pos v out, inv v out -> length (waiting_conn v) < fuel + pos -> 0 < fuel ->
  exists v1 l, collect_alias dummy fuel pos v = (v1, Ok l) /\ inv v1 (out ++ l) /\ length l = (S (length (waiting_conn v)) - pos) / 2.
Proof.
  induction fuel as [|fuel IH]; intros pos v out H Hf H0; [lia|]. cbn [collect_alias]. destruct (nth_error (waiting_conn v) pos) as [c|] eqn:Ec.
  - pose proof (proj1 (nth_error_Some (waiting_conn v) pos) ltac:(congruence)) as Hlt.
    destruct (inv_collect_one v out c H ltac:(eapply nth_error_In; exact Ec)) as (v1 & r & E1 & H1 & _ & L1 & _). rewrite E1.
    destruct (IH (S pos) v1 _ H1 ltac:(lia) ltac:(lia)) as (v2 & l & E2 & H2 & L2). rewrite E2. eexists _, _. split; [reflexivity|]. split; [rewrite <- app_assoc in H2; exact H2|].
    cbn [length]. rewrite L2, L1. replace (S (S (length (waiting_conn v1))) - pos) with ((S (length (waiting_conn v1)) - S pos) + 1 * 2) by lia. rewrite Nat.div_add by lia. lia.
  - apply nth_error_None in Ec. exists v, []. rewrite app_nil_r. split; [reflexivity|]. split; [exact H|]. cbn [length]. symmetry. apply Nat.div_small. lia.
Qed.

(** SubprocEnvWorker.wait *)
Lemma wait_loop_ok : forall wn tm rounds remain ready conns r rs,
  (forall k, In k remain -> In k conns) -> (forall k, In k ready -> In k conns) -> NoDup ready -> (forall k, In k remain -> ~ In k ready) ->
  (forall k, In k conns -> In k remain \/ In k ready) ->
  wait_loop wn tm rounds remain ready = Some (r, rs) ->
  NoDup r /\ (forall k, In k r -> In k conns) /\ (tm = false -> wn <= length r \/ (forall k, In k conns -> In k r)).
Proof.
  intros wn tm. induction rounds as [|o rounds IH]; intros remain ready conns r rs H1 H2 H3 H4 H5 Ex0; cbn [wait_loop] in Ex0.
  - destruct ((length remain =? 0) || (wn <=? length ready))%bool eqn:B; [|discriminate]. injection Ex0 as <- <-. split; [exact H3|]. split; [exact H2|]. intros _. apply orb_prop in B as [B|B].
    + right. intros k Hk. destruct remain; [|discriminate]. destruct (H5 k Hk) as [[]|F]; exact F.
    + left. apply Nat.leb_le, B.
  - destruct ((length remain =? 0) || (wn <=? length ready))%bool eqn:B.
    + injection Ex0 as <- <-. split; [exact H3|]. split; [exact H2|]. intros _. apply orb_prop in B as [B|B].
      * right. intros k Hk. destruct remain; [|discriminate]. destruct (H5 k Hk) as [[]|F]; exact F.
      * left. apply Nat.leb_le, B.
    + assert (Hm : forall k l, memn k l = true <-> In k l). { intros k l. unfold memn. rewrite existsb_exists. split; [intros (x & Hx & Ex); apply Nat.eqb_eq in Ex; subst; exact Hx|]. intros Hk. exists k. split; [exact Hk|apply Nat.eqb_refl]. }
      destruct o as [q|].
      * set (new := filter (fun k => memn k remain) (nodup Nat.eq_dec q)) in *. eapply IH; [| | | | |exact Ex0].
        -- intros k Hk. apply filter_In in Hk as [Hk _]. apply H1, Hk.
        -- intros k Hk. apply in_app_or in Hk as [Hk|Hk]; [apply H2, Hk|]. apply filter_In in Hk as [_ Hk]. apply H1, Hm, Hk.
        -- apply nodup_app; [exact H3|apply NoDup_filter, NoDup_nodup|]. intros k Hk F. apply filter_In in F as [_ F]. apply Hm in F. apply (H4 k F Hk).
        -- intros k Hk F. apply filter_In in Hk as [_ Hk]. apply negb_true_iff in Hk. apply Hm in F. congruence.
        -- intros k Hk. destruct (H5 k Hk) as [F|F]; [|right; apply in_or_app; left; exact F]. destruct (memn k (ready ++ new)) eqn:M; [right; apply Hm, M|]. left. apply filter_In. split; [exact F|]. rewrite M. reflexivity.
      * destruct tm; [|apply (IH remain ready conns r rs); assumption]. injection Ex0 as <- <-. split; [exact H3|]. split; [exact H2|]. discriminate.
Qed.
Lemma wait_until_ok : forall fuel wn tm rounds conns r, wait_until fuel wn tm rounds conns = Some r ->
  r <> [] /\ NoDup r /\ (forall k, In k r -> In k conns) /\ (tm = false -> wn <= length r \/ (forall k, In k conns -> In k r)).
Proof.
  induction fuel as [|fuel IH]; intros wn tm rounds conns r Ex0; [discriminate|]. cbn [wait_until] in Ex0. destruct (wait_loop wn tm rounds conns []) as [[l rs]|] eqn:El; [|discriminate].
  destruct l as [|c l]; [apply (IH _ _ _ _ _ Ex0)|]. injection Ex0 as <-. split; [discriminate|]. eapply wait_loop_ok; [| | | | |exact El]; [auto|intros k []|constructor|intros k _ []|auto].
Qed.

Lemma inv_fetch v out rounds : inv v out ->
  inv (fst (fetch dummy v rounds)) (out ++ match snd (fetch dummy v rounds) with Ok l => l | Err _ => [] end)
  /\ (forall l, snd (fetch dummy v rounds) = Ok l -> l <> []
       /\ (dummy = true -> length l = S (length (waiting_id v)) / 2)
       /\ (dummy = false -> timed v = false -> min (wait_num v) (length (waiting_id v)) <= length l)).
Proof.
  intros H. unfold fetch. assert (Hlen : length (waiting_conn v) = length (waiting_id v)) by (rewrite (i_conn v out H); apply map_length).
  destruct dummy eqn:Ed.
  - destruct (waiting_conn v) as [|c cs] eqn:Ec; [cbn [fst snd]; rewrite app_nil_r; split; [exact H|discriminate]|].
    destruct (inv_collect_alias (S (length (c :: cs))) 0 v out H) as (v1 & l & E1 & H1 & L1); [rewrite Ec; lia|lia|]. rewrite Ed in E1. rewrite E1. cbn [fst snd]. split; [exact H1|].
    intros l' El. injection El as <-. rewrite Nat.sub_0_r, Ec in L1. split; [|split; [intros _; rewrite <- Hlen; exact L1|discriminate]].
    intros ->. cbn [length] in L1. symmetry in L1. apply Nat.div_small_iff in L1; lia.
  - destruct (wait_until (S (length rounds)) (wait_num v) (timed v) rounds (waiting_conn v)) as [ready|] eqn:Ew; [|cbn [fst snd]; rewrite app_nil_r; split; [exact H|discriminate]].
    apply wait_until_ok in Ew as (W0 & W1 & W2 & W3). destruct (inv_collect ready v out H W1 W2) as (v1 & l & E1 & H1 & M1). rewrite Ed in E1. rewrite E1. cbn [fst snd]. split; [exact H1|].
    intros l' El. injection El as <-. assert (Ll : length l = length ready) by (rewrite <- (map_length fst l), M1; apply map_length). split; [intros ->; destruct ready; [apply W0; reflexivity|discriminate]|]. split; [discriminate|].
    intros _ Ht. rewrite Ll. destruct (W3 Ht) as [W|W]; [lia|]. rewrite <- Hlen. apply Nat.le_trans with (length (waiting_conn v)); [lia|]. apply NoDup_incl_length; [|exact W].
    pose proof (inv_nodup v out H) as Hnd. rewrite (i_conn v out H). apply to_nat_nodup; [intros i Hi; pose proof (inv_range v out i H ltac:(left; exact Hi)); lia|].
    clear - Hnd. induction (waiting_id v) as [|x l IH]; [constructor|]. cbn in Hnd. inversion Hnd as [|? ? Hx Hl]; subst. constructor; [intros F; apply Hx, in_or_app; left; exact F|apply IH, Hl].
Qed.
(** step *)
Lemma inv_step v out acts ids rounds : inv v out -> NoDup (wrap_id v ids) ->
  inv (fst (v_step estep dummy v acts ids rounds)) (out ++ match snd (v_step estep dummy v acts ids rounds) with Ok l => l | Err _ => [] end)
  /\ (forall l, snd (v_step estep dummy v acts ids rounds) = Ok l -> 
       let waiting := waiting_id v ++ match acts with Some _ => wrap_id v ids | None => [] end in
       (l <> [] /\ (dummy = true -> length l = S (length waiting) / 2)
       /\ (dummy = false -> timed v = false -> min (wait_num v) (length waiting) <= length l))).
Proof.
  intros H Hn. unfold v_step. destruct (is_closed v); [cbn [fst snd]; rewrite app_nil_r; split; [exact H|discriminate]|]. rewrite (i_async v out H). unfold step_async.
  destruct acts as [acts|].
  - destruct (assert_id v (wrap_id v ids)) eqn:Ha; cbn [negb]; [|cbn [fst snd]; rewrite app_nil_r; split; [exact H|discriminate]].
    destruct (Nat.eqb_spec (length acts) (length (wrap_id v ids))) as [El|]; cbn [negb]; [|cbn [fst snd]; rewrite app_nil_r; split; [exact H|discriminate]].
    destruct (inv_sent v out acts (wrap_id v ids) H Ha El Hn) as (v1 & E1 & H1 & W1 & W2 & W3). rewrite E1.
    destruct (inv_fetch _ out rounds H1) as [F1 F2]. split; [exact F1|]. intros l Ex0. specialize (F2 l Ex0). cbn [set_ready waiting_id wait_num timed] in F2. rewrite W1, W2, W3 in F2. exact F2.
  - destruct (inv_fetch v out rounds H) as [F1 F2]. split; [exact F1|]. intros l Ex0. specialize (F2 l Ex0). cbv zeta. rewrite app_nil_r. exact F2.
Qed.
(** seed and render, when nothing is running *)
Lemma call_all_inv : forall n cs (v : venv) pos out, inv v out -> waiting_id v = [] -> n + pos = N -> length cs = n ->
  exists v1 l, call_all estep dummy v pos n cs = (v1, Ok l) /\ inv v1 (out ++ l) /\ waiting_id v1 = [].
Proof.
  induction n as [|n IH]; intros cs v pos out H Hw Hp Hl.
  - destruct cs; [|discriminate]. exists v, []. rewrite app_nil_r. auto.
  - destruct cs as [|c cs]; [discriminate|]. cbn [call_all]. destruct (nth_error (workers v) pos) as [w|] eqn:Ew; [|apply nth_error_None in Ew; rewrite (i_len v out H) in Ew; lia].
    destruct (nth_error e0 pos) as [e|] eqn:Ee; [|apply nth_error_None in Ee; lia].
    pose proof (i_wok v out H pos w e Ew Ee) as Hk. rewrite Hw in Hk. cbn in Hk. destruct (wok_call _ e w c Hk) as (w' & r & E1 & Hk'). rewrite E1.
    set (v1 := set_workers v (upd (workers v) pos w')).
    assert (H1 : inv v1 (out ++ [(Z.of_nat pos, r)])).
    { destruct H as [Ia Il Ic Ip Iw In]. constructor; try assumption.
      - cbn. rewrite upd_length. exact Il.
      - intros k x e' Ex Ee'. cbn in Ex. cbn [v1 set_workers waiting_id]. rewrite outs_app, outs_cons. destruct (Z.eqb_spec (Z.of_nat pos) (Z.of_nat k)) as [Eq|Ne].
        + assert (k = pos) by lia. subst k. rewrite nth_error_upd_same in Ex by lia. injection Ex as <-. rewrite Ee in Ee'. injection Ee' as <-. rewrite Hw. exact Hk'.
        + cbn. rewrite app_nil_r. rewrite nth_error_upd_other in Ex by lia. apply (Iw k x e' Ex Ee'). }
    destruct (IH cs v1 (S pos) _ H1 Hw ltac:(lia) ltac:(injection Hl; auto)) as (v2 & l & E2 & H2 & W2). rewrite E2. eexists _, _. split; [reflexivity|]. split; [rewrite <- app_assoc in H2; exact H2|exact W2].
Qed.

(** ** Runs *)
(** A call is legal if its ids are distinct and seed is used only when nothing is running (with
    one seed per environment). *)
Definition legal (v : venv) (o : @op Act) : Prop :=
  match o with
  | OStep _ ids _ | OReset ids => NoDup (wrap_id v ids)
  | OSeed s => waiting_id v = [] /\ length (seed_list N s) = N
  | ORender | OClose => True
  end.
Inductive reach (v0 : venv) : venv -> list (Z * R) -> Prop :=
| reach_init : reach v0 v0 []
| reach_op v out o : reach v0 v out -> legal v o ->
    reach v0 (fst (run_op estep dummy v o)) (out ++ match snd (run_op estep dummy v o) with Ok l => l | Err _ => [] end).
Lemma inv_op v out o : inv v out -> legal v o ->
  inv (fst (run_op estep dummy v o)) (out ++ match snd (run_op estep dummy v o) with Ok l => l | Err _ => [] end).
Proof.
  intros H Hl. destruct o as [acts ids rounds|ids|s| |]; cbn [run_op legal] in *.
  - apply inv_step; assumption.
  - apply inv_reset; assumption.
  - unfold v_seed. destruct (is_closed v); [cbn [fst snd]; rewrite app_nil_r; exact H|]. destruct Hl as [Hw Hs]. unfold env_num. rewrite (i_len v out H).
    destruct (call_all_inv N (map CSeed (seed_list N s)) v 0 out H Hw ltac:(lia) ltac:(rewrite map_length; exact Hs)) as (v1 & l & E1 & H1 & _). rewrite E1. exact H1.
  - unfold v_render. destruct (is_closed v); [cbn [fst snd]; rewrite app_nil_r; exact H|]. rewrite (i_async v out H). cbn [andb].
    destruct (Nat.eqb_spec (length (waiting_id v)) 0) as [Hz|]; cbn [negb]; [|cbn [fst snd]; rewrite app_nil_r; exact H].
    assert (Hw : waiting_id v = []) by (destruct (waiting_id v); [reflexivity|discriminate]). unfold env_num. rewrite (i_len v out H).
    destruct (call_all_inv N (map (fun _ => CRender) (seq 0 N)) v 0 out H Hw ltac:(lia) ltac:(rewrite map_length, seq_length; reflexivity)) as (v1 & l & E1 & H1 & _). rewrite E1. exact H1.
  - unfold v_close. destruct (is_closed v); [cbn [fst snd]; rewrite app_nil_r; exact H|]. cbn [fst snd]. rewrite app_nil_r. destruct H as [Ia Il Ic Ip Iw In]. constructor; cbn; try assumption.
    + rewrite map_length. exact Il.
    + intros k w e Ew Ee. rewrite nth_error_map in Ew. destruct (nth_error (workers v) k) as [w0|] eqn:E0; [|discriminate]. cbn in Ew. injection Ew as <-.
      specialize (Iw k w0 e E0 Ee). unfold wok, wclose in *. destruct (w_closed w0); exact Iw.
Qed.
Lemma reach_inv v0 v out : inv v0 [] -> reach v0 v out -> inv v out.
Proof. intros H0 Hr. induction Hr as [|v out o Hr IH Hl]; [exact H0|]. apply inv_op; assumption. Qed.
Lemma inv_init wn tm v0 : init e0 wn tm = Ok v0 -> is_async v0 = true -> inv v0 [].
Proof.
  unfold init. destruct (length e0 =? 0); [discriminate|]. set (w := match wn with None => _ | Some _ => _ end). destruct (negb _) eqn:B; [discriminate|]. apply negb_false_iff, andb_prop in B as [B _]. apply Nat.leb_le in B. intros Ex0 Ha.
  assert (Ev : exists t a, v0 = mkV (map (fun e => mkW e [] [] false 0) e0) w t a [] [] (map Z.of_nat (seq 0 N)) false).
  { destruct tm as [[]|]; try discriminate; injection Ex0 as <-; eexists _, _; reflexivity. }
  destruct Ev as (t & a & ->). constructor; cbn in *; try reflexivity; try assumption.
  - apply map_length.
  - intros k x e Ex Ee. rewrite nth_error_map, Ee in Ex. injection Ex as <-. repeat split.
Qed.
End Class.
End Gen.
