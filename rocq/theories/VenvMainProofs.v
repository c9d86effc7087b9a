(** * Main theorems about the vector environments *)
From Verif Require Import Py PyLemmas VenvModel VenvProofs.
From Coq Require Import Permutation.
Open Scope nat_scope.

Definition envs_of {E Act R} (v : @venv E Act R) : list E := map w_env (workers v).
(** No worker has a result that was not received. *)
Definition idle {E Act R} (v : @venv E Act R) : Prop := forall w, In w (workers v) -> w_q w = [].

Lemma norm_of_nat n ks : Forall (fun k => k < n) ks -> mapM (norm_index n) (map Z.of_nat ks) = Ok ks.
Proof.
  induction 1 as [|k ks Hk _ IH]; [reflexivity|]. cbn [map mapM]. unfold norm_index at 1. replace ((0 <=? Z.of_nat k)%Z && (Z.of_nat k <? Z.of_nat n)%Z)%bool with true by (symmetry; apply andb_true_intro; split; lia).
  cbn [bind]. rewrite IH, Nat2Z.id. reflexivity.
Qed.

(** C32.  step in synchronous mode with distinct ids (either worker class): environment ids[j]
    receives exactly actions[j], the j-th result is its result and carries its id, other
    environments receive nothing. *)
Lemma C32_step_lemma : forall (E Act R : Type) (estep : E -> cmd Act -> E * R) dummy v acts ks rounds,
  is_closed v = false -> is_async v = false -> (dummy = false -> idle v) ->
  ks <> [] -> NoDup ks -> Forall (fun k => k < length (workers v)) ks -> length acts = length ks ->
  exists v' rs, v_step estep dummy v (Some acts) (Some (map Z.of_nat ks)) rounds = (v', Ok (combine (map Z.of_nat ks) rs))
    /\ length rs = length ks /\ length (workers v') = length (workers v)
    /\ (forall j k a, nth_error ks j = Some k -> nth_error acts j = Some a -> exists e, nth_error (envs_of v) k = Some e
          /\ nth_error rs j = Some (snd (estep e (CStep a))) /\ nth_error (envs_of v') k = Some (fst (estep e (CStep a))))
    /\ (forall k, ~ In k ks -> nth_error (workers v') k = nth_error (workers v) k)
    /\ (dummy = false -> idle v').
Proof.
  intros E Act R estep dummy v acts ks rounds Hc Ha Hi Hne Hn Hf Hl. unfold v_step. rewrite Hc, Ha. cbn [wrap_id]. unfold step_sync. rewrite map_length, (proj2 (Nat.eqb_eq _ _) Hl). cbn [negb].
  destruct (send_recv_nodup estep dummy v (map Z.of_nat ks) (map CStep acts) ks) as (ws & rs & E1 & ws' & E2 & L2 & Lr & O2 & S2).
  - rewrite !map_length. exact Hl.
  - apply norm_of_nat, Hf.
  - exact Hn.
  - intros k w _ Ew Ed. apply (Hi Ed). eapply nth_error_In, Ew.
  - rewrite E1. destruct (map Z.of_nat ks) as [|z zs] eqn:Ez; [destruct ks; [destruct Hne; reflexivity|discriminate]|]. rewrite <- Ez in *. rewrite E2.
    exists (set_workers v ws'), rs. split; [reflexivity|]. rewrite map_length in Lr. split; [exact Lr|]. split; [exact L2|]. split; [|split].
    + intros j k a Hj Hja. destruct (S2 j k (CStep a) Hj ltac:(rewrite nth_error_map, Hja; reflexivity)) as (w & w' & W1 & W2 & W3 & W4 & _). exists (w_env w). unfold envs_of. cbn [set_workers workers].
      rewrite !nth_error_map, W1, W2. cbn. rewrite W3. split; [reflexivity|]. split; [exact W4|reflexivity].
    + exact O2.
    + intros Ed w Hw. apply In_nth_error in Hw as [k Hk]. cbn in Hk. destruct (in_dec Nat.eq_dec k ks) as [Hin|Hin].
      * apply In_nth_error in Hin as [j Hj]. destruct (nth_error acts j) as [a|] eqn:Ea; [|apply nth_error_None in Ea; pose proof (proj1 (nth_error_Some ks j) ltac:(congruence)); lia].
        destruct (S2 j k (CStep a) Hj ltac:(rewrite nth_error_map, Ea; reflexivity)) as (w0 & w' & W1 & W2 & _ & _ & _ & W6). rewrite W2 in Hk. injection Hk as <-. apply W6, Ed.
      * rewrite (O2 k Hin) in Hk. apply (Hi Ed). eapply nth_error_In, Hk.
Qed.
(** C32.  reset routes in the same way. *)
Lemma C32_reset_lemma : forall (E Act R : Type) (estep : E -> cmd Act -> E * R) dummy v ks,
  is_closed v = false -> is_async v = false -> (dummy = false -> idle v) ->
  ks <> [] -> NoDup ks -> Forall (fun k => k < length (workers v)) ks ->
  exists v' rs, v_reset estep dummy v (Some (map Z.of_nat ks)) = (v', Ok (combine (map Z.of_nat ks) rs))
    /\ length rs = length ks
    /\ (forall j k, nth_error ks j = Some k -> exists e, nth_error (envs_of v) k = Some e
          /\ nth_error rs j = Some (snd (estep e CReset)) /\ nth_error (envs_of v') k = Some (fst (estep e CReset)))
    /\ (forall k, ~ In k ks -> nth_error (workers v') k = nth_error (workers v) k).
Proof.
  intros E Act R estep dummy v ks Hc Ha Hi Hne Hn Hf. unfold v_reset. rewrite Hc, Ha. cbn [wrap_id andb].
  destruct (send_recv_nodup estep dummy v (map Z.of_nat ks) (map (fun _ => CReset) ks) ks) as (ws & rs & E1 & ws' & E2 & L2 & Lr & O2 & S2).
  - rewrite !map_length. reflexivity.
  - apply norm_of_nat, Hf.
  - exact Hn.
  - intros k w _ Ew Ed. apply (Hi Ed). eapply nth_error_In, Ew.
  - assert (Em : map (fun i => (i, CReset (Act := Act))) (map Z.of_nat ks) = combine (map Z.of_nat ks) (map (fun _ => CReset) ks)) by (clear; induction ks as [|k ks IH]; [reflexivity|cbn; rewrite IH; reflexivity]).
    rewrite Em, E1. destruct (map Z.of_nat ks) as [|z zs] eqn:Ez; [destruct ks; [destruct Hne; reflexivity|discriminate]|]. rewrite <- Ez in *. rewrite E2.
    exists (set_workers v ws'), rs. split; [reflexivity|]. rewrite map_length in Lr. split; [exact Lr|]. split; [|exact O2].
    intros j k Hj. destruct (S2 j k CReset Hj ltac:(rewrite nth_error_map, Hj; reflexivity)) as (w & w' & W1 & W2 & W3 & W4 & _). exists (w_env w). unfold envs_of. cbn [set_workers workers].
    rewrite !nth_error_map, W1, W2. cbn. rewrite W3. split; [reflexivity|]. split; [exact W4|reflexivity].
Qed.

(** The reference semantics: one command after the other. *)
Fixpoint ref {E Act R} (estep : E -> cmd Act -> E * R) (es : list E) (l : list (nat * cmd Act)) : list E * list R :=
  match l with
  | [] => (es, [])
  | (k, c) :: l =>
      match nth_error es k with
      | None => (es, [])
      | Some e => let '(es', rs) := ref estep (upd es k (fst (estep e c))) l in (es', snd (estep e c) :: rs)
      end
  end.
(** Results for worker [k]. *)
Definition for_k {R} (k : nat) (l : list (nat * R)) : list R := map snd (filter (fun p => fst p =? k) l).
Lemma for_k_cons {R} k i (r : R) l : for_k k ((i, r) :: l) = (if i =? k then [r] else []) ++ for_k k l.
Proof. unfold for_k. cbn. destruct (i =? k); reflexivity. Qed.
Lemma map_upd {X Y} (f : X -> Y) l k x : map f (upd l k x) = upd (map f l) k (f x).
Proof. revert k. induction l as [|y l IH]; intros [|k]; cbn; try reflexivity. rewrite IH. reflexivity. Qed.

Lemma send_all_ref : forall (E Act R : Type) (estep : E -> cmd Act -> E * R) (l : list (nat * cmd Act)) (v : @venv E Act R) es rs,
  Forall (fun p => fst p < length (workers v)) l -> ref estep (envs_of v) l = (es, rs) ->
  length rs = length l /\
  exists ws, send_all estep false v (map (fun p => (Z.of_nat (fst p), snd p)) l) = (set_workers v ws, Ok tt)
    /\ map w_env ws = es /\ length ws = length (workers v)
    /\ (forall k w, nth_error (workers v) k = Some w -> exists w', nth_error ws k = Some w' /\ w_q w' = w_q w ++ for_k k (combine (map fst l) rs)).
Proof.
  intros E Act R estep. induction l as [|[k c] l IH]; intros v es rs Hf Er.
  - cbn in Er. injection Er as <- <-. split; [reflexivity|]. exists (workers v). split; [destruct v; reflexivity|]. split; [reflexivity|]. split; [reflexivity|]. intros k w Hw. exists w. split; [exact Hw|]. cbn. rewrite app_nil_r. reflexivity.
  - inversion Hf as [|? ? Hk Hf']; subst. cbn [fst] in Hk. cbn [ref] in Er. unfold envs_of in Er at 1. rewrite nth_error_map in Er. destruct (nth_error (workers v) k) as [w|] eqn:Ew; [|apply nth_error_None in Ew; lia]. cbn [option_map] in Er.
    destruct (ref estep (upd (envs_of v) k (fst (estep (w_env w) c))) l) as [es1 rs1] eqn:E1. injection Er as <- <-.
    cbn [map send_all fst snd]. unfold send_at, norm_index, env_num. replace ((0 <=? Z.of_nat k)%Z && (Z.of_nat k <? Z.of_nat (length (workers v)))%Z)%bool with true by (symmetry; apply andb_true_intro; split; lia).
    rewrite Nat2Z.id, Ew. set (v1 := set_workers v (upd (workers v) k (wsend estep false w c))).
    assert (Eenv : envs_of v1 = upd (envs_of v) k (fst (estep (w_env w) c))). { unfold envs_of, v1. cbn. rewrite map_upd. f_equal. unfold wsend. destruct (estep (w_env w) c). reflexivity. }
    destruct (IH v1 es1 rs1) as (L & ws & F1 & F2 & F3 & F4); [unfold v1; cbn; rewrite upd_length; exact Hf'|rewrite Eenv; exact E1|]. fold v1 in F1. rewrite F1.
    split; [cbn; congruence|]. exists ws. split; [reflexivity|]. split; [exact F2|]. split; [rewrite F3; unfold v1; cbn; apply upd_length|].
    intros k' w' Hw'. cbn [map fst combine]. rewrite for_k_cons. destruct (Nat.eqb_spec k k') as [<-|Ne].
    + rewrite Ew in Hw'. injection Hw' as <-. destruct (F4 k (wsend estep false w c)) as (w2 & W1 & W2); [unfold v1; cbn; apply nth_error_upd_same, Hk|]. exists w2. split; [exact W1|]. rewrite W2. unfold wsend. destruct (estep (w_env w) c). cbn. rewrite <- app_assoc. reflexivity.
    + destruct (F4 k' w') as (w2 & W1 & W2); [unfold v1; cbn; rewrite nth_error_upd_other by congruence; exact Hw'|]. exists w2. split; [exact W1|exact W2].
Qed.
Lemma recv_all_ref : forall (E Act R : Type) (ks : list nat) (rs : list R) (v : @venv E Act R), length rs = length ks ->
  Forall (fun k => k < length (workers v)) ks ->
  (forall k w, nth_error (workers v) k = Some w -> exists q, w_q w = for_k k (combine ks rs) ++ q) ->
  exists ws, recv_all false v (map Z.of_nat ks) = (set_workers v ws, Ok (combine (map Z.of_nat ks) rs)) /\ map w_env ws = envs_of v /\ length ws = length (workers v)
    /\ (forall k w, nth_error (workers v) k = Some w -> exists w', nth_error ws k = Some w' /\ w_q w = for_k k (combine ks rs) ++ w_q w').
Proof.
  intros E Act R. induction ks as [|k ks IH]; intros [|r rs] v Hl Hf Hq; try discriminate.
  - exists (workers v). split; [destruct v; reflexivity|]. split; [reflexivity|]. split; [reflexivity|]. intros k w Hw. exists w. split; [exact Hw|reflexivity].
  - inversion Hf as [|? ? Hk Hf']; subst. cbn [map recv_all]. unfold recv_at, norm_index, env_num. replace ((0 <=? Z.of_nat k)%Z && (Z.of_nat k <? Z.of_nat (length (workers v)))%Z)%bool with true by (symmetry; apply andb_true_intro; split; lia).
    rewrite Nat2Z.id. unfold recv_conn. destruct (nth_error (workers v) k) as [w|] eqn:Ew; [|apply nth_error_None in Ew; lia].
    destruct (Hq k w Ew) as (q & Eq). cbn [combine] in Eq. rewrite for_k_cons, Nat.eqb_refl in Eq. cbn in Eq. unfold wrecv. rewrite Eq.
    set (w1 := mkW (w_env w) (for_k k (combine ks rs) ++ q) (w_hist w) (w_closed w) (w_closes w)). set (v1 := set_workers v (upd (workers v) k w1)).
    destruct (IH rs v1) as (ws & F1 & F2 & F3 & F4).
    + injection Hl; auto.
    + unfold v1. cbn. rewrite upd_length. exact Hf'.
    + intros k' w' Hw'. unfold v1 in Hw'. cbn in Hw'. destruct (Nat.eq_dec k k') as [<-|Ne].
      * rewrite nth_error_upd_same in Hw' by exact Hk. injection Hw' as <-. exists q. reflexivity.
      * rewrite nth_error_upd_other in Hw' by congruence. destruct (Hq k' w' Hw') as (q' & Eq'). exists q'. cbn [combine] in Eq'. rewrite for_k_cons in Eq'. destruct (Nat.eqb_spec k k'); [contradiction|exact Eq'].
    + rewrite F1. exists ws. split; [reflexivity|]. split; [rewrite F2; unfold v1, envs_of; cbn; rewrite map_upd; cbn; clear - Ew; revert Ew; generalize (workers v); intros l; revert k; induction l as [|y l IH]; intros [|k] H; cbn in *; try discriminate; [injection H as ->; reflexivity|rewrite IH by exact H; reflexivity]|].
      split; [rewrite F3; unfold v1; cbn; apply upd_length|].
      intros k' w' Hw'. cbn [combine]. rewrite for_k_cons. destruct (Nat.eqb_spec k k') as [<-|Ne].
      * rewrite Ew in Hw'. injection Hw' as <-. destruct (F4 k w1) as (w2 & W1 & W2); [unfold v1; cbn; apply nth_error_upd_same, Hk|]. exists w2. split; [exact W1|]. cbn in W2. rewrite Eq. cbn. rewrite W2. reflexivity.
      * destruct (F4 k' w') as (w2 & W1 & W2); [unfold v1; cbn; rewrite nth_error_upd_other by congruence; exact Hw'|]. exists w2. split; [exact W1|exact W2].
Qed.
(** C32.  With subprocess workers and any id list, repeated ids included, sending all actions
    first and receiving all results afterwards gives what running the steps one after the other
    gives. *)
Lemma C32_pipelined_lemma : forall (E Act R : Type) (estep : E -> cmd Act -> E * R) v acts ks rounds es rs,
  is_closed v = false -> is_async v = false -> idle v ->
  ks <> [] -> Forall (fun k => k < length (workers v)) ks -> length acts = length ks ->
  ref estep (envs_of v) (combine ks (map CStep acts)) = (es, rs) ->
  exists v', v_step estep false v (Some acts) (Some (map Z.of_nat ks)) rounds = (v', Ok (combine (map Z.of_nat ks) rs))
    /\ envs_of v' = es /\ idle v'.
Proof.
  intros E Act R estep v acts ks rounds es rs Hc Ha Hi Hne Hf Hl Er. unfold v_step. rewrite Hc, Ha. cbn [wrap_id]. unfold step_sync. rewrite map_length, (proj2 (Nat.eqb_eq _ _) Hl). cbn [negb].
  set (l := combine ks (map CStep acts)) in *.
  assert (Hm : map fst l = ks). { unfold l. clear - Hl. revert acts Hl. induction ks as [|k ks IH]; intros [|a acts] H; try discriminate; [reflexivity|]. cbn. f_equal. apply IH. injection H; auto. }
  assert (Hz : combine (map Z.of_nat ks) (map CStep acts) = map (fun p => (Z.of_nat (fst p), snd p)) l). { unfold l. clear - Hl. revert acts Hl. induction ks as [|k ks IH]; intros [|a acts] H; try discriminate; [reflexivity|]. cbn. f_equal. apply IH. injection H; auto. }
  destruct (send_all_ref E Act R estep l v es rs) as (L & ws & E1 & E2 & E3 & E4); [rewrite Forall_forall in Hf |- *; intros p Hp; apply Hf; rewrite <- Hm; apply in_map, Hp|exact Er|].
  rewrite Hz, E1. rewrite Hm in E4.
  destruct (recv_all_ref E Act R ks rs (set_workers v ws)) as (ws' & F1 & F2 & F3 & F4).
  - rewrite L. rewrite <- (map_length fst l), Hm. reflexivity.
  - cbn [set_workers workers]. rewrite E3. exact Hf.
  - cbn [set_workers workers]. intros k w Hw. assert (Hlt : k < length (workers v)) by (rewrite <- E3; apply nth_error_Some; congruence).
    destruct (nth_error (workers v) k) as [w0|] eqn:E0; [|apply nth_error_None in E0; lia]. destruct (E4 k w0 E0) as (w' & W1 & W2). rewrite W1 in Hw. injection Hw as <-.
    exists []. rewrite app_nil_r, W2, (Hi w0 ltac:(eapply nth_error_In, E0)). reflexivity.
  - destruct (map Z.of_nat ks) as [|z zs] eqn:Ez; [destruct ks; [destruct Hne; reflexivity|discriminate]|]. rewrite <- Ez in *. rewrite F1. exists (set_workers v ws'). split; [reflexivity|]. split; [unfold envs_of; cbn; rewrite F2; exact E2|].
    intros w Hw. cbn in Hw. apply In_nth_error in Hw as [k Hk]. cbn [set_workers workers] in F3, F4. assert (Hlt : k < length ws) by (rewrite <- F3; apply nth_error_Some; congruence).
    destruct (nth_error ws k) as [w1|] eqn:E5; [|apply nth_error_None in E5; lia]. destruct (F4 k w1 E5) as (w2 & W1 & W2). rewrite W1 in Hk. injection Hk as <-.
    destruct (nth_error (workers v) k) as [w0|] eqn:E0; [|apply nth_error_None in E0; rewrite E3 in Hlt; lia]. destruct (E4 k w0 E0) as (w' & V1 & V2). rewrite E5 in V1. injection V1 as <-.
    rewrite V2, (Hi w0 ltac:(eapply nth_error_In, E0)) in W2. cbn in W2. rewrite <- (app_nil_r (for_k k (combine ks rs))) in W2 at 1. apply app_inv_head in W2. symmetry. exact W2.
Qed.

(** seed *)
Lemma call_all_spec : forall (E Act R : Type) (estep : E -> cmd Act -> E * R) dummy n cs (v : @venv E Act R) pos,
  n + pos = length (workers v) -> length cs = n -> (dummy = false -> forall k w, pos <= k -> nth_error (workers v) k = Some w -> w_q w = []) ->
  exists ws rs, call_all estep dummy v pos n cs = (set_workers v ws, Ok (combine (map Z.of_nat (seq pos n)) rs)) /\ length ws = length (workers v) /\ length rs = n
    /\ (forall k, k < pos -> nth_error ws k = nth_error (workers v) k)
    /\ (forall j c w, nth_error cs j = Some c -> nth_error (workers v) (pos + j) = Some w -> nth_error rs j = Some (snd (estep (w_env w) c))
          /\ exists w', nth_error ws (pos + j) = Some w' /\ w_env w' = fst (estep (w_env w) c) /\ (dummy = false -> w_q w' = [])).
Proof.
  intros E Act R estep dummy. induction n as [|n IH]; intros cs v pos Hp Hl Hq.
  - destruct cs; [|discriminate]. exists (workers v), []. split; [destruct v; reflexivity|]. split; [reflexivity|]. split; [reflexivity|]. split; [reflexivity|]. intros j c w Hj. destruct j; discriminate.
  - destruct cs as [|c cs]; [discriminate|]. cbn [call_all]. destruct (nth_error (workers v) pos) as [w|] eqn:Ew; [|apply nth_error_None in Ew; lia].
    assert (Hw : exists w', wcall estep dummy w c = (w', Ok (snd (estep (w_env w) c))) /\ w_env w' = fst (estep (w_env w) c) /\ (dummy = false -> w_q w' = [])).
    { unfold wcall, wsend, wrecv. destruct (estep (w_env w) c) as [e r]. destruct dummy; [eexists; split; [reflexivity|]; split; [reflexivity|discriminate]|]. cbn. rewrite (Hq eq_refl pos w (le_n pos) Ew). cbn. eexists. split; [reflexivity|]. split; reflexivity. }
    destruct Hw as (w' & E1 & E2 & E3). rewrite E1. set (v1 := set_workers v (upd (workers v) pos w')).
    destruct (IH cs v1 (S pos)) as (ws & rs & F1 & F2 & F3 & F4 & F5).
    + unfold v1. cbn. rewrite upd_length. lia.
    + injection Hl; auto.
    + intros Ed k x Hk Hx. unfold v1 in Hx. cbn in Hx. rewrite nth_error_upd_other in Hx by lia. apply (Hq Ed k x); [lia|exact Hx].
    + rewrite F1. exists ws, (snd (estep (w_env w) c) :: rs). split; [reflexivity|]. split; [rewrite F2; unfold v1; cbn; apply upd_length|]. split; [cbn; congruence|]. split.
      * intros k Hk. rewrite F4 by lia. unfold v1. cbn. apply nth_error_upd_other. lia.
      * intros j c' x Hj Hx. destruct j as [|j]; cbn [nth_error] in *.
        -- injection Hj as <-. rewrite Nat.add_0_r in *. rewrite Ew in Hx. injection Hx as <-. split; [reflexivity|]. exists w'. split; [|auto]. rewrite F4 by lia. unfold v1. cbn. apply nth_error_upd_same. apply nth_error_Some. congruence.
        -- replace (pos + S j) with (S pos + j) in * by lia. apply F5; [exact Hj|]. unfold v1. cbn [set_workers workers]. rewrite nth_error_upd_other by lia. exact Hx.
Qed.
(** C32.  seed: environment i receives the i-th seed (k + i for an int k, i.e. for [SInt k]), the
    i-th result is its result.  (Nothing may be running, see C83.) *)
Lemma C32_seed_lemma : forall (E Act R : Type) (estep : E -> cmd Act -> E * R) dummy v s,
  is_closed v = false -> (dummy = false -> idle v) -> (forall l, s = SList l -> length l = length (workers v)) ->
  exists v' rs, v_seed estep dummy v s = (v', Ok (combine (map Z.of_nat (seq 0 (length (workers v)))) rs)) /\ length rs = length (workers v)
    /\ (forall i e, nth_error (envs_of v) i = Some e ->
          exists sd, match s with SNone => sd = None | SInt k => sd = Some (k + Z.of_nat i)%Z | SList l => exists z, nth_error l i = Some z /\ sd = Some z end
            /\ nth_error rs i = Some (snd (estep e (CSeed sd))) /\ nth_error (envs_of v') i = Some (fst (estep e (CSeed sd))))
    /\ (dummy = false -> idle v').
Proof.
  intros E Act R estep dummy v s Hc Hi Hs. unfold v_seed. rewrite Hc. unfold env_num.
  assert (Hl : length (map (CSeed (Act := Act)) (seed_list (length (workers v)) s)) = length (workers v)). { rewrite map_length. destruct s; cbn; rewrite ?map_length, ?seq_length; try reflexivity. apply Hs. reflexivity. }
  destruct (call_all_spec E Act R estep dummy (length (workers v)) (map CSeed (seed_list (length (workers v)) s)) v 0) as (ws & rs & F1 & F2 & F3 & F4 & F5); [lia|exact Hl|intros Ed k w _ Hw; apply (Hi Ed); eapply nth_error_In, Hw|].
  rewrite F1. exists (set_workers v ws), rs. split; [reflexivity|]. split; [exact F3|]. split.
  - intros i e He. unfold envs_of in He. rewrite nth_error_map in He. destruct (nth_error (workers v) i) as [w|] eqn:Ew; [|discriminate]. injection He as <-.
    assert (Hlt : i < length (workers v)) by (apply nth_error_Some; congruence).
    assert (Hsd : exists sd, nth_error (seed_list (length (workers v)) s) i = Some sd /\ match s with SNone => sd = None | SInt k => sd = Some (k + Z.of_nat i)%Z | SList l => exists z, nth_error l i = Some z /\ sd = Some z end).
    { destruct s as [|k|l]; cbn [seed_list].
      - exists None. split; [|reflexivity]. rewrite nth_error_map_seq. replace (i <? length (workers v)) with true by (symmetry; apply Nat.ltb_lt; exact Hlt). reflexivity.
      - exists (Some (k + Z.of_nat i)%Z). split; [|reflexivity]. rewrite nth_error_map_seq. replace (i <? length (workers v)) with true by (symmetry; apply Nat.ltb_lt; exact Hlt). reflexivity.
      - specialize (Hs l eq_refl). destruct (nth_error l i) as [z|] eqn:Ez; [|apply nth_error_None in Ez; lia]. exists (Some z). rewrite nth_error_map, Ez. split; [reflexivity|]. exists z. auto. }
    destruct Hsd as (sd & S1 & S2). exists sd. split; [exact S2|]. destruct (F5 i (CSeed sd) w ltac:(rewrite nth_error_map, S1; reflexivity) Ew) as (G1 & w' & G2 & G3 & _). split; [exact G1|].
    unfold envs_of. cbn. rewrite nth_error_map. cbn in G2. rewrite G2. cbn. rewrite G3. reflexivity.
  - intros Ed w Hw. cbn in Hw. apply In_nth_error in Hw as [i Hk]. assert (Hlt : i < length (workers v)) by (rewrite <- F2; apply nth_error_Some; congruence).
    destruct (nth_error (workers v) i) as [w0|] eqn:Ew; [|apply nth_error_None in Ew; lia]. destruct (nth_error (map (CSeed (Act := Act)) (seed_list (length (workers v)) s)) i) as [c|] eqn:Ec; [|apply nth_error_None in Ec; lia].
    destruct (F5 i c w0 Ec Ew) as (_ & w' & G2 & _ & G4). cbn in G2. rewrite G2 in Hk. injection Hk as <-. apply G4, Ed.
Qed.

(** C33.  For every sequence of legal calls (distinct ids; seeding only when nothing runs), every
    completion order and timeout behaviour, and both worker classes, waiting_id and ready_id
    partition the environments; the results returned so far for environment k, followed by the
    pending one if k is waiting, are the results of exactly the commands it has received, in
    order (so every result is returned exactly once, under its own id, and an environment has
    an unanswered command only while it is waiting). *)
Lemma C33_partition_lemma : forall (E Act R : Type) (estep : E -> cmd Act -> E * R) dummy envs wn tm v0 v out,
  init envs wn tm = Ok v0 -> is_async v0 = true -> reach estep dummy envs v0 v out ->
  Permutation (waiting_id v ++ ready_id v) (map Z.of_nat (seq 0 (length envs)))
  /\ (forall k w e, nth_error (workers v) k = Some w -> nth_error envs k = Some e ->
        w_env w = final estep e (w_hist w)
        /\ (In (Z.of_nat k) (waiting_id v) -> exists r, w_q w = [r] /\ outs_of k out ++ [r] = results estep e (w_hist w))
        /\ (In (Z.of_nat k) (ready_id v) -> outs_of k out = results estep e (w_hist w) /\ (dummy = false -> w_q w = []))).
Proof.
  intros E Act R estep dummy envs wn tm v0 v out Hi Ha Hr. pose proof (reach_inv estep dummy envs v0 v out (inv_init estep dummy envs wn tm v0 Hi Ha) Hr) as H.
  split; [apply (i_perm _ _ _ _ _ H)|]. intros k w e Ew Ee. pose proof (i_wok _ _ _ _ _ H k w e Ew Ee) as Hw. unfold wok in Hw. destruct Hw as [He Hw]. split; [exact He|].
  split; intros Hk.
  - assert (M : memz k (waiting_id v) = true) by (apply memz_In, Hk). rewrite M in Hw. exact Hw.
  - assert (M : memz k (waiting_id v) = false). { destruct (memz k (waiting_id v)) eqn:M; [|reflexivity]. apply memz_In in M. exfalso. pose proof (inv_nodup _ _ _ _ _ H) as Hn.
      clear - Hk M Hn. induction (waiting_id v) as [|x l IH]; [destruct M|]. cbn in Hn. inversion Hn as [|? ? Hx Hl]; subst. destruct M as [->|M]; [apply Hx, in_or_app; right; exact Hk|apply IH; assumption]. }
    rewrite M in Hw. exact Hw.
Qed.
(** C33.  Calls on ids that are not ready are refused without effect. *)
Lemma C33_refused_lemma : forall (E Act R : Type) (estep : E -> cmd Act -> E * R) dummy v acts ids i rounds,
  is_closed v = false -> is_async v = true -> In i ids -> (In i (waiting_id v) \/ ~ In i (ready_id v)) ->
  v_step estep dummy v (Some acts) (Some ids) rounds = (v, Err AssertionError) /\ v_reset estep dummy v (Some ids) = (v, Err AssertionError).
Proof.
  intros E Act R estep dummy v acts ids i rounds Hc Ha Hi Hb. unfold v_step, v_reset, step_async. rewrite Hc, Ha. cbn [wrap_id andb].
  assert (F : assert_id v ids = false).
  { destruct (assert_id v ids) eqn:F; [|reflexivity]. unfold assert_id in F. rewrite forallb_forall in F. specialize (F i Hi). apply andb_prop in F as [F1 F2]. apply existsb_exists in F2 as (x & Hx & Ex). apply Z.eqb_eq in Ex. subst x.
    destruct Hb as [Hb|Hb]; [|contradiction]. apply negb_true_iff in F1. assert (existsb (Z.eqb i) (waiting_id v) = true) by (apply existsb_exists; exists i; split; [exact Hb|apply Z.eqb_refl]). congruence. }
  rewrite F. split; reflexivity.
Qed.

(** ** C34 *)
(** After close every operation raises and changes nothing. *)
Lemma C34_closed_lemma : forall (E Act R : Type) (estep : E -> cmd Act -> E * R) dummy v o,
  is_closed v = true -> run_op estep dummy v o = (v, Err AssertionError).
Proof. intros E Act R estep dummy v o H. destruct o; cbn; unfold v_step, v_reset, v_seed, v_render, v_close; rewrite H; reflexivity. Qed.

(** Operations other than close keep whatever sends and receives keep. *)
Section Keep.
Context {E Act R : Type} (estep : E -> cmd Act -> E * R) (dummy : bool) (P : @worker E Act R -> Prop).
Hypothesis Hsend : forall w c, P w -> P (wsend estep dummy w c).
Hypothesis Hrecv : forall w, P w -> P (fst (wrecv dummy w)).
Hypothesis Hcall : forall w c, P w -> P (fst (wcall estep dummy w c)).
Definition keeps (v v' : @venv E Act R) : Prop := (Forall P (workers v) -> Forall P (workers v')) /\ is_closed v' = is_closed v /\ length (workers v') = length (workers v).
Lemma keeps_refl v : keeps v v. Proof. split; [auto|split; reflexivity]. Qed.
Lemma keeps_trans a b c : keeps a b -> keeps b c -> keeps a c.
Proof. intros (A1 & A2 & A3) (B1 & B2 & B3). split; [auto|split; congruence]. Qed.
Lemma keeps_upd v k w w' : nth_error (workers v) k = Some w -> (P w -> P w') -> keeps v (set_workers v (upd (workers v) k w')).
Proof.
  intros Hw Hp. split; [|split; [reflexivity|cbn; apply upd_length]]. intros Hf. cbn. rewrite Forall_forall in *. intros x Hx. apply In_nth_error in Hx as [j Hj].
  destruct (Nat.eq_dec k j) as [<-|N]; [rewrite nth_error_upd_same in Hj by (apply nth_error_Some; congruence); injection Hj as <-; apply Hp, Hf; eapply nth_error_In, Hw|].
  rewrite nth_error_upd_other in Hj by congruence. apply Hf. eapply nth_error_In, Hj.
Qed.
Lemma keeps_send v i c : keeps v (fst (send_at estep dummy v i c)).
Proof.
  unfold send_at. destruct (norm_index (env_num v) i) as [k|]; [|apply keeps_refl]. destruct (nth_error (workers v) k) as [w|] eqn:Ew; [|apply keeps_refl]. cbn [fst].
  apply (keeps_upd v k w); [exact Ew|apply Hsend].
Qed.
Lemma keeps_recv_conn v k : keeps v (fst (recv_conn dummy v k)).
Proof. unfold recv_conn. destruct (nth_error (workers v) k) as [w|] eqn:Ew; [|apply keeps_refl]. pose proof (Hrecv w) as H. destruct (wrecv dummy w) as [w' r]. cbn [fst] in *. apply (keeps_upd v k w); assumption. Qed.
Lemma keeps_send_all l : forall v, keeps v (fst (send_all estep dummy v l)).
Proof.
  induction l as [|[i c] l IH]; intros v; [apply keeps_refl|]. cbn. pose proof (keeps_send v i c) as H. destruct (send_at estep dummy v i c) as [v1 [u|e]]; cbn [fst] in *; [|exact H]. eapply keeps_trans; [exact H|apply IH].
Qed.
Lemma keeps_recv_all l : forall v, keeps v (fst (recv_all dummy v l)).
Proof.
  induction l as [|i l IH]; intros v; [apply keeps_refl|]. cbn. assert (H : keeps v (fst (recv_at dummy v i))). { unfold recv_at. destruct (norm_index (env_num v) i); [apply keeps_recv_conn|apply keeps_refl]. }
  destruct (recv_at dummy v i) as [v1 [r|e]]; cbn [fst] in *; [|exact H]. pose proof (IH v1) as H1. destruct (recv_all dummy v1 l) as [v2 [x|e]]; cbn [fst] in *; eapply keeps_trans; eassumption.
Qed.
Lemma keeps_waiting v a b : keeps v (set_waiting v a b). Proof. split; [auto|split; reflexivity]. Qed.
Lemma keeps_ready v a : keeps v (set_ready v a). Proof. split; [auto|split; reflexivity]. Qed.
Lemma keeps_send_async l : forall v, keeps v (fst (send_async estep dummy v l)).
Proof.
  induction l as [|[i c] l IH]; intros v; [apply keeps_refl|]. cbn. pose proof (keeps_send v i c) as H. destruct (send_at estep dummy v i c) as [v1 [u|e]]; cbn [fst] in *; [|exact H].
  destruct (norm_index (env_num v1) i); [|exact H]. eapply keeps_trans; [exact H|]. eapply keeps_trans; [|apply IH]. apply keeps_waiting.
Qed.
Lemma keeps_collect_one v c : keeps v (fst (collect_one dummy v c)).
Proof.
  unfold collect_one. destruct (index_of c (waiting_conn v)) as [n|]; [|apply keeps_refl]. destruct (nth_error (waiting_id v) n) as [i|]; [|apply keeps_waiting].
  pose proof (keeps_recv_conn (set_waiting v (pop n (waiting_conn v)) (pop n (waiting_id v))) c) as H. destruct (recv_conn dummy _ c) as [v1 [r|e]]; cbn [fst] in *.
  - eapply keeps_trans; [|apply keeps_ready]. eapply keeps_trans; [|exact H]. apply keeps_waiting.
  - eapply keeps_trans; [|exact H]. apply keeps_waiting.
Qed.
Lemma keeps_collect l : forall v, keeps v (fst (collect dummy v l)).
Proof.
  induction l as [|c l IH]; intros v; [apply keeps_refl|]. cbn. pose proof (keeps_collect_one v c) as H. destruct (collect_one dummy v c) as [v1 [r|e]]; cbn [fst] in *; [|exact H]. pose proof (IH v1) as H1. destruct (collect dummy v1 l) as [v2 [x|e]]; cbn [fst] in *; eapply keeps_trans; eassumption.
Qed.
Lemma keeps_collect_alias fuel : forall pos v, keeps v (fst (collect_alias dummy fuel pos v)).
Proof.
  induction fuel as [|fuel IH]; intros pos v; [apply keeps_refl|]. cbn. destruct (nth_error (waiting_conn v) pos) as [c|]; [|apply keeps_refl]. pose proof (keeps_collect_one v c) as H. destruct (collect_one dummy v c) as [v1 [r|e]]; cbn [fst] in *; [|exact H].
  pose proof (IH (S pos) v1) as H1. destruct (collect_alias dummy fuel (S pos) v1) as [v2 [x|e]]; cbn [fst] in *; eapply keeps_trans; eassumption.
Qed.
Lemma keeps_if {X} (b : bool) v (x y : @venv E Act R * X) : keeps v (fst x) -> keeps v (fst y) -> keeps v (fst (if b then x else y)).
Proof. destruct b; auto. Qed.
Lemma keeps_fetch v rounds : keeps v (fst (fetch dummy v rounds)).
Proof.
  unfold fetch. apply keeps_if.
  - destruct (waiting_conn v); [apply keeps_refl|apply keeps_collect_alias].
  - destruct (wait_until _ _ _ _ _); [apply keeps_collect|apply keeps_refl].
Qed.
Lemma keeps_call_all n : forall cs v pos, keeps v (fst (call_all estep dummy v pos n cs)).
Proof.
  induction n as [|n IH]; intros [|c cs] v pos; try apply keeps_refl. cbn [call_all]. destruct (nth_error (workers v) pos) as [w|] eqn:Ew; [|apply keeps_refl]. pose proof (Hcall w c) as H. destruct (wcall estep dummy w c) as [w' r]. cbn [fst] in H.
  pose proof (keeps_upd v pos w w' Ew H) as K. destruct r as [r|e]; [|exact K]. pose proof (IH cs (set_workers v (upd (workers v) pos w')) (S pos)) as H1. destruct (call_all estep dummy _ (S pos) n cs) as [v2 [x|e]]; cbn [fst] in *; eapply keeps_trans; eassumption.
Qed.
Lemma keeps_op v o : o <> OClose -> keeps v (fst (run_op estep dummy v o)).
Proof.
  intros Ho. destruct o as [acts ids rounds|ids|s| |]; cbn [run_op]; [| | | |contradiction].
  - unfold v_step. destruct (is_closed v) eqn:?; [apply keeps_refl|]. destruct (is_async v).
    + unfold step_async. destruct acts as [acts|]; [|apply keeps_fetch]. destruct (negb _); [apply keeps_refl|]. destruct (negb _); [apply keeps_refl|].
      pose proof (keeps_send_async (combine (wrap_id v ids) (map CStep acts)) v) as H. destruct (send_async _ _ _ _) as [v1 [u|e]]; cbn [fst] in *; [|exact H]. eapply keeps_trans; [exact H|]. eapply keeps_trans; [apply keeps_ready|apply keeps_fetch].
    + unfold step_sync. destruct acts as [acts|]; [|apply keeps_refl]. destruct (negb _); [apply keeps_refl|].
      pose proof (keeps_send_all (combine (wrap_id v ids) (map CStep acts)) v) as H. destruct (send_all _ _ _ _) as [v1 [u|e]]; cbn [fst] in *; [|exact H].
      destruct (wrap_id v ids) as [|i l] eqn:El; [exact H|]. rewrite <- El. eapply keeps_trans; [exact H|apply keeps_recv_all].
  - unfold v_reset. destruct (is_closed v); [apply keeps_refl|]. destruct (_ && _)%bool; [apply keeps_refl|].
    pose proof (keeps_send_all (map (fun i => (i, CReset)) (wrap_id v ids)) v) as H. destruct (send_all _ _ _ _) as [v1 [u|e]]; cbn [fst] in *; [|exact H].
    destruct (wrap_id v ids) as [|i l] eqn:El; [exact H|]. rewrite <- El. eapply keeps_trans; [exact H|apply keeps_recv_all].
  - unfold v_seed. destruct (is_closed v); [apply keeps_refl|]. apply keeps_call_all.
  - unfold v_render. destruct (is_closed v); [apply keeps_refl|]. destruct (_ && _)%bool; [apply keeps_refl|]. apply keeps_call_all.
Qed.
End Keep.

(** C34.  Over any sequence of operations, legal or not, close_env has been called on every worker
    exactly once if the vector environment is closed, and never otherwise. *)
Lemma C34_close_once_lemma : forall (E Act R : Type) (estep : E -> cmd Act -> E * R) dummy envs wn tm v0 ops,
  init envs wn tm = Ok v0 ->
  let v := fold_left (fun v o => fst (run_op estep dummy v o)) ops v0 in
  forall w, In w (workers v) -> w_closed w = is_closed v /\ w_closes w = if is_closed v then 1 else 0.
Proof.
  intros E Act R estep dummy envs wn tm v0 ops Hi. cbv zeta.
  set (P := fun (b : bool) (w : @worker E Act R) => w_closed w = b /\ w_closes w = if b then 1 else 0).
  assert (Hs : forall b w c, P b w -> P b (wsend estep dummy w c)) by (intros b w c H; unfold wsend; destruct (estep (w_env w) c); exact H).
  assert (Hr : forall b w, P b w -> P b (fst (wrecv dummy w))) by (intros b w H; unfold wrecv; destruct (w_q w); [exact H|]; destruct dummy; exact H).
  assert (Hc : forall b w c, P b w -> P b (fst (wcall estep dummy w c))). { intros b w c H. unfold wcall. destruct dummy; [destruct (estep (w_env w) c); exact H|]. apply Hr, Hs, H. }
  assert (G : forall ops v, Forall (P (is_closed v)) (workers v) -> Forall (P (is_closed (fold_left (fun v o => fst (run_op estep dummy v o)) ops v))) (workers (fold_left (fun v o => fst (run_op estep dummy v o)) ops v))).
  { clear Hi ops. induction ops as [|o ops IH]; intros v H; [exact H|]. cbn [fold_left]. apply IH. destruct o as [acts ids rounds|ids|s| |].
    1-4: match goal with |- context [run_op _ _ _ ?o] => destruct (keeps_op estep dummy (P (is_closed v)) (Hs _) (Hr _) (Hc _) v o ltac:(discriminate)) as (K1 & K2 & _); rewrite K2; apply K1, H end.
    cbn [run_op]. unfold v_close. destruct (is_closed v) eqn:Ec; [cbn [fst]; rewrite Ec; exact H|]. cbn [fst is_closed workers]. rewrite Forall_forall in *. intros w Hw. apply in_map_iff in Hw as (w0 & <- & Hw0). destruct (H w0 Hw0) as [A B].
    unfold wclose. rewrite A. cbn. unfold P. cbn. rewrite B. split; reflexivity. }
  assert (H0 : Forall (P (is_closed v0)) (workers v0)).
  { unfold init in Hi. destruct (length envs =? 0); [discriminate|]. destruct (negb _); [discriminate|]. destruct tm as [[]|]; try discriminate; injection Hi as <-; cbn; apply Forall_forall; intros w Hw; apply in_map_iff in Hw as (e & <- & _); split; reflexivity. }
  specialize (G ops v0 H0). rewrite Forall_forall in G. exact G.
Qed.

(** ** Refuted expectations *)
(** The echo environment: the result is the number of commands received so far and the command. *)
Definition echo (n : nat) (c : cmd nat) : nat * (nat * cmd nat) := (S n, (S n, c)).
Definition start (n w : nat) : @venv nat nat (nat * cmd nat) :=
  match init (map (fun _ => 0) (seq 0 n)) (Some w) None with Ok v => v | Err _ => mkV [] 0 false false [] [] [] false end.

(** C81.  With DummyVectorEnv, step may return fewer than wait_num results although enough
    environments are waiting: the loop pops from the list it iterates over. *)
Lemma C81_dummy_wait_num_refuted_lemma : exists acts l, length acts = 4 /\ wait_num (start 4 3) = 3
  /\ snd (v_step echo true (start 4 3) (Some acts) None []) = Ok l /\ length l = 2.
Proof. exists [1; 2; 3; 4]. eexists. split; [reflexivity|]. split; [reflexivity|]. split; [vm_compute; reflexivity|reflexivity]. Qed.
(** C81 (subprocess workers without timeout).  step returns at least min(wait_num, number of
    waiting environments) results. *)
Lemma C81_wait_num_partial_lemma : forall (E Act R : Type) (estep : E -> cmd Act -> E * R) envs wn v0 v out acts ids rounds l,
  init envs wn None = Ok v0 -> is_async v0 = true -> timed v = false -> reach estep false envs v0 v out -> NoDup (wrap_id v ids) ->
  snd (v_step estep false v acts ids rounds) = Ok l ->
  l <> [] /\ Nat.min (wait_num v) (length (waiting_id v) + match acts with Some _ => length (wrap_id v ids) | None => 0 end) <= length l.
Proof.
  intros E Act R estep envs wn v0 v out acts ids rounds l Hi Ha Ht Hr Hn Hl. pose proof (reach_inv estep false envs v0 v out (inv_init estep false envs wn None v0 Hi Ha) Hr) as H.
  destruct (inv_step estep false envs v out acts ids rounds H Hn) as [_ G]. destruct (G l Hl) as (G1 & _ & G2). split; [exact G1|]. specialize (G2 eq_refl Ht). rewrite app_length in G2. destruct acts; exact G2.
Qed.
(** C81 (dummy workers).  step returns half of the waiting environments, rounded up. *)
Lemma C81_dummy_half_partial_lemma : forall (E Act R : Type) (estep : E -> cmd Act -> E * R) envs wn tm v0 v out acts ids rounds l,
  init envs wn tm = Ok v0 -> is_async v0 = true -> reach estep true envs v0 v out -> NoDup (wrap_id v ids) ->
  snd (v_step estep true v acts ids rounds) = Ok l ->
  length l = S (length (waiting_id v) + match acts with Some _ => length (wrap_id v ids) | None => 0 end) / 2.
Proof.
  intros E Act R estep envs wn tm v0 v out acts ids rounds l Hi Ha Hr Hn Hl. pose proof (reach_inv estep true envs v0 v out (inv_init estep true envs wn tm v0 Hi Ha) Hr) as H.
  destruct (inv_step estep true envs v out acts ids rounds H Hn) as [_ G]. destruct (G l Hl) as (_ & G1 & _). specialize (G1 eq_refl). rewrite app_length in G1. destruct acts; exact G1.
Qed.

(** C82.  step(None) with no environment running never returns, whatever happens and for both
    worker classes. *)
Lemma C82_nothing_waiting_refuted_lemma : exists (v : @venv nat nat (nat * cmd nat)), is_async v = true /\ is_closed v = false /\ waiting_id v = []
  /\ forall dummy rounds, v_step echo dummy v None None rounds = (v, Err OutOfFuel).
Proof.
  exists (start 2 1). split; [reflexivity|]. split; [reflexivity|]. split; [reflexivity|]. intros dummy rounds.
  assert (W : forall fuel rs, wait_until fuel 1 false rs [] = None) by (induction fuel as [|fuel IH]; intros rs; [reflexivity|]; destruct rs; cbn; apply IH).
  destruct dummy; [reflexivity|]. change (v_step echo false (start 2 1) None None rounds) with (fetch false (start 2 1) rounds). unfold fetch. change (waiting_conn (start 2 1)) with (@nil nat). change (wait_num (start 2 1)) with 1. change (timed (start 2 1)) with false. rewrite W. reflexivity.
Qed.
Lemma wait_loop_none : forall wn rounds remain ready, wait_loop wn false rounds remain ready = None ->
  exists k, In k remain /\ forall r, In (Some r) rounds -> ~ In k r.
Proof.
  intros wn. induction rounds as [|o rounds IH]; intros remain ready H; cbn [wait_loop] in H; destruct ((length remain =? 0) || (wn <=? length ready))%bool eqn:B; try discriminate.
  - destruct remain as [|k remain]; [discriminate|]. exists k. split; [left; reflexivity|]. intros r [].
  - destruct o as [q|].
    + apply IH in H as (k & Hk & Hr). apply filter_In in Hk as [Hk Hm]. exists k. split; [exact Hk|]. intros r [E|Hin]; [|apply Hr, Hin]. injection E as <-. intros F. apply negb_true_iff in Hm.
      assert (memn k (ready ++ filter (fun k0 => memn k0 remain) (nodup Nat.eq_dec q)) = true); [|congruence]. unfold memn. apply existsb_exists. exists k. split; [|apply Nat.eqb_refl]. apply in_or_app. right. apply filter_In. split; [apply nodup_In, F|]. unfold memn. apply existsb_exists. exists k. split; [exact Hk|apply Nat.eqb_refl].
    + apply IH in H as (k & Hk & Hr). exists k. split; [exact Hk|]. intros r [E|Hin]; [discriminate|apply Hr, Hin].
Qed.
(** C82 (something is running).  step(None) returns as soon as every running environment finishes
    some time (subprocess workers without timeout), and at once with dummy workers. *)
Lemma C82_waiting_partial_lemma : forall (E Act R : Type) (estep : E -> cmd Act -> E * R) dummy envs wn v0 v out rounds,
  init envs wn None = Ok v0 -> is_async v0 = true -> timed v = false -> is_closed v = false -> reach estep dummy envs v0 v out -> waiting_id v <> [] ->
  (forall i, In i (waiting_id v) -> exists r, In (Some r) rounds /\ In (Z.to_nat i) r) ->
  exists v' l, v_step estep dummy v None None rounds = (v', Ok l) /\ l <> [].
Proof.
  intros E Act R estep dummy envs wn v0 v out rounds Hi Ha Ht Hc Hr Hw Hall. pose proof (reach_inv estep dummy envs v0 v out (inv_init estep dummy envs wn None v0 Hi Ha) Hr) as H.
  assert (Hf : exists v' l, fetch dummy v rounds = (v', Ok l) /\ l <> []).
  { destruct (inv_fetch estep dummy envs v out rounds H) as [_ G]. unfold fetch in *. destruct dummy.
    - destruct (waiting_conn v) as [|c cs] eqn:Ec; [rewrite (i_conn _ _ _ _ _ H) in Ec; destruct (waiting_id v); [destruct Hw; reflexivity|discriminate]|].
      destruct (inv_collect_alias estep true envs (S (length (c :: cs))) 0 v out H) as (v1 & l & E1 & _); [rewrite Ec; lia|lia|]. rewrite E1 in *. exists v1, l. split; [reflexivity|]. apply (G l eq_refl).
    - destruct (wait_until (S (length rounds)) (wait_num v) (timed v) rounds (waiting_conn v)) as [ready|] eqn:Ew.
      + apply wait_until_ok in Ew as (W0 & W1 & W2 & _). destruct (inv_collect estep false envs ready v out H W1 W2) as (v1 & l & E1 & _). rewrite E1 in *. exists v1, l. split; [reflexivity|]. apply (G l eq_refl).
      + exfalso. cbn [wait_until] in Ew. rewrite Ht in Ew. destruct (wait_loop (wait_num v) false rounds (waiting_conn v) []) as [[l rs]|] eqn:El.
        * destruct l as [|c l]; [|discriminate]. apply (wait_loop_ok _ _ _ _ _ (waiting_conn v)) in El; [|auto|intros k []|constructor|intros k _ []|auto]. destruct El as (_ & _ & El). destruct (El eq_refl) as [F|F].
          -- pose proof (i_wn _ _ _ _ _ H). cbn in F. lia.
          -- destruct (waiting_conn v) as [|c cs] eqn:Ec; [rewrite (i_conn _ _ _ _ _ H) in Ec; destruct (waiting_id v); [destruct Hw; reflexivity|discriminate]|]. destruct (F c ltac:(left; reflexivity)).
        * apply wait_loop_none in El as (k & Hk & Hn). rewrite (i_conn _ _ _ _ _ H) in Hk. apply in_map_iff in Hk as (i & <- & Hin). destruct (Hall i Hin) as (r & R1 & R2). apply (Hn r R1 R2). }
  destruct Hf as (v' & l & E1 & E2). exists v', l. split; [|exact E2]. unfold v_step. rewrite Hc, (i_async _ _ _ _ _ H). exact E1.
Qed.

(** C83.  seed() while an environment is running (subprocess workers): the caller gets the step
    result as that environment's seed, and the next step returns the seed result as a step
    result. *)
Lemma C83_seed_running_refuted_lemma : exists v1 v2 v3 l1 l2 l3,
  v_step echo false (start 2 1) (Some [7; 8]) None [Some [0]] = (v1, Ok l1) /\ waiting_id v1 = [1%Z]
  /\ v_seed echo false v1 (SInt 5) = (v2, Ok l2) /\ In (1%Z, (1, CStep 8)) l2
  /\ v_step echo false v2 None None [Some [1]] = (v3, Ok l3) /\ l3 = [(1%Z, (2, CSeed (Some 6%Z)))].
Proof. do 6 eexists. split; [vm_compute; reflexivity|]. split; [reflexivity|]. split; [vm_compute; reflexivity|]. split; [right; left; reflexivity|]. split; [vm_compute; reflexivity|reflexivity]. Qed.
(** C83 (nothing running).  In asynchronous mode too, environment i receives the i-th seed and the
    i-th result is its answer. *)
Lemma C83_seed_partial_lemma : forall (E Act R : Type) (estep : E -> cmd Act -> E * R) dummy envs wn tm v0 v out s,
  init envs wn tm = Ok v0 -> is_async v0 = true -> is_closed v = false -> reach estep dummy envs v0 v out -> waiting_id v = [] ->
  (forall l, s = SList l -> length l = length envs) ->
  exists v' rs, v_seed estep dummy v s = (v', Ok (combine (map Z.of_nat (seq 0 (length envs))) rs)) /\ length rs = length envs
    /\ (forall i e, nth_error (envs_of v) i = Some e ->
          exists sd, match s with SNone => sd = None | SInt k => sd = Some (k + Z.of_nat i)%Z | SList l => exists z, nth_error l i = Some z /\ sd = Some z end
            /\ nth_error rs i = Some (snd (estep e (CSeed sd)))).
Proof.
  intros E Act R estep dummy envs wn tm v0 v out s Hi Ha Hc Hr Hw Hs. pose proof (reach_inv estep dummy envs v0 v out (inv_init estep dummy envs wn tm v0 Hi Ha) Hr) as H.
  destruct (C32_seed_lemma E Act R estep dummy v s Hc) as (v' & rs & E1 & E2 & E3 & _).
  - intros Ed w Hin. apply In_nth_error in Hin as [k Hk]. assert (Hlt : k < length envs) by (rewrite <- (i_len _ _ _ _ _ H); apply nth_error_Some; congruence).
    destruct (nth_error envs k) as [e|] eqn:Ee; [|apply nth_error_None in Ee; lia]. pose proof (i_wok _ _ _ _ _ H k w e Hk Ee) as G. rewrite Hw in G. cbn in G. apply G, Ed.
  - rewrite (i_len _ _ _ _ _ H). exact Hs.
  - rewrite (i_len _ _ _ _ _ H) in *. exists v', rs. split; [exact E1|]. split; [exact E2|]. intros i e He. destruct (E3 i e He) as (sd & S1 & S2 & _). exists sd. auto.
Qed.

(** C84.  Repeated ids in an asynchronous step are accepted and break the partition: environment 0
    is both waiting and ready (either worker class). *)
Lemma C84_duplicate_ids_refuted_lemma : exists v1 v2 l1 l2,
  v_step echo true (start 2 1) (Some [7; 8]) (Some [0%Z; 0%Z]) [] = (v1, Ok l1) /\ In 0%Z (waiting_id v1) /\ In 0%Z (ready_id v1)
  /\ v_step echo false (start 2 1) (Some [7; 8]) (Some [0%Z; 0%Z]) [Some [0]] = (v2, Ok l2) /\ In 0%Z (waiting_id v2) /\ In 0%Z (ready_id v2).
Proof.
  do 4 eexists. split; [vm_compute; reflexivity|]. split; [left; reflexivity|]. split; [right; left; reflexivity|]. split; [vm_compute; reflexivity|]. split; [left; reflexivity|right; left; reflexivity].
Qed.
(** C85.  A synchronous step with an invalid id raises after sending the actions before it; with
    subprocess workers the next step of such an environment returns the stale result. *)
Lemma C85_stale_result_refuted_lemma : exists v1 v2, is_async (start 2 2) = false
  /\ v_step echo false (start 2 2) (Some [7; 8]) (Some [0%Z; 5%Z]) [] = (v1, Err IndexError)
  /\ v_step echo false v1 (Some [9]) (Some [0%Z]) [] = (v2, Ok [(0%Z, (1, CStep 7))]).
Proof. do 2 eexists. split; [reflexivity|]. split; vm_compute; reflexivity. Qed.
