(** * One round of the collector *)
From Verif Require Import Py PyLemmas BufferModel BufferSpec ManagerModel ManagerSpec GetIndicesModel CollectModel CollectSpec.
From Coq Require FinFun.
Open Scope nat_scope.

(** ** Lists *)
Lemma nth_error_lt {T} (l : list T) i x : nth_error l i = Some x -> i < length l.
Proof. intro H. apply nth_error_Some. rewrite H. discriminate. Qed.
Lemma nth_error_some {T} (l : list T) i : i < length l -> exists x, nth_error l i = Some x.
Proof. intro H. apply nth_error_Some in H. destruct (nth_error l i); [eauto|congruence]. Qed.
Lemma nodup_pos {T} (l : list T) i j x : NoDup l -> nth_error l i = Some x -> nth_error l j = Some x -> i = j.
Proof.
  intros N Hi Hj. apply (proj1 (NoDup_nth_error l) N i j); [eapply nth_error_lt; eauto|congruence].
Qed.

Lemma where_in done j : In j (where_true done) <-> nth_error done j = Some true.
Proof.
  unfold where_true. rewrite filter_In, in_seq. split.
  - intros [H1 H2]. destruct (nth_error_some done j) as [x Hx]; [lia|]. rewrite (nth_error_nth _ _ _ Hx) in H2. subst. exact Hx.
  - intro H. split; [apply nth_error_lt in H; lia|]. rewrite (nth_error_nth _ _ _ H). reflexivity.
Qed.
Lemma where_nodup done : NoDup (where_true done).
Proof. apply NoDup_filter, seq_NoDup. Qed.
Lemma where_length_from done a : length (filter (fun j => nth (j - a) done false) (seq a (length done))) = length (filter (fun b => b) done).
Proof.
  revert a. induction done as [|b done IH]; intro a; [reflexivity|].
  assert (Q : filter (fun j => nth (j - a) (b :: done) false) (seq (S a) (length done)) = filter (fun j => nth (j - S a) done false) (seq (S a) (length done))).
  { apply filter_ext_in. intros j H. apply in_seq in H. replace (j - a) with (S (j - S a)) by lia. reflexivity. }
  change (seq a (length (b :: done))) with (a :: seq (S a) (length done)). specialize (IH (S a)).
  change (filter (fun j => nth (j - a) (b :: done) false) (a :: seq (S a) (length done)))
    with (if nth (a - a) (b :: done) false then a :: filter (fun j => nth (j - a) (b :: done) false) (seq (S a) (length done)) else filter (fun j => nth (j - a) (b :: done) false) (seq (S a) (length done))).
  rewrite Q. rewrite Nat.sub_diag. destruct b; cbn [nth length filter]; [f_equal|]; exact IH.
Qed.
Lemma where_length done : length (where_true done) = length (filter (fun b => b) done).
Proof.
  rewrite <- (where_length_from done 0). unfold where_true. f_equal. apply filter_ext. intro j. rewrite Nat.sub_0_r. reflexivity.
Qed.

Lemma take_spec {T} (l : list T) ids r : take l ids = Ok r -> length r = length ids /\ forall j i, nth_error ids j = Some i -> nth_error r j = nth_error l i.
Proof.
  intro H. split; [apply (mapM_length _ _ _ H)|]. intros j i Hj.
  destruct (mapM_nth _ _ _ _ _ H Hj) as (b & H1 & H2). destruct (nth_error l i); [congruence|discriminate].
Qed.
Lemma take_total {T} (l : list T) ids : (forall i, In i ids -> i < length l) -> exists r, take l ids = Ok r.
Proof.
  induction ids as [|i ids IH]; intro H; [exists []; reflexivity|].
  destruct (nth_error_some l i) as [x Hx]; [apply H; left; reflexivity|].
  destruct IH as [r Hr]; [intros; apply H; right; assumption|].
  exists (x :: r). cbn. rewrite Hx. cbn. unfold take in Hr. rewrite Hr. reflexivity.
Qed.

Lemma put_length {T} idx : forall xs (l : list T), length (put idx xs l) = length l.
Proof.
  unfold put. induction idx as [|i idx IH]; intros [|x xs] l; try reflexivity. cbn. rewrite IH. apply upd_length.
Qed.
Lemma put_other {T} idx : forall xs (l : list T) j, ~ In j idx -> nth_error (put idx xs l) j = nth_error l j.
Proof.
  unfold put. induction idx as [|i idx IH]; intros [|x xs] l j H; try reflexivity. cbn. cbn in H. rewrite IH by tauto.
  apply nth_error_upd_other. intro E. apply H. left. exact E.
Qed.
Lemma put_at {T} idx : forall xs (l : list T) k j x, NoDup idx -> nth_error idx k = Some j -> nth_error xs k = Some x -> j < length l ->
  nth_error (put idx xs l) j = Some x.
Proof.
  induction idx as [|i idx IH]; intros [|y xs] l [|k] j x N Hk Hx Hj; try discriminate; inversion N as [|? ? Ni N']; subst.
  - injection Hk as ->. injection Hx as ->. change (nth_error (put idx xs (upd l j x)) j = Some x).
    rewrite put_other by assumption. apply nth_error_upd_same. exact Hj.
  - change (nth_error (put idx xs (upd l i y)) j = Some x). apply (IH _ _ k); auto. rewrite upd_length. exact Hj.
Qed.

(** Positions kept by a mask. *)
Lemma masked_pos mask : exists sel, NoDup sel /\ (forall i, In i sel <-> nth_error mask i = Some true)
  /\ length sel = length (filter (fun b => b) mask)
  /\ forall T (l : list T), length l = length mask -> length (masked mask l) = length sel /\ forall j i, nth_error sel j = Some i -> nth_error (masked mask l) j = nth_error l i.
Proof.
  induction mask as [|b mask (sel & N & HI & HL & HM)].
  - exists []. split; [constructor|]. split; [intro i; split; [intros []|destruct i; discriminate]|]. split; [reflexivity|].
    intros T l Hl. destruct l; [|discriminate]. split; [reflexivity|]. intros [|j] i H; discriminate.
  - assert (NS : NoDup (map S sel)) by (apply FinFun.Injective_map_NoDup; [intros x y E; injection E; auto|exact N]).
    destruct b.
    + exists (0 :: map S sel). split; [constructor; [intro H; apply in_map_iff in H; destruct H as (x & E & _); discriminate|exact NS]|].
      split; [|split].
      * intros [|i]; cbn; [tauto|]. rewrite in_map_iff. split.
        -- intros [H|(x & E & H)]; [discriminate|]. injection E as ->. apply HI. exact H.
        -- intro H. right. exists i. split; [reflexivity|]. apply HI. exact H.
      * cbn. rewrite map_length, HL. reflexivity.
      * intros T [|y l] Hl; [discriminate|]. cbn in Hl. destruct (HM T l) as [H1 H2]; [lia|]. split.
        -- change (S (length (masked mask l)) = S (length (map S sel))). rewrite H1, map_length. reflexivity.
        -- intros [|j] i H; [injection H as <-; reflexivity|]. cbn in H. rewrite nth_error_map in H.
           destruct (nth_error sel j) as [i'|] eqn:E; [|discriminate]. injection H as <-. cbn. apply (H2 _ _ E).
    + exists (map S sel). split; [exact NS|]. split; [|split].
      * intros [|i]; cbn.
        -- split; [|discriminate]. intro H. apply in_map_iff in H. destruct H as (x & E & _). discriminate.
        -- rewrite in_map_iff. split; [intros (x & E & H); injection E as ->; apply HI; exact H|]. intro H. exists i. split; [reflexivity|]. apply HI. exact H.
      * cbn. rewrite map_length, HL. reflexivity.
      * intros T [|y l] Hl; [discriminate|]. cbn in Hl. destruct (HM T l) as [H1 H2]; [lia|]. split.
        -- change (length (masked mask l) = length (map S sel)). rewrite H1, map_length. reflexivity.
        -- intros j i H. rewrite nth_error_map in H.
           destruct (nth_error sel j) as [i'|] eqn:E; [|discriminate]. injection H as <-. cbn. apply (H2 _ _ E).
Qed.
Lemma filter_partition_length {T} (f : T -> bool) l : length (filter f l) + length (filter (fun x => negb (f x)) l) = length l.
Proof. induction l as [|x l IH]; [reflexivity|]. cbn. destruct (f x); cbn; lia. Qed.
Lemma ignored_count n ign : NoDup ign -> (forall i, In i ign -> i < n) ->
  length (filter (fun b => b) (map (fun j => negb (existsb (Nat.eqb j) ign)) (seq 0 n))) = n - length ign.
Proof.
  intros N HI.
  assert (E : forall l, length (filter (fun b => b) (map (fun j => negb (existsb (Nat.eqb j) ign)) l)) = length (filter (fun j => negb (existsb (Nat.eqb j) ign)) l)).
  { induction l as [|x l IH]; [reflexivity|]. cbn. destruct (existsb (Nat.eqb x) ign); cbn; lia. }
  rewrite E. pose proof (filter_partition_length (fun j => existsb (Nat.eqb j) ign) (seq 0 n)) as P. rewrite seq_length in P.
  assert (L : length (filter (fun j => existsb (Nat.eqb j) ign) (seq 0 n)) = length ign).
  { apply Nat.le_antisymm.
    - apply NoDup_incl_length; [apply NoDup_filter, seq_NoDup|]. intros x Hx. apply filter_In in Hx. destruct Hx as [_ Hx]. apply existsb_exists in Hx.
      destruct Hx as (y & Hy & Exy). apply Nat.eqb_eq in Exy. subst. exact Hy.
    - apply NoDup_incl_length; [exact N|]. intros x Hx. apply filter_In. split; [apply in_seq; specialize (HI x Hx); lia|].
      apply existsb_exists. exists x. split; [exact Hx|apply Nat.eqb_refl]. }
  lia.
Qed.
Lemma in_firstn {T} k (l : list T) x : In x (firstn k l) -> In x l.
Proof. revert k. induction l as [|y l IH]; intros [|k] H; cbn in *; try contradiction. destruct H; [auto|right; eauto]. Qed.
Lemma nodup_firstn {T} k (l : list T) : NoDup l -> NoDup (firstn k l).
Proof.
  revert k. induction l as [|x l IH]; intros [|k] N; try constructor; inversion N; subst.
  - intro H. apply in_firstn in H. contradiction.
  - apply IH. assumption.
Qed.

Section Rows.
Context {Ob A Inf R : Type}.
Lemma rows_of_nth : forall (obs : list Ob) (acts : list A) (rs : list (sres Ob Inf R)) j ob a r, nth_error obs j = Some ob -> nth_error acts j = Some a -> nth_error rs j = Some r ->
  nth_error (rows_of (Ob := Ob) (R := R) (Inf := Inf) obs acts rs) j = Some (mkTrans ob a (r_rew r) (r_term r) (r_trunc r) (r_obs r) (r_info r)).
Proof.
  induction obs as [|x obs IH]; intros [|a' acts] [|r' rs] [|j] ob a r H1 H2 H3; try discriminate; cbn in *; [congruence|]. apply IH; assumption.
Qed.
Lemma rows_of_length : forall (obs : list Ob) (acts : list A) (rs : list (sres Ob Inf R)), length acts = length obs -> length rs = length obs -> length (rows_of (Ob := Ob) (R := R) (Inf := Inf) obs acts rs) = length obs.
Proof. induction obs as [|x obs IH]; intros [|a acts] [|r rs] H1 H2; try discriminate; cbn in *; [reflexivity|]. rewrite IH; lia. Qed.
End Rows.

Section Envs.
Context {Ob B Inf R ES : Type}.
Variable estep : nat -> ES -> B -> ES * sres Ob Inf R.
Notation step_envs := (step_envs estep).

(** ** The vector environment *)
Lemma step_envs_spec : forall ids es acts es' rs, NoDup ids -> step_envs es ids acts = Ok (es', rs) ->
  length acts = length ids /\ length rs = length ids /\ length es' = length es
  /\ (forall j e b, nth_error ids j = Some e -> nth_error acts j = Some b ->
        exists s, nth_error es e = Some s /\ nth_error rs j = Some (snd (estep e s b)) /\ nth_error es' e = Some (fst (estep e s b)))
  /\ (forall e, ~ In e ids -> nth_error es' e = nth_error es e).
Proof.
  induction ids as [|id ids IH]; intros es [|b acts] es' rs N E; cbn in E; try discriminate.
  - injection E as <- <-. split; [reflexivity|]. split; [reflexivity|]. split; [reflexivity|]. split; [intros [|j]; discriminate|reflexivity].
  - inversion N as [|? ? Ni N']; subst. destruct (nth_error es id) as [s|] eqn:Es; [|discriminate].
    destruct (estep id s b) as [s' r] eqn:Est. destruct (step_envs (upd es id s') ids acts) as [[es2 rs2]|] eqn:E2; [|discriminate].
    cbn in E. injection E as <- <-. destruct (IH _ _ _ _ N' E2) as (H1 & H2 & H3 & H4 & H5).
    rewrite upd_length in H3. cbn [length]. split; [lia|]. split; [lia|]. split; [exact H3|].
    split.
    + intros [|j] e b' He Hb; cbn in He, Hb.
      * injection He as <-. injection Hb as <-. exists s. rewrite Est. split; [exact Es|]. split; [reflexivity|].
        rewrite H5 by exact Ni. cbn. apply nth_error_upd_same. eapply nth_error_lt; eauto.
      * destruct (H4 j e b' He Hb) as (s2 & K1 & K2 & K3). exists s2.
        rewrite nth_error_upd_other in K1; [auto|]. intros ->. apply Ni. eapply nth_error_In; eauto.
    + intros e He. cbn in He. rewrite H5 by tauto. apply nth_error_upd_other. tauto.
Qed.
Lemma step_envs_total : forall ids es acts, length acts = length ids -> (forall i, In i ids -> i < length es) ->
  exists es' rs, step_envs es ids acts = Ok (es', rs).
Proof.
  induction ids as [|id ids IH]; intros es [|b acts] L HI; try discriminate; [exists es, []; reflexivity|].
  cbn. destruct (nth_error_some es id) as [s Hs]; [apply HI; left; reflexivity|]. rewrite Hs.
  destruct (estep id s b) as [s' r]. destruct (IH (upd es id s') acts) as (es' & rs & E).
  - cbn in L. lia.
  - intros i Hi. rewrite upd_length. apply HI. right. exact Hi.
  - rewrite E. cbn. eauto.
Qed.
End Envs.
Section Resets.
Context {Ob Inf ES : Type}.
Variable ereset : nat -> ES -> ES * (Ob * Inf).
Notation reset_envs := (reset_envs ereset).
Lemma reset_envs_spec : forall ids es es' xs, NoDup ids -> reset_envs es ids = Ok (es', xs) ->
  length xs = length ids /\ length es' = length es
  /\ (forall j e, nth_error ids j = Some e ->
        exists s, nth_error es e = Some s /\ nth_error xs j = Some (snd (ereset e s)) /\ nth_error es' e = Some (fst (ereset e s)))
  /\ (forall e, ~ In e ids -> nth_error es' e = nth_error es e).
Proof.
  induction ids as [|id ids IH]; intros es es' xs N E; cbn in E.
  - injection E as <- <-. split; [reflexivity|]. split; [reflexivity|]. split; [intros [|j]; discriminate|reflexivity].
  - inversion N as [|? ? Ni N']; subst. destruct (nth_error es id) as [s|] eqn:Es; [|discriminate].
    destruct (ereset id s) as [s' r] eqn:Est. destruct (reset_envs (upd es id s') ids) as [[es2 xs2]|] eqn:E2; [|discriminate].
    cbn in E. injection E as <- <-. destruct (IH _ _ _ N' E2) as (H1 & H3 & H4 & H5).
    rewrite upd_length in H3. cbn [length]. split; [lia|]. split; [exact H3|].
    split.
    + intros [|j] e He; cbn in He.
      * injection He as <-. exists s. rewrite Est. split; [exact Es|]. split; [reflexivity|].
        rewrite H5 by exact Ni. cbn. apply nth_error_upd_same. eapply nth_error_lt; eauto.
      * destruct (H4 j e He) as (s2 & K1 & K2 & K3). exists s2.
        rewrite nth_error_upd_other in K1; [auto|]. intros ->. apply Ni. eapply nth_error_In; eauto.
    + intros e He. cbn in He. rewrite H5 by tauto. apply nth_error_upd_other. tauto.
Qed.
Lemma reset_envs_total : forall ids es, (forall i, In i ids -> i < length es) -> exists es' xs, reset_envs es ids = Ok (es', xs).
Proof.
  induction ids as [|id ids IH]; intros es HI; [exists es, []; reflexivity|].
  cbn. destruct (nth_error_some es id) as [s Hs]; [apply HI; left; reflexivity|]. rewrite Hs.
  destruct (ereset id s) as [s' r]. destruct (IH (upd es id s')) as (es' & rs & E).
  - intros i Hi. rewrite upd_length. apply HI. right. exact Hi.
  - rewrite E. cbn. eauto.
Qed.
End Resets.

Section CollectProofs.
Context {Ob A B Inf R H ES PS : Type}.
Variable r0 : R.
Variable radd : R -> R -> R.
Variable last_frame : Ob -> Ob.
Variable o : opts.
Variable estep : nat -> ES -> B -> ES * sres Ob Inf R.
Variable ereset : nat -> ES -> ES * (Ob * Inf).
Variable act_fn : PS -> list nat -> list Ob -> list Inf -> option (list H) -> PS * (list (A * B) * option (list H)).
Variable hreset : list nat -> list H -> list H.
Variable hook : list (row_out Ob A Inf R) -> bool.
Notation trans := (trans Ob A Inf R).
Notation mgr := (mgr Ob A Inf R).
Notation loop := (loop Ob A B Inf R H ES PS).
Notation coll := (coll Ob A Inf R H ES PS).
Notation iter := (iter r0 radd last_frame o estep ereset act_fn hreset hook).
Notation after := (after estep ereset).
Notation step_envs := (step_envs estep).
Notation reset_envs := (reset_envs ereset).
Notation transition := (transition estep).

(** ** One round, without the case distinctions of the code *)
Definition num_done (rs : list (sres Ob Inf R)) : nat := length (filter (fun b => b) (map (@r_done _ _ _) rs)).
Record round (nep : option nat) (l l' : loop) (acts : list (A * B)) (rs : list (sres Ob Inf R)) (reps : list (nat * R * nat * nat)) : Prop := {
  rd_acts : exists p hid, act_fn (l_pol l) (l_ready l) (l_obs l) (l_inf l) (l_hid l) = (p, (acts, hid)) /\ l_pol l' = p;
  rd_len1 : length acts = length (l_ready l);
  rd_len2 : length rs = length (l_ready l);
  rd_env : forall j e ab, nth_error (l_ready l) j = Some e -> nth_error acts j = Some ab ->
    exists s, nth_error (l_envs l) e = Some s /\ nth_error rs j = Some (snd (estep e s (snd ab))) /\ nth_error (l_envs l') e = Some (fst (after e s (snd ab)));
  rd_other : forall e, ~ In e (l_ready l) -> nth_error (l_envs l') e = nth_error (l_envs l) e;
  rd_envlen : length (l_envs l') = length (l_envs l);
  rd_add : m_add r0 radd last_frame o (l_mgr l) (Some (map Z.of_nat (l_ready l))) (rows_of (l_obs l) (map fst acts) rs) = Ok (l_mgr l', reps);
  rd_calls : l_calls l' = l_calls l ++ [(l_ready l, l_obs l, acts)];
  rd_steps : l_steps l' = l_steps l + length (l_ready l);
  rd_eps : l_eps l' = l_eps l + num_done rs;
  rd_stats : exists reps_d, take reps (where_true (map (@r_done _ _ _) rs)) = Ok reps_d /\
    foldM (episode_done o hook (match nep with None => false | Some _ => true end) (l_mgr l')) reps_d
      (at_step (l_stats l) (length (rows_of (l_obs l) (map fst acts) rs)), l_hook l) = Ok (l_stats l', l_hook l');
  rd_same : match nep with Some (S _) => True | _ => l_ready l' = l_ready l end;
  rd_head : num_done rs = 0 -> l_ready l' = l_ready l;
  rd_sel : exists sel, NoDup sel /\ (forall i, In i sel -> i < length (l_ready l)) /\
    (forall i r, ~ In i sel -> nth_error rs i = Some r -> r_done r = true) /\
    length (l_ready l') = length sel /\ length (l_obs l') = length sel /\ length (l_inf l') = length sel /\
    (forall j i, nth_error sel j = Some i -> nth_error (l_ready l') j = nth_error (l_ready l) i /\
       forall e s ab, nth_error (l_ready l) i = Some e -> nth_error acts i = Some ab -> nth_error (l_envs l) e = Some s ->
         nth_error (l_obs l') j = Some (snd (after e s (snd ab)))) /\
    length sel = length (l_ready l) - match nep with Some (S n') => Nat.min (num_done rs) (length (l_ready l) - (S n' - l_eps l')) | _ => 0 end
}.

Lemma iter_round nep l l' : NoDup (l_ready l) -> length (l_obs l) = length (l_ready l) ->
  match nep with Some (S n') => l_eps l + length (l_ready l) <= S n' | _ => True end ->
  iter nep l = Ok l' -> exists acts rs reps, round nep l l' acts rs reps.
Proof.
  intros ND LO EB E. unfold CollectModel.iter in E.
  destruct (act_fn (l_pol l) (l_ready l) (l_obs l) (l_inf l) (l_hid l)) as [p [acts hid]] eqn:Ea.
  destruct (step_envs (l_envs l) (l_ready l) (map snd acts)) as [[es rs]|] eqn:Est; [|discriminate]. cbn [bind] in E.
  destruct (m_add r0 radd last_frame o (l_mgr l) (Some (map Z.of_nat (l_ready l))) (rows_of (l_obs l) (map fst acts) rs)) as [[m reps]|] eqn:Em; [|discriminate]. cbn [bind] in E.
  destruct (step_envs_spec estep _ _ _ _ _ ND Est) as (L1 & L2 & L3 & HS & HO). rewrite map_length in L1.
  exists acts, rs, reps. fold (num_done rs) in E.
  destruct (num_done rs =? 0) eqn:E0.
  - apply Nat.eqb_eq in E0. injection E as <-.
    assert (ND0 : forall i r, nth_error rs i = Some r -> r_done r = false).
    { intros i r Hi. destruct (r_done r) eqn:D; [|reflexivity]. exfalso. unfold num_done in E0.
      assert (In true (filter (fun b => b) (map (@r_done _ _ _) rs))) by (apply filter_In; split; [rewrite <- D; apply in_map; eapply nth_error_In; eauto|reflexivity]).
      destruct (filter (fun b => b) (map (@r_done _ _ _) rs)); [contradiction|discriminate]. }
    split; cbn [l_envs l_mgr l_pol l_ready l_obs l_inf l_hid l_steps l_eps l_stats l_hook l_calls].
    + exists p, hid. split; [exact Ea|reflexivity].
    + exact L1.
    + exact L2.
    + intros j e [a b] He Hb. destruct (HS j e b He) as (s & K1 & K2 & K3).
      { rewrite nth_error_map, Hb. reflexivity. }
      exists s. split; [exact K1|]. split; [exact K2|]. cbn [snd]. specialize (ND0 _ _ K2). unfold CollectSpec.after.
      destruct (estep e s b) as [s1 r] eqn:X. cbn in *. unfold r_done in ND0. rewrite ND0. exact K3.
    + exact HO.
    + exact L3.
    + exact Em.
    + reflexivity.
    + reflexivity.
    + reflexivity.
    + exists []. assert (W : where_true (map (@r_done _ _ _) rs) = []).
      { apply length_zero_iff_nil. rewrite where_length. exact E0. }
      rewrite W. split; reflexivity.
    + destruct nep as [[|?]|]; reflexivity || exact Logic.I.
    + reflexivity.
    + exists (seq 0 (length (l_ready l))). split; [apply seq_NoDup|]. split; [intros i Hi; apply in_seq in Hi; lia|].
      split; [intros i r Hi Hr; exfalso; apply Hi, in_seq; apply nth_error_lt in Hr; lia|].
      rewrite !map_length, seq_length. split; [reflexivity|]. split; [exact L2|]. split; [exact L2|]. split.
      * intros j i Hj. assert (j < length (l_ready l)) by (apply nth_error_lt in Hj; rewrite seq_length in Hj; exact Hj).
        assert (i = j) by (rewrite (nth_error_nth' _ 0) in Hj by (rewrite seq_length; lia); injection Hj as <-; rewrite seq_nth; lia). subst i.
        split; [reflexivity|]. intros e s [a b] He Hb Hs. destruct (HS j e b He) as (s' & K1 & K2 & K3).
        { rewrite nth_error_map, Hb. reflexivity. }
        rewrite K1 in Hs. injection Hs as ->. rewrite nth_error_map, K2. cbn [option_map snd]. specialize (ND0 _ _ K2). unfold CollectSpec.after.
        destruct (estep e s b) as [s1 r]. cbn in *. unfold r_done in ND0. rewrite ND0. reflexivity.
      * rewrite E0. destruct nep as [[|n']|]; cbn [Nat.min]; lia.
  - apply Nat.eqb_neq in E0. set (dl := where_true (map (@r_done _ _ _) rs)) in *.
    destruct (take reps dl) as [reps_d|] eqn:Et; [|discriminate]. cbn [bind] in E.
    destruct (take (l_ready l) dl) as [dg|] eqn:Eg; [|discriminate]. cbn [bind] in E.
    destruct (reset_envs es dg) as [[es2 rst]|] eqn:Er; [|discriminate]. cbn [bind] in E.
    destruct (foldM _ reps_d _) as [[st hooks]|] eqn:Ef in E; [|discriminate]. cbn [bind] in E.
    destruct (take_spec _ _ _ Eg) as [Lg Hg].
    assert (DL : forall j, In j dl <-> exists r, nth_error rs j = Some r /\ r_done r = true).
    { intro j. unfold dl. rewrite where_in, nth_error_map. destruct (nth_error rs j) as [r|]; cbn.
      - split; [intro K; exists r; split; [reflexivity|congruence]|intros (r' & K1 & K2); congruence].
      - split; [discriminate|intros (r' & K1 & _); discriminate]. }
    assert (NDdl : NoDup dl) by apply where_nodup.
    assert (NDg : NoDup dg).
    { apply NoDup_nth_error. intros i j Hi Eij. rewrite Lg in Hi.
      destruct (nth_error_some dl i Hi) as [di Hdi]. rewrite (Hg _ _ Hdi) in Eij.
      assert (Ld : di < length (l_ready l)).
      { rewrite <- L2. apply nth_error_In in Hdi. apply DL in Hdi. destruct Hdi as (r & K & _). eapply nth_error_lt; eauto. }
      destruct (nth_error_some _ _ Ld) as [e He]. rewrite He in Eij. symmetry in Eij.
      assert (Lj : j < length dl) by (rewrite <- Lg; eapply nth_error_lt; eauto).
      destruct (nth_error_some dl j Lj) as [dj Hdj]. rewrite (Hg _ _ Hdj) in Eij.
      assert (di = dj) by (exact (nodup_pos _ _ _ _ ND He Eij)). subst. exact (nodup_pos _ _ _ _ NDdl Hdi Hdj). }
    destruct (reset_envs_spec ereset _ _ _ _ NDg Er) as (M1 & M2 & MR & MO).
    assert (Ldl : length dl = num_done rs) by apply where_length.
    assert (Nle : num_done rs <= length (l_ready l)).
    { rewrite <- L2. unfold num_done. rewrite <- (map_length (@r_done _ _ _) rs). pose proof (filter_partition_length (fun b : bool => b) (map (@r_done Ob Inf R) rs)) as P. rewrite <- P. apply Nat.le_add_r. }
    (* per environment *)
    assert (PE : forall j e ab s, nth_error (l_ready l) j = Some e -> nth_error acts j = Some ab -> nth_error (l_envs l) e = Some s ->
       nth_error rs j = Some (snd (estep e s (snd ab))) /\ nth_error es2 e = Some (fst (after e s (snd ab))) /\
       nth_error (put dl (map fst rst) (map (@r_obs _ _ _) rs)) j = Some (snd (after e s (snd ab)))).
    { intros j e [a b] s He Hb Hs. destruct (HS j e b He) as (s' & K1 & K2 & K3).
      { rewrite nth_error_map, Hb. reflexivity. }
      rewrite K1 in Hs. injection Hs as ->. cbn [snd]. split; [exact K2|]. unfold CollectSpec.after.
      destruct (estep e s b) as [s1 r] eqn:X. cbn [fst snd] in *. fold (r_done r). destruct (r_done r) eqn:D.
      - assert (Hj : In j dl) by (apply DL; eauto). destruct (In_nth_error _ _ Hj) as [k Hk].
        assert (Hdg : nth_error dg k = Some e) by (rewrite (Hg _ _ Hk); exact He).
        destruct (MR _ _ Hdg) as (s2 & Q1 & Q2 & Q3). rewrite K3 in Q1. injection Q1 as <-.
        destruct (ereset e s1) as [s3 x]. cbn [fst snd] in *. split; [exact Q3|].
        apply (put_at _ _ _ k); [exact NDdl|exact Hk|rewrite nth_error_map, Q2; reflexivity|]. rewrite map_length. eapply nth_error_lt; eauto.
      - assert (Hj : ~ In j dl) by (intro K; apply DL in K; destruct K as (r' & K & K'); congruence).
        cbn [fst snd]. split.
        + rewrite MO; [exact K3|]. intro K. apply In_nth_error in K. destruct K as [k Hk].
          assert (Lk : k < length dl) by (rewrite <- Lg; eapply nth_error_lt; eauto).
          destruct (nth_error_some dl k Lk) as [i Hi]. rewrite (Hg _ _ Hi) in Hk.
          assert (i = j) by (exact (nodup_pos _ _ _ _ ND Hk He)). subst. apply Hj. eapply nth_error_In; eauto.
        + rewrite put_other by exact Hj. rewrite nth_error_map, K2. reflexivity. }
    assert (Henv : forall j e ab, nth_error (l_ready l) j = Some e -> nth_error acts j = Some ab ->
      exists s, nth_error (l_envs l) e = Some s /\ nth_error rs j = Some (snd (estep e s (snd ab))) /\ nth_error es2 e = Some (fst (after e s (snd ab)))).
    { intros j e [a b] He Hb. destruct (HS j e b He) as (s' & K1 & _ & _).
      { rewrite nth_error_map, Hb. reflexivity. }
      exists s'. split; [exact K1|]. destruct (PE j e (a, b) s' He Hb K1) as (Q1 & Q2 & _). auto. }
    assert (Hoth : forall e, ~ In e (l_ready l) -> nth_error es2 e = nth_error (l_envs l) e).
    { intros e He. rewrite MO; [apply HO; exact He|]. intro K. apply In_nth_error in K. destruct K as [k Hk].
      assert (Lk : k < length dl) by (rewrite <- Lg; eapply nth_error_lt; eauto).
      destruct (nth_error_some dl k Lk) as [i Hi]. rewrite (Hg _ _ Hi) in Hk. apply He. eapply nth_error_In; eauto. }
    assert (G : exists rdy ob inf hd, l' = mkLoop es2 m p rdy ob inf hd (l_steps l + length (l_ready l)) (l_eps l + num_done rs) st hooks (l_calls l ++ [(l_ready l, l_obs l, acts)]) /\ match nep with Some (S _) => True | _ => rdy = l_ready l end /\
      exists sel, NoDup sel /\ (forall i, In i sel -> i < length (l_ready l)) /\ (forall i, i < length (l_ready l) -> ~ In i sel -> In i dl) /\
        length rdy = length sel /\ length ob = length sel /\ length inf = length sel /\
        (forall j i, nth_error sel j = Some i -> nth_error rdy j = nth_error (l_ready l) i /\ nth_error ob j = nth_error (put dl (map fst rst) (map (@r_obs _ _ _) rs)) i) /\
        length sel = length (l_ready l) - match nep with Some (S n') => Nat.min (num_done rs) (length (l_ready l) - (S n' - l_eps l')) | _ => 0 end).
    { assert (ALL : forall j i, nth_error (seq 0 (length (l_ready l))) j = Some i -> i = j).
      { intros j i Hj. assert (Lj : j < length (l_ready l)) by (apply nth_error_lt in Hj; rewrite seq_length in Hj; exact Hj).
        rewrite (nth_error_nth' _ 0) in Hj by (rewrite seq_length; lia). injection Hj as <-. rewrite seq_nth; lia. }
      assert (KEEP : forall X, X = 0 -> exists sel, NoDup sel /\ (forall i, In i sel -> i < length (l_ready l)) /\ (forall i, i < length (l_ready l) -> ~ In i sel -> In i dl) /\
        length (l_ready l) = length sel /\ length (put dl (map fst rst) (map (@r_obs _ _ _) rs)) = length sel /\ length (put dl (map snd rst) (map (@r_info _ _ _) rs)) = length sel /\
        (forall j i, nth_error sel j = Some i -> nth_error (l_ready l) j = nth_error (l_ready l) i /\ nth_error (put dl (map fst rst) (map (@r_obs _ _ _) rs)) j = nth_error (put dl (map fst rst) (map (@r_obs _ _ _) rs)) i) /\
        length sel = length (l_ready l) - X).
      { intros X ->. exists (seq 0 (length (l_ready l))). rewrite !put_length, !map_length, seq_length.
        split; [apply seq_NoDup|]. split; [intros i Hi; apply in_seq in Hi; lia|]. split; [intros i Hi Hn; exfalso; apply Hn, in_seq; lia|].
        split; [reflexivity|]. split; [exact L2|]. split; [exact L2|]. split; [|lia].
        intros j i Hj. assert (i = j) by (apply ALL; exact Hj). subst. auto. }
      destruct nep as [[|n']|].
      - injection E as <-. do 4 eexists. split; [reflexivity|]. split; [reflexivity || exact Logic.I|]. apply KEEP. reflexivity.
      - set (surplus := (Z.of_nat (length (l_ready l)) - (Z.of_nat (S n') - Z.of_nat (l_eps l + num_done rs)))%Z) in E.
        destruct (0 <? surplus)%Z eqn:ES'.
        + apply Z.ltb_lt in ES'. set (ign := firstn (Z.to_nat surplus) dl) in E.
          set (mask := map (fun j => negb (existsb (Nat.eqb j) ign)) (seq 0 (length (l_ready l)))) in E.
          injection E as <-. do 4 eexists. split; [reflexivity|]. split; [reflexivity || exact Logic.I|]. cbn [l_eps] in *.
          destruct (masked_pos mask) as (sel & S1 & S2 & S3 & S4).
          assert (Lm : length mask = length (l_ready l)) by (unfold mask; rewrite map_length, seq_length; reflexivity).
          assert (IGd : forall i, In i ign -> i < length (l_ready l)).
          { intros i Hi. apply in_firstn, DL in Hi. destruct Hi as (r & K & _). rewrite <- L2. eapply nth_error_lt; eauto. }
          assert (MI : forall i, i < length (l_ready l) -> nth_error mask i = Some (negb (existsb (Nat.eqb i) ign))).
          { intros i Hi. unfold mask. rewrite nth_error_map_seq. destruct (i <? length (l_ready l)) eqn:Q; [reflexivity|]. apply Nat.ltb_ge in Q. lia. }
          exists sel. split; [exact S1|]. split; [intros i Hi; apply S2 in Hi; apply nth_error_lt in Hi; lia|]. split; [|split; [|split; [|split; [|split]]]].
          * intros i Hi Hn. specialize (MI i Hi). destruct (existsb (Nat.eqb i) ign) eqn:Q; [|exfalso; apply Hn, S2; exact MI].
            apply existsb_exists in Q. destruct Q as (x & Hx & Ex). apply Nat.eqb_eq in Ex. subst x. apply in_firstn in Hx. exact Hx.
          * apply S4. symmetry. exact Lm.
          * apply S4. rewrite put_length, map_length. lia.
          * apply S4. rewrite put_length, map_length. lia.
          * intros j i Hj. split; [apply S4; [symmetry; exact Lm|exact Hj]|]. apply S4; [rewrite put_length, map_length; lia|exact Hj].
          * rewrite S3. unfold mask. rewrite ignored_count; [|apply nodup_firstn; exact NDdl|exact IGd].
            unfold ign. rewrite firstn_length, Ldl. unfold surplus. unfold surplus in ES'. lia.
        + apply Z.ltb_ge in ES'. injection E as <-. cbn [l_eps] in *. do 4 eexists. split; [reflexivity|]. split; [reflexivity || exact Logic.I|]. apply KEEP. unfold surplus in ES'. lia.
      - injection E as <-. do 4 eexists. split; [reflexivity|]. split; [reflexivity || exact Logic.I|]. apply KEEP. reflexivity. }
    destruct G as (rdy & ob & inf & hd & -> & SM & sel & S1 & S2 & S3 & S4 & S5 & S6 & S7 & S8).
    split; cbn [l_envs l_mgr l_pol l_ready l_obs l_inf l_hid l_steps l_eps l_stats l_hook l_calls] in *.
    + exists p, hid. split; [exact Ea|reflexivity].
    + exact L1.
    + exact L2.
    + exact Henv.
    + exact Hoth.
    + lia.
    + exact Em.
    + reflexivity.
    + reflexivity.
    + reflexivity.
    + exists reps_d. split; [exact Et|exact Ef].
    + exact SM.
    + intro Z0. contradiction.
    + exists sel. split; [exact S1|]. split; [exact S2|]. split.
      * intros i r Hi Hr. assert (Q : In i dl) by (apply S3; [rewrite <- L2; eapply nth_error_lt; eauto|exact Hi]). apply DL in Q. destruct Q as (r' & K & K'). congruence.
      * split; [exact S4|]. split; [exact S5|]. split; [exact S6|]. split; [|exact S8].
        intros j i Hj. destruct (S7 _ _ Hj) as [Q1 Q2]. split; [exact Q1|]. intros e s ab He Hb Hs. rewrite Q2. apply (PE i e ab s He Hb Hs).
Qed.
End CollectProofs.
