(** * Properties of asynchronous collection *)
From Verif Require Import Py Num PyLemmas BufferModel BufferSpec BufferProofs BufferMainProofs ManagerModel ManagerSpec ManagerProofs ManagerMainProofs
  GetIndicesModel GetIndicesProofs CollectModel CollectSpec CollectRoundProofs CollectEpisodeProofs CollectRunProofs AsyncModel AsyncSpec AsyncRunProofs.
From Verif Require VenvModel VenvProofs AsyncVenvProofs CollectProofs.
From Coq Require Import Permutation.
Open Scope nat_scope.

Lemma filter_len {T} (f : T -> bool) l : length (filter f l) <= length l.
Proof. induction l as [|x l IH]; [reflexivity|]. cbn. destruct (f x); cbn; lia. Qed.
Lemma nth_error_seq_at a n i : i < n -> nth_error (seq a n) i = Some (a + i).
Proof. revert a i. induction n as [|n IH]; intros a [|i] Hi; try lia; cbn; [f_equal; lia|]. rewrite IH by lia. f_equal. lia. Qed.

Section Start.
Context {Ob A B Inf R H ES PS : Type}.
Variable r0 : R.
Variable radd : R -> R -> R.
Variable last_frame : Ob -> Ob.
Variable o : opts.
Variable estep : ES -> B -> ES * sres Ob Inf R.
Variable ereset : ES -> ES * (Ob * Inf).
Variable dummy : bool.
Variable hreset : list nat -> list H -> list H.
Notation acoll := (acoll Ob A B Inf R H ES PS).
Notation env_cmd := (env_cmd estep ereset).

Definition pre_of (c : acoll) (e : nat) : list (VenvModel.cmd B) := match nth_error (VenvModel.workers (a_venv c)) e with Some w => VenvModel.w_hist w | None => [] end.
Lemma running_no ready wait N : Permutation (wait ++ ready) (map Z.of_nat (seq 0 N)) -> (forall k, k < N -> In (Z.of_nat k) ready) -> wait = [].
Proof.
  intros P Hr. destruct wait as [|x wait]; [reflexivity|]. exfalso.
  assert (Hx : In x (map Z.of_nat (seq 0 N))) by (eapply Permutation_in; [exact P|left; reflexivity]). apply in_map_iff in Hx as (k & <- & Hk). apply in_seq in Hk.
  assert (ND : NoDup ((Z.of_nat k :: wait) ++ ready)). { eapply Permutation_NoDup; [apply Permutation_sym, P|]. apply AsyncVenvProofs.zmap_nodup, seq_NoDup. }
  cbn in ND. inversion ND as [|? ? N1 N2]; subst. apply N1, in_or_app. right. apply Hr. lia.
Qed.
Lemma reset_cok envs ns ops (c : acoll) fl zero : just_reset r0 radd last_frame o estep ereset dummy envs ns ops c ->
  exists obs0, length obs0 = length envs /\ (exists inf, a_cur c = Some (obs0, inf)) /\ 0 < length envs
  /\ cok r0 radd last_frame o estep ereset dummy hreset ns ops envs obs0 (pre_of c) fl zero (VenvModel.wait_num (a_venv c)) (VenvModel.timed (a_venv c)) c [] []
  /\ VenvModel.waiting_id (a_venv c) = []
  /\ forall e s, env_of c e = Some s -> exists s0, nth_error envs e = Some s0 /\ s = VenvProofs.final env_cmd s0 (pre_of c e).
Proof.
  intros (Hpos & HN & (outs & Hm) & wn & tm & v0 & rounds & junk & rb & c0 & out & Hi & Ha & Hreach & Lj & Hr).
  pose proof (VenvProofs.inv_init env_cmd dummy envs wn tm v0 Hi Ha) as I0. pose proof (VenvProofs.reach_inv env_cmd dummy envs v0 _ _ I0 Hreach) as I.
  assert (HN0 : 0 < length envs). { unfold VenvModel.init in Hi. destruct (length envs); [discriminate|lia]. }
  unfold a_reset, a_reset_env in Hr.
  match type of Hr with bind (bind ?X _) _ = _ => destruct X as [v1|] eqn:Ev1; [|discriminate] end. cbn [bind] in Hr.
  assert (I1 : exists out1, VenvProofs.inv env_cmd dummy envs v1 out1).
  { destruct (VenvModel.waiting_id (a_venv c0)) as [|x xs] eqn:Ew; [injection Ev1 as <-; eauto|]. rewrite <- Ew in Ev1.
    destruct (VenvModel.v_step env_cmd dummy (a_venv c0) None (Some (VenvModel.waiting_id (a_venv c0))) rounds) as [v' [l|]] eqn:Es; [|discriminate]. injection Ev1 as <-.
    destruct (AsyncVenvProofs.drain_facts env_cmd dummy envs _ _ _ _ _ I Es) as (J & _). eauto. }
  destruct I1 as [out1 I1]. destruct (VenvModel.v_reset env_cmd dummy v1 None) as [v2 rst] eqn:Er. destruct rst as [rst|]; [|discriminate]. cbn [bind] in Hr.
  destruct (mapM as_reset rst) as [xs|] eqn:Ex; [|discriminate]. cbn [bind] in Hr. injection Hr as <-. cbn [a_venv a_mgr a_pol a_ready a_cur a_hid a_act] in *.
  assert (C1 : VenvModel.is_closed v1 = false). { unfold VenvModel.v_reset in Er. destruct (VenvModel.is_closed v1); [discriminate|reflexivity]. }
  assert (Er' : VenvModel.v_reset env_cmd dummy v1 (Some (map Z.of_nat (seq 0 (length envs)))) = (v2, Ok rst)).
  { rewrite <- Er. unfold VenvModel.v_reset, VenvModel.wrap_id, VenvModel.env_num. rewrite (VenvProofs.i_len _ _ _ _ _ I1). reflexivity. }
  destruct (AsyncVenvProofs.reset_facts env_cmd dummy envs v1 out1 (seq 0 (length envs)) v2 rst I1 C1 (seq_NoDup _ _) Er') as (F1 & F2 & Fw & Ft & F3 & F4 & F5 & F6 & F7 & F8).
  assert (Lx : length xs = length envs). { rewrite (mapM_length _ _ _ Ex), <- (map_length fst rst), F3, map_length, seq_length. reflexivity. }
  assert (En : VenvModel.env_num v2 = length envs) by (unfold VenvModel.env_num; apply (VenvProofs.i_len _ _ _ _ _ F2)).
  exists (map fst xs). split; [rewrite map_length; exact Lx|]. split; [eauto|]. split; [exact HN0|].
  assert (Hready : forall k, k < length envs -> In (Z.of_nat k) (VenvModel.ready_id v2)). { intros k Hk. rewrite F5. apply F6, in_seq. lia. }
  split; [|split].
  - exists (map fst xs), (map snd xs). split; [reflexivity|]. cbn [a_venv a_mgr a_pol a_ready a_cur a_hid a_act]. rewrite En. split.
    + eexists. exact F2.
    + exact F1.
    + exists outs. cbn. rewrite app_nil_r. exact Hm.
    + intros rd [].
    + apply seq_NoDup.
    + intros k. split; [intros Hk; apply Hready; apply in_seq in Hk; lia|]. intros Hk. pose proof (VenvProofs.inv_range _ _ _ _ _ _ F2 (or_intror Hk)). apply in_seq. lia.
    + rewrite map_length. exact Lx.
    + exact Lj.
    + split; reflexivity.
    + intros _ _. rewrite seq_length. lia.
    + reflexivity.
    + intros e He. exists [], []. split; [|split].
      * destruct (nth_error_some envs e He) as [s0 Hs]. destruct (nth_error_some (map fst xs) e) as [ob Hob]; [rewrite map_length; lia|].
        destruct (nth_error_some (VenvModel.workers v2) e) as [w Hw]; [rewrite (VenvProofs.i_len _ _ _ _ _ F2); exact He|].
        exists s0, ob, w. split; [exact Hs|]. split; [exact Hob|]. split; [exact Hw|]. cbv zeta. split; [reflexivity|]. split; [reflexivity|]. split; [reflexivity|]. split; [exact Hob|].
        split; [unfold pre_of; cbn [a_venv]; rewrite Hw; cbn; rewrite app_nil_r; reflexivity|]. reflexivity.
      * intros _. split; reflexivity.
      * intros F. destruct F. apply in_seq. lia.
  - apply (running_no (VenvModel.ready_id v2) _ (length envs)); [apply (VenvProofs.i_perm _ _ _ _ _ F2)|exact Hready].
  - intros e s Hs. unfold env_of, pre_of in *. cbn [a_venv] in *. destruct (nth_error (VenvModel.workers v2) e) as [w|] eqn:Ew; [|discriminate]. injection Hs as <-.
    pose proof (nth_error_lt _ _ _ Ew) as Le. rewrite (VenvProofs.i_len _ _ _ _ _ F2) in Le. destruct (nth_error_some envs e Le) as [s0 Hs]. exists s0. split; [exact Hs|].
    apply (VenvProofs.i_wok _ _ _ _ _ F2 e w s0 Ew Hs).
Qed.
End Start.

(** ** Lemmas *)

(** For every order in which the environments answer and every sequence of calls of collect after a
    reset: what is stored for an environment is what this environment, on its own, does with the
    actions that the policy answered for it; the observation, the action (as a float) and the hidden
    state in a row belong together; one action is outstanding exactly in the environments that still
    run, and for it the policy was shown the current observation. *)
Lemma C103_joined_lemma : forall (Ob A B Inf R H ES PS : Type) (r0 : R) (radd : R -> R -> R) (last_frame : Ob -> Ob) (o : opts)
  (estep : ES -> B -> ES * sres Ob Inf R) (ereset : ES -> ES * (Ob * Inf)) (dummy : bool)
  (act_fn : PS -> list nat -> list Ob -> list Inf -> option (list H) -> PS * (list (A * B) * option (list H)))
  (hreset : list nat -> list H -> list H) (hzero : H -> H) (cell : A -> res A) (fl : A -> A)
  envs ns ops (c1 c2 : acoll Ob A B Inf R H ES PS) calls ls,
  stateful act_fn -> (forall a b, cell a = Ok b -> b = fl a) -> (forall idx h, length (hreset idx h) = length h) ->
  just_reset r0 radd last_frame o estep ereset dummy envs ns ops c1 ->
  a_collects (a_collect r0 radd last_frame o estep ereset dummy act_fn hreset hzero cell) calls c1 = Ok (c2, ls) ->
  let replies := map (reply fl) (concat (map (@n_calls _ _ _ _ _ _ _ _) ls)) in
  exists rounds, (exists outs, m_run r0 radd last_frame o (m_init r0 ns) (ops ++ as_adds rounds) = Ok (a_mgr c2, outs))
  /\ (forall rd, In rd rounds -> NoDup (fst rd) /\ length (snd rd) = length (fst rd) /\ forall e, In e (fst rd) -> e < length envs)
  /\ forall e s ob, env_of c1 e = Some s -> obs_of c1 e = Some ob ->
       let n := length (parts e rounds) in
       let past := firstn n (answered e replies) in
       parts e rounds = solo (fun _ => estep) (fun _ => ereset) e s ob past
       /\ shown e replies = firstn (length (answered e replies)) (map (@t_obs _ _ _ _) (parts e rounds) ++ [snd (solo_end (fun _ => estep) (fun _ => ereset) e s ob past)])
       /\ (running c2 e -> length (answered e replies) = S n) /\ (~ running c2 e -> length (answered e replies) = n).
Proof.
  intros Ob A B Inf R H ES PS r0 radd last_frame o estep ereset dummy act_fn hreset hzero cell fl envs ns ops c1 c2 calls ls Hst Hcell Hhr HJ E replies.
  destruct (reset_cok r0 radd last_frame o estep ereset dummy hreset envs ns ops c1 fl (fun h => h) HJ) as (obs0 & L0 & (inf0 & Ec) & HN0 & C & W0 & Henv).
  destruct HJ as (Hpos & HN & _).
  destruct (collects_step r0 radd last_frame o estep ereset dummy act_fn hreset hzero cell ns ops envs obs0 (pre_of c1) fl (fun h => h) _ _ Hpos HN L0 Hcell Hst Hhr calls c1 [] [] c2 ls C E) as (rounds & obs & inf & Ec2 & Y).
  cbn [app] in Y. exists rounds. split; [apply (y_mgr _ _ _ _ _ _ _ _ _ _ _ _ _ _ _ _ _ _ _ _ _ _ _ _ _ Y)|]. split; [apply (y_rds _ _ _ _ _ _ _ _ _ _ _ _ _ _ _ _ _ _ _ _ _ _ _ _ _ Y)|].
  intros e s ob He Ho n past. destruct (Henv e s He) as (s0 & Hs0 & ->). unfold obs_of in Ho. rewrite Ec in Ho.
  assert (Le : e < length envs) by (eapply nth_error_lt; eauto).
  destruct (y_env _ _ _ _ _ _ _ _ _ _ _ _ _ _ _ _ _ _ _ _ _ _ _ _ _ Y e Le) as (ans & pend & (s0' & ob' & w & E1 & E2 & E3 & O1 & O2 & O3 & O4 & O5 & O6) & Yr & Yw). cbv zeta in *.
  rewrite Hs0 in E1. injection E1 as <-. rewrite Ho in E2. injection E2 as <-. fold replies in O1, O3.
  assert (Ln : n = length ans) by (unfold n; rewrite O2; apply solo_length).
  assert (Hpast : past = ans) by (unfold past; rewrite Ln, O1, firstn_app, Nat.sub_diag, firstn_all; apply app_nil_r).
  assert (Hlen : length (answered e replies) = n + length pend) by (rewrite O1, app_length, Ln; reflexivity).
  assert (Hrun : running c2 e <-> ~ In e (a_ready c2)).
  { unfold running. destruct (y_inv _ _ _ _ _ _ _ _ _ _ _ _ _ _ _ _ _ _ _ _ _ _ _ _ _ Y) as [out I]. rewrite (y_ready _ _ _ _ _ _ _ _ _ _ _ _ _ _ _ _ _ _ _ _ _ _ _ _ _ Y).
    pose proof (VenvProofs.inv_nodup _ _ _ _ _ I) as Nd. split.
    - intros F1 F2. clear - Nd F1 F2. induction (VenvModel.waiting_id (a_venv c2)) as [|x l IH]; [destruct F1|]. cbn in Nd. inversion Nd as [|? ? X1 X2]; subst.
      destruct F1 as [-> | F1]; [apply X1, in_or_app; right; exact F2|apply IH; assumption].
    - intros F. assert (X : In (Z.of_nat e) (VenvModel.waiting_id (a_venv c2) ++ VenvModel.ready_id (a_venv c2))).
      { eapply Permutation_in; [apply Permutation_sym, (VenvProofs.i_perm _ _ _ _ _ I)|]. apply in_map, in_seq. lia. }
      apply in_app_or in X as [X|X]; [exact X|contradiction]. }
  rewrite Hpast. split; [rewrite solo_e; exact O2|].
  assert (Ese : forall (l : list (A * H * B)) s ob, solo_end (fun _ => estep) (fun _ => ereset) e s ob l = solo_end (fun _ => estep) (fun _ => ereset) 0 s ob l).
  { induction l as [|[a b] l IH]; intros s1 ob1; [reflexivity|]. cbn [solo_end]. apply IH. }
  rewrite Ese. split; [|split].
  - rewrite O3, Hlen. rewrite firstn_app, map_length. fold n. rewrite firstn_all2 by (rewrite map_length; fold n; lia). f_equal.
    destruct (in_dec Nat.eq_dec e (a_ready c2)) as [Hi|Hi].
    + destruct (Yr Hi) as [-> _]. cbn [length]. rewrite Nat.add_0_r, Nat.sub_diag. reflexivity.
    + destruct (Yw Hi) as (a & h & b & hs & -> & _). cbn [length map]. replace (n + 1 - n) with 1 by lia. reflexivity.
  - intros F. apply Hrun in F. destruct (Yw F) as (a & h & b & hs & -> & _). rewrite Hlen. cbn. lia.
  - intros F. destruct (in_dec Nat.eq_dec e (a_ready c2)) as [Hi|Hi]; [|exfalso; apply F, Hrun, Hi]. destruct (Yr Hi) as [-> _]. rewrite Hlen. cbn. lia.
Qed.

(** The hidden state that the policy is given for an environment: none at first, then the one it
    answered last for this environment, zeroed if the episode ended in between. *)
Lemma C109_hidden_lemma : forall (Ob A B Inf R H ES PS : Type) (r0 : R) (radd : R -> R -> R) (last_frame : Ob -> Ob) (o : opts)
  (estep : ES -> B -> ES * sres Ob Inf R) (ereset : ES -> ES * (Ob * Inf)) (dummy : bool)
  (act_fn : PS -> list nat -> list Ob -> list Inf -> option (list H) -> PS * (list (A * B) * option (list H)))
  (k : hkind) (zero : H -> H) (hzero : H -> H) (cell : A -> res A) (fl : A -> A)
  envs ns ops (c1 c2 : acoll Ob A B Inf R H ES PS) calls ls,
  stateful act_fn -> (forall a b, cell a = Ok b -> b = fl a) -> k <> HTensor ->
  just_reset r0 radd last_frame o estep ereset dummy envs ns ops c1 ->
  a_collects (a_collect r0 radd last_frame o estep ereset dummy act_fn (reset_hidden k zero) hzero cell) calls c1 = Ok (c2, ls) ->
  forall e s ob, env_of c1 e = Some s -> obs_of c1 e = Some ob ->
  let mine := answered e (map (reply fl) (concat (map (@n_calls _ _ _ _ _ _ _ _) ls))) in
  given e (concat (map (@n_calls _ _ _ _ _ _ _ _) ls))
  = firstn (length mine) (None :: map (fun x => let h := snd (fst (snd x)) in Some (if ends (fst x) then zero h else h))
                                      (combine (solo (fun _ => estep) (fun _ => ereset) e s ob mine) mine)).
Proof.
  intros Ob A B Inf R H ES PS r0 radd last_frame o estep ereset dummy act_fn k zero hzero cell fl envs ns ops c1 c2 calls ls Hst Hcell Hk HJ E e s ob He Ho mine.
  destruct (reset_cok r0 radd last_frame o estep ereset dummy (reset_hidden k zero) envs ns ops c1 fl zero HJ) as (obs0 & L0 & (inf0 & Ec) & HN0 & C & W0 & Henv).
  destruct HJ as (Hpos & HN & _).
  assert (Hhr : forall idx (h : list H), length (reset_hidden k zero idx h) = length h).
  { intros idx h. unfold reset_hidden. destruct k; rewrite ?map_length, ?combine_length, ?seq_length; try reflexivity; lia. }
  destruct (collects_step r0 radd last_frame o estep ereset dummy act_fn (reset_hidden k zero) hzero cell ns ops envs obs0 (pre_of c1) fl zero _ _ Hpos HN L0 Hcell Hst Hhr calls c1 [] [] c2 ls C E) as (rounds & obs & inf & Ec2 & Y).
  cbn [app] in Y. destruct (Henv e s He) as (s0 & Hs0 & ->). unfold obs_of in Ho. rewrite Ec in Ho.
  assert (Le : e < length envs) by (eapply nth_error_lt; eauto).
  destruct (y_env _ _ _ _ _ _ _ _ _ _ _ _ _ _ _ _ _ _ _ _ _ _ _ _ _ Y e Le) as (ans & pend & (s0' & ob' & w & E1 & E2 & E3 & O1 & O2 & O3 & O4 & O5 & O6) & Yr & Yw). cbv zeta in *.
  rewrite Hs0 in E1. injection E1 as <-. rewrite Ho in E2. injection E2 as <-. fold mine in O1. rewrite O6.
  - unfold hids. rewrite O2, O1, (solo_e estep ereset e).
    assert (Hsp : exists t, solo (fun _ => estep) (fun _ => ereset) 0 (VenvProofs.final (env_cmd estep ereset) s0 (pre_of c1 e)) ob (ans ++ pend)
      = solo (fun _ => estep) (fun _ => ereset) 0 (VenvProofs.final (env_cmd estep ereset) s0 (pre_of c1 e)) ob ans ++ t).
    { rewrite solo_app. eexists. reflexivity. }
    destruct Hsp as [t Ht]. rewrite Ht.
    assert (Lp : length pend <= 1). { destruct (in_dec Nat.eq_dec e (a_ready c2)) as [Hi|Hi]; [destruct (Yr Hi) as [-> _]; cbn; lia|destruct (Yw Hi) as (? & ? & ? & ? & -> & _); cbn; lia]. }
    set (sl := solo _ _ 0 _ ob ans). assert (Ls : length sl = length ans) by apply solo_length.
    assert (Hc : exists t', combine (sl ++ t) (ans ++ pend) = combine sl ans ++ t'). { clearbody sl. clear - Ls. revert sl Ls. induction ans as [|a ans IH]; intros [|x sl] Ls; try discriminate; [eexists; reflexivity|]. cbn in Ls. destruct (IH sl) as [t' Ht]; [lia|]. exists t'. cbn. rewrite Ht. reflexivity. }
    destruct Hc as [t' Hc]. rewrite Hc, map_app. rewrite app_length. rewrite !app_comm_cons. set (front := None :: _).
    assert (Lf : length front = S (length ans)). { unfold front. cbn [length]. rewrite map_length, combine_length, Ls. lia. }
    rewrite firstn_app. replace (length ans + length pend - length front) with 0 by lia. cbn. rewrite app_nil_r. reflexivity.
  - clear - Hk. intros idx h i x Hx. unfold reset_hidden. destruct k; [|congruence|]; rewrite nth_error_map, (CollectRunProofs.nth_error_combine _ _ i i x (nth_error_seq_at 0 (length h) i (nth_error_lt _ _ _ Hx)) Hx); reflexivity.
Qed.

(** What a call of collect counts and reports. *)
Lemma C108_counts_lemma : forall (Ob A B Inf R H ES PS : Type) (r0 : R) (radd : R -> R -> R) (last_frame : Ob -> Ob) (o : opts)
  (estep : ES -> B -> ES * sres Ob Inf R) (ereset : ES -> ES * (Ob * Inf)) (dummy : bool)
  (act_fn : PS -> list nat -> list Ob -> list Inf -> option (list H) -> PS * (list (A * B) * option (list H)))
  (hreset : list nat -> list H -> list H) (hzero : H -> H) (cell : A -> res A) (fl : A -> A)
  envs ns ops (c1 c2 c3 : acoll Ob A B Inf R H ES PS) calls ls t sched l,
  stateful act_fn -> (forall a b, cell a = Ok b -> b = fl a) -> (forall idx h, length (hreset idx h) = length h) ->
  just_reset r0 radd last_frame o estep ereset dummy envs ns ops c1 ->
  a_collects (a_collect r0 radd last_frame o estep ereset dummy act_fn hreset hzero cell) calls c1 = Ok (c2, ls) ->
  a_collect r0 radd last_frame o estep ereset dummy act_fn hreset hzero cell sched (by_steps t) (by_episodes t) c2 = Ok (c3, l) ->
  let N := length envs in
  exists before rounds, (exists outs, m_run r0 radd last_frame o (m_init r0 ns) (ops ++ as_adds before) = Ok (a_mgr c2, outs))
  /\ (exists outs, m_run r0 radd last_frame o (m_init r0 ns) (ops ++ as_adds (before ++ rounds)) = Ok (a_mgr c3, outs))
  /\ match t with Steps n => n < n_steps l <= n + N | Episodes k => k < n_eps l <= k + N end
  /\ n_steps l = list_sum (map (fun e => length (parts e rounds)) (seq 0 N)) /\ n_eps l = num_ends N rounds
  /\ a_step c3 = a_step c2 + n_steps l /\ a_episode c3 = a_episode c2 + n_eps l
  /\ length (n_lens l) = n_eps l /\ length (n_returns l) = n_eps l
  /\ forall e, e < N -> let eps := finished (open_episode (proj (length ns) e (ops ++ as_adds before))) (parts e rounds) in
       part e (enders rounds, n_returns l) = map (fun ep => total r0 radd (snd ep)) eps /\ part e (enders rounds, n_lens l) = map (fun ep => length (snd ep)) eps.
Proof.
  intros Ob A B Inf R H ES PS r0 radd last_frame o estep ereset dummy act_fn hreset hzero cell fl envs ns ops c1 c2 c3 calls ls t sched l Hst Hcell Hhr HJ E El N.
  destruct (reset_cok r0 radd last_frame o estep ereset dummy hreset envs ns ops c1 fl (fun h => h) HJ) as (obs0 & L0 & (inf0 & Ec) & HN0 & C & W0 & Henv).
  destruct HJ as (Hpos & HN & _).
  destruct (collects_step r0 radd last_frame o estep ereset dummy act_fn hreset hzero cell ns ops envs obs0 (pre_of c1) fl (fun h => h) _ _ Hpos HN L0 Hcell Hst Hhr calls c1 [] [] c2 ls C E) as (before & C2).
  cbn [app] in C2.
  destruct (collect_step r0 radd last_frame o estep ereset dummy act_fn hreset hzero cell ns ops envs obs0 (pre_of c1) fl (fun h => h) _ _ Hpos HN L0 Hcell Hst Hhr sched _ _ c2 _ _ c3 l C2 El) as (more & rd & C3 & Q & Lr & S1 & S2 & Em & Es & Ee).
  exists before, (more ++ [rd]). destruct C2 as (ob2 & in2 & Ec2 & Y2). destruct C3 as (ob3 & in3 & Ec3 & Y3).
  split; [apply (y_mgr _ _ _ _ _ _ _ _ _ _ _ _ _ _ _ _ _ _ _ _ _ _ _ _ _ Y2)|]. split; [apply (y_mgr _ _ _ _ _ _ _ _ _ _ _ _ _ _ _ _ _ _ _ _ _ _ _ _ _ Y3)|].
  pose proof (q_steps _ _ _ _ _ _ _ _ _ _ _ _ _ _ _ _ _ _ _ _ _ Q) as Q1. pose proof (q_eps _ _ _ _ _ _ _ _ _ _ _ _ _ _ _ _ _ _ _ _ _ Q) as Q2.
  pose proof (y_rds _ _ _ _ _ _ _ _ _ _ _ _ _ _ _ _ _ _ _ _ _ _ _ _ _ Y3) as Hrds.
  assert (Hw : forall rd', In rd' (more ++ [rd]) -> NoDup (fst rd') /\ length (snd rd') = length (fst rd') /\ forall e, In e (fst rd') -> e < N) by (intros rd' Hin; apply Hrds, in_or_app; right; exact Hin).
  split.
  { unfold stops, counts in S1, S2. cbn [fst snd] in S1, S2. rewrite <- Q1, <- Q2 in S1. rewrite map_app, list_sum_app in Q1. cbn in Q1. fold N in Lr.
    assert (Hen : length (enders (more ++ [rd])) <= length (enders more) + length (fst rd)).
    { unfold enders. rewrite map_app, concat_app, app_length. cbn. rewrite app_nil_r, map_length.
      pose proof (filter_len (fun y : nat * trans Ob (A * H) Inf R => ends (snd y)) (combine (fst rd) (snd rd))) as X. rewrite combine_length in X. lia. }
    destruct t as [n|k]; cbn [by_steps by_episodes reached] in S1, S2; rewrite ?orb_false_r, ?orb_false_l in *.
    - split; [lia|]. destruct S2 as [-> | S2]; [cbn in Q1; lia|]. apply Nat.leb_gt in S2. lia.
    - cbn [orb] in *. split; [lia|]. rewrite <- Q2 in Hen. destruct S2 as [-> | S2]; [cbn in Hen; lia|]. apply Nat.leb_gt in S2. lia. }
  split; [rewrite Q1; apply CollectProofs.parts_sum; intros rd' H'; destruct (Hw _ H') as (X1 & X2 & X3); auto|].
  split; [rewrite Q2; apply CollectProofs.enders_count; intros rd' e H'; apply (Hw _ H')|].
  split; [exact Es|]. split; [exact Ee|]. destruct (q_len _ _ _ _ _ _ _ _ _ _ _ _ _ _ _ _ _ _ _ _ _ Q) as [q1 q2]. split; [exact q1|]. split; [exact q2|].
  apply (q_stats _ _ _ _ _ _ _ _ _ _ _ _ _ _ _ _ _ _ _ _ _ Q).
Qed.

(** A policy without hidden state (or random collection), on a collector that has seen no hidden
    state: no call of collect returns. *)
Lemma C104_never_partial_lemma : forall (Ob A B Inf R H ES PS : Type) (r0 : R) (radd : R -> R -> R) (last_frame : Ob -> Ob) (o : opts)
  (estep : ES -> B -> ES * sres Ob Inf R) (ereset : ES -> ES * (Ob * Inf)) (dummy : bool)
  (act_fn : PS -> list nat -> list Ob -> list Inf -> option (list H) -> PS * (list (A * B) * option (list H)))
  (hreset : list nat -> list H -> list H) (hzero : H -> H) (cell : A -> res A)
  (c : acoll Ob A B Inf R H ES PS) sched n_step n_episode x,
  (forall p ids obs inf hid, snd (snd (act_fn p ids obs inf hid)) = None) -> a_hid c = None ->
  a_collect r0 radd last_frame o estep ereset dummy act_fn hreset hzero cell sched n_step n_episode c <> Ok x.
Proof.
  intros Ob A B Inf R H ES PS r0 radd last_frame o estep ereset dummy act_fn hreset hzero cell c sched nst nep x Hno Hh E.
  unfold a_collect in E. destruct (validate nst nep); [|discriminate]. cbn [bind] in E. unfold a_start in E. destruct (a_cur c) as [[obs inf]|]; [|discriminate].
  destruct (take obs (a_ready c)) as [lo|]; [|discriminate]. cbn [bind] in E. destruct (take inf (a_ready c)) as [li|]; [|discriminate]. cbn [bind] in E. rewrite Hh in E. cbn [bind] in E.
  destruct sched as [|rounds sched]; [discriminate|]. cbn [arounds] in E.
  match type of E with bind (bind ?X _) _ = _ => assert (Hx : forall y, X <> Ok y); [|destruct X as [y|]; [apply (Hx y eq_refl)|discriminate]] end.
  clear E. intros y E. unfold around in E. cbn [n_obs n_act n_venv n_pol n_ready n_last_obs n_last_inf n_last_hid n_hid n_mgr] in E.
  match type of E with (if ?X then _ else _) = _ => destruct X; [discriminate|] end.
  pose proof (Hno (a_pol c) (a_ready c) lo li None) as Hn. destruct (act_fn (a_pol c) (a_ready c) lo li None) as [p [acts hid]]. cbn [snd] in Hn. subst hid.
  destruct (mapM cell (map fst acts)) as [cells|]; [|discriminate]. cbn [bind] in E. destruct (assign (a_ready c) cells (a_act c)) as [act|]; [|discriminate]. cbn [bind] in E.
  destruct (VenvModel.v_step _ _ _ _ _ _) as [v out] in E. destruct out as [out|]; [|discriminate]. cbn [bind] in E. destruct (mapM as_step out) as [steps|]; [|discriminate]. cbn [bind] in E.
  destruct (take obs (map fst steps)); [|discriminate]. cbn [bind] in E. destruct (take act (map fst steps)); discriminate.
Qed.

(** With float or integer actions the stored rows are the actions, as floats. *)
Lemma C105_scalar_partial_lemma : forall (Ob B Inf R H ES PS : Type) (r0 : R) (radd : R -> R -> R) (last_frame : Ob -> Ob) (o : opts)
  (estep : ES -> B -> ES * sres Ob Inf R) (ereset : ES -> ES * (Ob * Inf)) (dummy : bool)
  (act_fn : PS -> list nat -> list Ob -> list Inf -> option (list H) -> PS * (list (action * B) * option (list H)))
  (hreset : list nat -> list H -> list H) (hzero : H -> H)
  envs ns ops (c1 c2 : acoll Ob action B Inf R H ES PS) calls ls,
  stateful act_fn -> (forall idx h, length (hreset idx h) = length h) ->
  just_reset r0 radd last_frame o estep ereset dummy envs ns ops c1 ->
  a_collects (a_collect r0 radd last_frame o estep ereset dummy act_fn hreset hzero to_cell) calls c1 = Ok (c2, ls) ->
  exists rounds, (exists outs, m_run r0 radd last_frame o (m_init r0 ns) (ops ++ as_adds rounds) = Ok (a_mgr c2, outs))
  /\ forall e s ob, env_of c1 e = Some s -> obs_of c1 e = Some ob ->
       let n := length (parts e rounds) in
       map (fun t => fst (t_act t)) (parts e rounds) = firstn n (map (fun x => as_float (fst (fst x))) (answered e (map (reply (fun a => a)) (concat (map (@n_calls _ _ _ _ _ _ _ _) ls))))).
Proof.
  intros Ob B Inf R H ES PS r0 radd last_frame o estep ereset dummy act_fn hreset hzero envs ns ops c1 c2 calls ls Hst Hhr HJ E.
  assert (Hcell : forall a b, to_cell a = Ok b -> b = as_float a) by (intros [z|q|l] b X; inversion X; reflexivity).
  destruct (C103_joined_lemma _ _ _ _ _ _ _ _ r0 radd last_frame o estep ereset dummy act_fn hreset hzero to_cell as_float envs ns ops c1 c2 calls ls Hst Hcell Hhr HJ E) as (rounds & Hm & _ & He).
  exists rounds. split; [exact Hm|]. intros e s ob H1 H2 n. destruct (He e s ob H1 H2) as (P & _). cbv zeta in P. rewrite P.
  assert (G : forall (l : list ((action * H) * B)) s ob, map (fun t : trans Ob (action * H) Inf R => fst (t_act t)) (solo (fun _ => estep) (fun _ => ereset) e s ob l) = map (fun x => fst (fst x)) l).
  { clear. induction l as [|[a b] l IH]; intros s ob; [reflexivity|]. cbn [solo map]. destruct (estep s b) as [s1 r]. destruct (r_done r); [destruct (ereset s1) as [s2 [ob2 i2]]|]; cbn [map fst snd t_act]; rewrite ?IH; reflexivity. }
  rewrite G, <- firstn_map. fold n. f_equal. generalize (concat (map (@n_calls _ _ _ _ _ _ _ _) ls)). clear. intros calls. unfold answered, parts. rewrite !map_map. rewrite !concat_map, !map_map. f_equal. apply map_ext.
  intros [[[[ids obs] hg] acts] hid]. unfold part. cbn [reply fst snd].
  assert (G : forall (acts : list (action * B)) (h : list H) ids,
    map (fun x => fst (fst x)) (map snd (filter (fun x : nat * (action * H * B) => fst x =? e) (combine ids (map (fun x => (as_float (fst (fst x)), snd x, snd (fst x))) (combine acts h)))))
    = map (fun x => as_float (fst (fst x))) (map snd (filter (fun x : nat * (action * H * B) => fst x =? e) (combine ids (map (fun x => (fst (fst x), snd x, snd (fst x))) (combine acts h)))))).
  { clear. induction acts as [|a acts IH]; intros [|x h] [|i ids]; try reflexivity. cbn [combine map filter fst snd]. destruct (i =? e); cbn [map fst snd]; rewrite IH; reflexivity. }
  apply G.
Qed.

(** Workers in processes of their own, no timeout, at least half of the environments awaited: the
    collector can be reset after any calls of collect, and then no environment is running. *)
Lemma C106_reset_partial_lemma : forall (Ob A B Inf R H ES PS : Type) (r0 : R) (radd : R -> R -> R) (last_frame : Ob -> Ob) (o : opts)
  (estep : ES -> B -> ES * sres Ob Inf R) (ereset : ES -> ES * (Ob * Inf))
  (act_fn : PS -> list nat -> list Ob -> list Inf -> option (list H) -> PS * (list (A * B) * option (list H)))
  (hreset : list nat -> list H -> list H) (hzero : H -> H) (cell : A -> res A) (fl : A -> A)
  envs ns ops (c1 c2 : acoll Ob A B Inf R H ES PS) calls ls rounds junk rb,
  stateful act_fn -> (forall a b, cell a = Ok b -> b = fl a) -> (forall idx h, length (hreset idx h) = length h) ->
  just_reset r0 radd last_frame o estep ereset false envs ns ops c1 ->
  VenvModel.timed (a_venv c1) = false -> length envs <= 2 * VenvModel.wait_num (a_venv c1) ->
  a_collects (a_collect r0 radd last_frame o estep ereset false act_fn hreset hzero cell) calls c1 = Ok (c2, ls) ->
  a_reset r0 estep ereset false rounds junk rb c2 = Err OutOfFuel
  \/ exists c3, a_reset r0 estep ereset false rounds junk rb c2 = Ok c3 /\ (forall e, ~ running c3 e) /\ a_ready c3 = seq 0 (length envs)
     /\ a_mgr c3 = (if rb then m_reset r0 false (a_mgr c2) else a_mgr c2) /\ a_step c3 = 0 /\ a_episode c3 = 0.
Proof.
  intros Ob A B Inf R H ES PS r0 radd last_frame o estep ereset act_fn hreset hzero cell fl envs ns ops c1 c2 calls ls rounds junk rb Hst Hcell Hhr HJ Htm Hwn E.
  destruct (reset_cok r0 radd last_frame o estep ereset false hreset envs ns ops c1 fl (fun h => h) HJ) as (obs0 & L0 & (inf0 & Ec) & HN0 & C & W0 & Henv).
  destruct HJ as (Hpos & HN & _).
  destruct (collects_step r0 radd last_frame o estep ereset false act_fn hreset hzero cell ns ops envs obs0 (pre_of c1) fl (fun h => h) _ _ Hpos HN L0 Hcell Hst Hhr calls c1 [] [] c2 ls C E) as (rds & obs & inf & Ec2 & Y).
  clear C E. destruct (y_inv _ _ _ _ _ _ _ _ _ _ _ _ _ _ _ _ _ _ _ _ _ _ _ _ _ Y) as [out I]. pose proof (y_open _ _ _ _ _ _ _ _ _ _ _ _ _ _ _ _ _ _ _ _ _ _ _ _ _ Y) as Hc.
  pose proof (y_wn _ _ _ _ _ _ _ _ _ _ _ _ _ _ _ _ _ _ _ _ _ _ _ _ _ Y) as [Hw1 Hw2]. pose proof (y_wait _ _ _ _ _ _ _ _ _ _ _ _ _ _ _ _ _ _ _ _ _ _ _ _ _ Y eq_refl Htm) as Hmin.
  assert (Hlen : length (VenvModel.waiting_id (a_venv c2)) + length (a_ready c2) <= length envs).
  { assert (P : Permutation (VenvModel.waiting_id (a_venv c2) ++ VenvModel.ready_id (a_venv c2)) (map Z.of_nat (seq 0 (length envs)))) by apply (VenvProofs.i_perm _ _ _ _ _ I). apply Permutation_length in P. rewrite app_length, map_length, seq_length in P.
    assert (L : length (a_ready c2) <= length (VenvModel.ready_id (a_venv c2))).
    { rewrite <- (map_length Z.of_nat (a_ready c2)). apply NoDup_incl_length; [apply AsyncVenvProofs.zmap_nodup, (y_nd _ _ _ _ _ _ _ _ _ _ _ _ _ _ _ _ _ _ _ _ _ _ _ _ _ Y)|].
      intros z Hz. apply in_map_iff in Hz as (k & <- & Hk). apply (y_ready _ _ _ _ _ _ _ _ _ _ _ _ _ _ _ _ _ _ _ _ _ _ _ _ _ Y), Hk. }
    lia. }
  assert (D : (exists v1 out1, match VenvModel.waiting_id (a_venv c2) with
            | [] => Ok (a_venv c2)
            | w => let '(v, out) := VenvModel.v_step (env_cmd estep ereset) false (a_venv c2) None (Some w) rounds in
                   let* _ := out in Ok v
            end = Ok v1 /\ VenvProofs.inv (env_cmd estep ereset) false envs v1 out1 /\ VenvModel.is_closed v1 = false /\ VenvModel.waiting_id v1 = [])
     \/ match VenvModel.waiting_id (a_venv c2) with
            | [] => Ok (a_venv c2)
            | w => let '(v, out) := VenvModel.v_step (env_cmd estep ereset) false (a_venv c2) None (Some w) rounds in
                   let* _ := out in Ok v
            end = Err OutOfFuel).
  { destruct (VenvModel.waiting_id (a_venv c2)) as [|x xs] eqn:Ew; [left; exists (a_venv c2), out; auto|]. rewrite <- Ew in *.
    destruct (AsyncVenvProofs.fetch_total (env_cmd estep ereset) false envs (a_venv c2) out rounds I Hc) as [(v1 & l & F)|(v1 & F)]; rewrite F; cbn [bind]; [left|right; reflexivity].
    destruct (AsyncVenvProofs.drain_facts _ _ _ _ _ _ _ _ I F) as (D1 & D2 & D3 & D4). exists v1, (out ++ l). split; [reflexivity|]. split; [exact D1|]. split; [exact D2|].
    specialize (D3 eq_refl). rewrite Hw2 in D3. specialize (D3 Htm). rewrite Hw1 in D3. destruct (VenvModel.waiting_id v1); [reflexivity|]. cbn [length] in D4. lia. }
  unfold a_reset, a_reset_env. destruct D as [(v1 & out1 & D & I1 & C1 & W1)|D]; [right|left]; rewrite D; [|reflexivity]. cbn [bind].
  destruct (AsyncVenvProofs.reset_total (env_cmd estep ereset) false envs v1 out1 I1 C1 W1 HN0) as (v2 & rst & Er). rewrite Er. cbn [bind].
  assert (Er' : VenvModel.v_reset (env_cmd estep ereset) false v1 (Some (map Z.of_nat (seq 0 (length envs)))) = (v2, Ok rst)).
  { rewrite <- Er. unfold VenvModel.v_reset, VenvModel.wrap_id, VenvModel.env_num. rewrite (VenvProofs.i_len _ _ _ _ _ I1). reflexivity. }
  destruct (AsyncVenvProofs.reset_facts (env_cmd estep ereset) false envs v1 out1 (seq 0 (length envs)) v2 rst I1 C1 (seq_NoDup _ _) Er') as (F1 & F2 & Fw & Ft & F3 & F4 & F5 & F6 & F7 & F8).
  assert (Hx : exists xs, mapM as_reset rst = Ok xs).
  { assert (G : forall z r, In (z, r) rst -> exists a b, r = AReset a b).
    { intros z r Hz. assert (Hzi : In z (map Z.of_nat (seq 0 (length envs)))) by (rewrite <- F3; apply (in_map fst _ _ Hz)). apply in_map_iff in Hzi as (k & <- & Hk). pose proof Hk as Hk'. apply in_seq in Hk'.
      destruct (nth_error_some (VenvModel.workers v2) k) as [w Hw]; [rewrite (VenvProofs.i_len _ _ _ _ _ F2); lia|]. destruct (nth_error_some envs k) as [s Hs]; [lia|].
      destruct (F8 k w s r Hw Hs Hz) as (h & cm & Hh & ->). destruct (F7 k w Hw) as (w1 & _ & Hh2).
      assert (Hp : part k (seq 0 (length envs), seq 0 (length envs)) = [k]) by (apply (part_single k _ _ k k (seq_NoDup _ _)); rewrite nth_error_seq_at by lia; reflexivity).
      rewrite Hp in Hh2. cbn in Hh2. rewrite Hh in Hh2. apply app_inj_tail in Hh2 as [_ ->]. cbn. destruct (ereset _) as [s1 [a b]]. cbn. eauto. }
    clear - G. induction rst as [|[z r] rst IH]; [eexists; reflexivity|]. destruct (G z r (or_introl eq_refl)) as (a & b & ->). destruct IH as [xs Hx]; [intros z' r' H'; apply (G z'); right; exact H'|].
    cbn [mapM as_reset snd bind]. rewrite Hx. eexists. reflexivity. }
  destruct Hx as [xs Hx]. rewrite Hx. cbn [bind a_venv a_mgr a_pol].
  eexists. split; [reflexivity|]. cbn [a_ready a_mgr a_step a_episode]. split; [|split; [|auto]].
  - intros e. unfold running. cbn [a_venv]. rewrite F4, W1. auto.
  - unfold VenvModel.env_num. rewrite (VenvProofs.i_len _ _ _ _ _ F2). reflexivity.
Qed.

(** ** Failures *)
Lemma ademo_is_reset dummy wn ns lens c : ademo_start dummy wn ns lens = Ok c -> wn <> 0 -> wn <> length lens -> (forall n, In n ns -> 0 < n) -> length lens <= length ns ->
  ademo_just_reset dummy lens ns [] c.
Proof.
  intros E H0 Hn Hp Hl. unfold ademo_start in E. destruct (VenvModel.init (map (fun l => (0, l)) lens) (Some wn) None) as [v|] eqn:Ei; [|discriminate]. cbn [bind] in E.
  split; [exact Hp|]. split; [rewrite map_length; exact Hl|]. split.
  - unfold a_reset in E. destruct (a_reset_env _ _ _ _ _) as [[c' rst]|] eqn:Er in E; [|discriminate]. cbn [bind] in E. injection E as <-. cbn [a_mgr].
    unfold a_reset_env in Er. match type of Er with bind ?X _ = _ => destruct X; [|discriminate] end. cbn [bind] in Er. destruct (VenvModel.v_reset _ _ _ _) as [v2 [r|]] in Er; [|discriminate]. cbn [bind] in Er.
    destruct (mapM as_reset r); [|discriminate]. cbn [bind] in Er. injection Er as <- <-. cbn [a_mgr a_init]. eexists. reflexivity.
  - exists (Some wn), None, v, [], (map (fun _ => AFloat 0%Qc) lens), false, (a_init v (m_init 0%Z ns) tt []), [].
    split; [exact Ei|]. split.
    { unfold VenvModel.init in Ei. rewrite map_length in Ei. destruct (length lens =? 0); [discriminate|]. destruct (wn =? 0) eqn:Ew; [lia|]. destruct ((1 <=? wn) && (wn <=? length lens)); [|discriminate].
      injection Ei as <-. cbn [VenvModel.is_async]. destruct (wn =? length lens) eqn:X; [lia|reflexivity]. }
    split; [apply VenvProofs.reach_init|]. split; [rewrite !map_length; reflexivity|]. exact E.
Qed.

(** Collection with a policy that has no hidden state fails in the first round. *)
Lemma C104_stateless_refuted_lemma : exists c, ademo_just_reset false lens3 [6; 6; 6] [] c
  /\ (exists r, ademo_collect (AFloat 1%Qc) true false sched3 (Some 5) None c = Ok r)
  /\ ademo_collect (AFloat 1%Qc) false false sched3 (Some 5) None c = Err IndexError.
Proof.
  destruct (ademo_start false 2 [6; 6; 6] lens3) as [c|] eqn:E; [|vm_compute in E; discriminate].
  exists c. split; [apply (ademo_is_reset false 2); [exact E|lia|cbn; lia|cbn; intuition lia|cbn; lia]|].
  vm_compute in E. injection E as <-. split; [eexists; vm_compute; reflexivity|vm_compute; reflexivity].
Qed.
(** Actions that are arrays fail; integers come back as floats. *)
Lemma C105_actions_refuted_lemma : exists c, ademo_just_reset false lens3 [6; 6; 6] [] c
  /\ ademo_collect (AVec [1%Qc; 0%Qc]) true false sched3 (Some 5) None c = Err ValueError
  /\ exists c' l, ademo_collect (AInt 1) true false sched3 (Some 5) None c = Ok (c', l)
     /\ map fst (concat (map (fun x => snd (fst x)) (n_calls l))) = repeat (AInt 1) 7
     /\ option_map (fun rows => map (fun s => option_map (fun s => fst (s_act s)) s) (firstn 3 rows)) (m_meta (a_mgr c')) = Some [Some (AFloat 1%Qc); Some (AFloat 1%Qc); None].
Proof.
  destruct (ademo_start false 2 [6; 6; 6] lens3) as [c|] eqn:E; [|vm_compute in E; discriminate].
  exists c. split; [apply (ademo_is_reset false 2); [exact E|lia|cbn; lia|cbn; intuition lia|cbn; lia]|].
  vm_compute in E. injection E as <-. split; [vm_compute; reflexivity|].
  match goal with |- exists c' l, ?X = _ /\ _ => destruct X as [[c' l]|] eqn:E; [|vm_compute in E; discriminate] end.
  exists c', l. split; [reflexivity|]. vm_compute in E. injection E as <- <-. split; vm_compute; reflexivity.
Qed.
(** After a call of collect the collector cannot be reset: with worker processes of which fewer than
    half are awaited, and with workers in the same process. *)
Lemma C106_reset_refuted_lemma :
  (exists c c' l, ademo_just_reset false lens3 [6; 6; 6] [] c /\ ademo_collect (AFloat 1%Qc) true false [[Some [0]]] (Some 1) None c = Ok (c', l)
     /\ ademo_reset false c' [Some [1]] = Err AssertionError)
  /\ (exists c c' l, ademo_just_reset true (lens3 ++ lens3) [6; 6; 6; 6; 6; 6] [] c /\ ademo_collect (AFloat 1%Qc) true true [[]; []] (Some 1) None c = Ok (c', l)
     /\ ademo_reset true c' [] = Err AssertionError).
Proof.
  split.
  - destruct (ademo_start false 1 [6; 6; 6] lens3) as [c|] eqn:E; [|vm_compute in E; discriminate]. exists c.
    assert (J : ademo_just_reset false lens3 [6; 6; 6] [] c) by (apply (ademo_is_reset false 1); [exact E|lia|cbn; lia|cbn; intuition lia|cbn; lia]). vm_compute in E. injection E as <-.
    match goal with |- exists c' l, _ /\ ?X = _ /\ _ => destruct X as [[c' l]|] eqn:E; [|vm_compute in E; discriminate] end.
    exists c', l. split; [exact J|]. split; [reflexivity|]. vm_compute in E. injection E as <- <-. vm_compute. reflexivity.
  - destruct (ademo_start true 2 [6; 6; 6; 6; 6; 6] (lens3 ++ lens3)) as [c|] eqn:E; [|vm_compute in E; discriminate]. exists c.
    assert (J : ademo_just_reset true (lens3 ++ lens3) [6; 6; 6; 6; 6; 6] [] c) by (apply (ademo_is_reset true 2); [exact E|lia|cbn; lia|cbn; intuition lia|cbn; lia]). vm_compute in E. injection E as <-.
    match goal with |- exists c' l, _ /\ ?X = _ /\ _ => destruct X as [[c' l]|] eqn:E; [|vm_compute in E; discriminate] end.
    exists c', l. split; [exact J|]. split; [reflexivity|]. vm_compute in E. injection E as <- <-. vm_compute. reflexivity.
Qed.
(** After reset_env the next collect shows the policy observations from before, and only steps the
    environments that were ready before: the others are never stepped again. *)
Lemma C107_reset_env_refuted_lemma : exists c c' l c2 obs c3 l3, ademo_just_reset false [[9; 9; 9]; [9; 9; 9]] [6; 6] [] c
  /\ ademo_collect (AFloat 1%Qc) true false [[Some [0]]; [Some [0]]] (Some 2) None c = Ok (c', l)
  /\ a_reset_env (demo_step 0) (demo_reset 0) false [Some [1]] c' = Ok (c2, obs) /\ map fst obs = [0; 0]
  /\ ademo_collect (AFloat 1%Qc) true false [[Some [0]]; [Some [0]]; [Some [0]]] (Some 3) None c2 = Ok (c3, l3)
  /\ map (fun x => fst (fst (fst x))) (n_calls l3) = [([0], [2]); ([0], [1]); ([0], [2])]
  /\ VenvModel.waiting_id (a_venv c3) = [].
Proof.
  destruct (ademo_start false 1 [6; 6] [[9; 9; 9]; [9; 9; 9]]) as [c|] eqn:E; [|vm_compute in E; discriminate]. exists c.
  assert (J : ademo_just_reset false [[9; 9; 9]; [9; 9; 9]] [6; 6] [] c) by (apply (ademo_is_reset false 1); [exact E|lia|cbn; lia|cbn; intuition lia|cbn; lia]). vm_compute in E. injection E as <-.
  match goal with |- exists c' l c2 obs c3 l3, _ /\ ?X = _ /\ _ => destruct X as [[c' l]|] eqn:E; [|vm_compute in E; discriminate] end.
  exists c', l. vm_compute in E. injection E as <- <-.
  match goal with |- exists c2 obs c3 l3, _ /\ _ /\ ?X = _ /\ _ => destruct X as [[c2 obs]|] eqn:E; [|vm_compute in E; discriminate] end.
  exists c2, obs. vm_compute in E. injection E as <- <-.
  match goal with |- exists c3 l3, _ /\ _ /\ _ /\ _ /\ ?X = _ /\ _ => destruct X as [[c3 l3]|] eqn:E; [|vm_compute in E; discriminate] end.
  exists c3, l3. split; [exact J|]. split; [vm_compute; reflexivity|]. split; [vm_compute; reflexivity|]. split; [vm_compute; reflexivity|]. split; [reflexivity|].
  vm_compute in E. injection E as <- <-. split; vm_compute; reflexivity.
Qed.
(** C104. A round in which the policy answers without hidden state while the collector holds hidden states: those of the environments
    that were sent an action and have not answered yet are emptied. *)
Lemma C104_emptied_lemma : forall (Ob A B Inf R H ES PS : Type) (r0 : R) (radd : R -> R -> R) (last_frame : Ob -> Ob) (o : opts)
  (estep : ES -> B -> ES * sres Ob Inf R) (ereset : ES -> ES * (Ob * Inf)) (dummy : bool)
  (act_fn : PS -> list nat -> list Ob -> list Inf -> option (list H) -> PS * (list (A * B) * option (list H)))
  (hreset : list nat -> list H -> list H) (hzero : H -> H) (cell : A -> res A)
  (l l' : arun Ob A B Inf R H ES PS) rounds hs i h,
  around r0 radd last_frame o estep ereset dummy act_fn hreset hzero cell rounds l = Ok l' ->
  snd (snd (act_fn (n_pol l) (n_ready l) (n_last_obs l) (n_last_inf l) (n_last_hid l))) = None ->
  n_hid l = Some hs -> NoDup (n_ready l) -> nth_error hs i = Some h -> ~ In i (n_ready l') ->
  exists hs', n_hid l' = Some hs' /\ nth_error hs' i = Some (if existsb (Nat.eqb i) (n_ready l) then hzero h else h).
Proof.
  intros Ob A B Inf R H ES PS r0 radd last_frame o estep ereset dummy act_fn hreset hzero cell l l' rounds hs i h E Hn Hh ND Hi Ho.
  unfold around in E. destruct (negb (length (n_obs l) =? length (n_act l)) || negb (length (n_act l) =? VenvModel.env_num (n_venv l))); [discriminate|].
  destruct (act_fn (n_pol l) (n_ready l) (n_last_obs l) (n_last_inf l) (n_last_hid l)) as [p [acts hid]]. cbn [snd] in Hn. subst hid. rewrite Hh in E.
  destruct (mapM cell (map fst acts)) as [cells|]; [|discriminate]. cbn [bind] in E.
  destruct (assign (n_ready l) cells (n_act l)) as [act|]; [|discriminate]. cbn [bind] in E.
  destruct (take hs (n_ready l)) as [old|] eqn:Et; [|discriminate]. cbn [bind] in E.
  destruct (VenvModel.v_step _ dummy (n_venv l) (Some (map snd acts)) (ids_of (n_ready l)) rounds) as [v [out|]]; [|discriminate]. cbn [bind] in E.
  destruct (mapM as_step out) as [steps|]; [|discriminate]. cbn [bind] in E.
  destruct (take (n_obs l) (map fst steps)) as [ob|]; [|discriminate]. cbn [bind] in E.
  destruct (take act (map fst steps)) as [ac|]; [|discriminate]. cbn [bind] in E.
  match type of E with bind ?X _ = _ => destruct X as [pe|]; [|discriminate] end. cbn [bind] in E.
  match type of E with bind ?X _ = _ => destruct X as [[m reps]|]; [|discriminate] end. cbn [bind] in E.
  match type of E with bind ?X _ = _ => destruct X as [[[v2 [[lo li] lh]] [lens rets]]|]; [|discriminate] end. cbn [bind] in E.
  injection E as <-. cbn [n_hid n_ready option_map] in *. eexists. split; [reflexivity|]. rewrite put_other by exact Ho.
  destruct (existsb (Nat.eqb i) (n_ready l)) eqn:Ex.
  - apply existsb_exists in Ex as (i' & Hin & Ei). apply Nat.eqb_eq in Ei. subst i'. apply In_nth_error in Hin as [k Hk].
    destruct (take_spec _ _ _ Et) as [Lo Ht]. apply put_at with k; auto; [|eapply nth_error_lt; eauto].
    rewrite nth_error_map, (Ht _ _ Hk), Hi. reflexivity.
  - rewrite put_other; [exact Hi|]. intro Hin. assert (X : existsb (Nat.eqb i) (n_ready l) = true) by (apply existsb_exists; exists i; split; [exact Hin|apply Nat.eqb_refl]). congruence.
Qed.
