(** * Proofs for the collector *)
From Verif Require Import Py PyLemmas BufferModel BufferSpec BufferProofs BufferMainProofs ManagerModel ManagerSpec ManagerProofs ManagerMainProofs
  GetIndicesModel GetIndicesProofs CollectModel CollectSpec CollectRoundProofs CollectEpisodeProofs CollectRunProofs.
Open Scope nat_scope.

(** ** Counting *)
Lemma sum_zero {T} (f : T -> nat) l : (forall x, In x l -> f x = 0) -> list_sum (map f l) = 0.
Proof. induction l as [|x l IH]; intro H; [reflexivity|]. cbn. rewrite (H x) by (left; reflexivity). apply IH. intros; apply H; right; assumption. Qed.
Lemma sum_add {T} (f g : T -> nat) l : list_sum (map (fun x => f x + g x) l) = list_sum (map f l) + list_sum (map g l).
Proof. induction l as [|x l IH]; [reflexivity|]. cbn in *. unfold list_sum in *. lia. Qed.
Lemma sum_one w i : i < w -> list_sum (map (fun e => if i =? e then 1 else 0) (seq 0 w)) = 1.
Proof.
  intro H. replace w with (i + S (w - i - 1)) by lia. rewrite seq_app, map_app, list_sum_app. cbn [seq map Nat.add].
  rewrite sum_zero by (intros x Hx; apply in_seq in Hx; destruct (Nat.eqb_spec i x); lia).
  cbn. rewrite Nat.eqb_refl. rewrite sum_zero by (intros x Hx; apply in_seq in Hx; destruct (Nat.eqb_spec i x); lia). reflexivity.
Qed.
Lemma part_count {Ob A Inf R} w ids : forall ts : list (trans Ob A Inf R), (forall e, In e ids -> e < w) ->
  length (filter (fun y => ends (snd y)) (combine ids ts)) = list_sum (map (fun e => length (filter ends (part e (ids, ts)))) (seq 0 w)).
Proof.
  induction ids as [|i ids IH]; intros [|t ts] H; try (rewrite sum_zero; [reflexivity|reflexivity]).
  transitivity ((if ends t then 1 else 0) + list_sum (map (fun e => length (filter ends (part e (ids, ts)))) (seq 0 w))).
  - rewrite <- IH by (intros; apply H; right; assumption). cbn. destruct (ends t); reflexivity.
  - assert (Q : (if ends t then 1 else 0) = list_sum (map (fun e => (if i =? e then 1 else 0) * (if ends t then 1 else 0)) (seq 0 w))).
    { destruct (ends t).
      - rewrite <- (sum_one w i) at 1 by (apply H; left; reflexivity). f_equal. apply map_ext. intro e. destruct (i =? e); reflexivity.
      - symmetry. apply sum_zero. intros x _. apply Nat.mul_0_r. }
    rewrite Q, <- sum_add. f_equal. apply map_ext. intro e. rewrite part_cons, filter_app, app_length. destruct (i =? e); cbn; destruct (ends t); reflexivity.
Qed.
Lemma enders_count {Ob A Inf R} w (rds : list (list nat * list (trans Ob A Inf R))) : (forall rd e, In rd rds -> In e (fst rd) -> e < w) ->
  length (enders rds) = list_sum (map (fun e => length (filter ends (parts e rds))) (seq 0 w)).
Proof.
  induction rds as [|[ids ts] rds IH]; intro H; [symmetry; apply sum_zero; reflexivity|].
  change ((ids, ts) :: rds) with ([(ids, ts)] ++ rds). rewrite enders_app, app_length, IH by (intros; eapply H; eauto; right; assumption).
  rewrite enders_one, map_length, (part_count w) by (intros e He; apply (H (ids, ts)); [left; reflexivity|exact He]).
  rewrite <- sum_add. f_equal. apply map_ext. intro e. rewrite parts_app, parts_one, filter_app, app_length. reflexivity.
Qed.
Lemma parts_none {T} e (rds : list (list nat * list T)) : (forall rd, In rd rds -> ~ In e (fst rd)) -> parts e rds = [].
Proof.
  induction rds as [|[ids ts] rds IH]; intro H; [reflexivity|]. change ((ids, ts) :: rds) with ([(ids, ts)] ++ rds).
  rewrite parts_app, parts_one, part_none by (apply (H (ids, ts)); left; reflexivity). apply IH. intros; apply H; right; assumption.
Qed.

Section Collect.
Context {Ob A B Inf R H ES PS : Type}.
Variable r0 : R.
Variable radd : R -> R -> R.
Variable last_frame : Ob -> Ob.
Variable o : opts.
Variable estep : nat -> ES -> B -> ES * sres Ob Inf R.
Variable ereset : nat -> ES -> ES * (Ob * Inf).
Variable act_fn : PS -> list nat -> list Ob -> list Inf -> option (list H) -> PS * (list (A * B) * option (list H)).
Variable hreset : list nat -> list H -> list H.
Variable hook : list (row_out Ob A Inf R) -> bool.
Notation trans := (trans Ob A Inf R).
Notation loop := (loop Ob A B Inf R H ES PS).
Notation coll := (coll Ob A Inf R H ES PS).
Notation mop := (mop Ob A Inf R).
Notation iterate := (iterate r0 radd last_frame o estep ereset act_fn hreset hook).
Notation collect := (collect r0 radd last_frame o estep ereset act_fn hreset hook).
Notation linv := (linv r0 radd last_frame o estep ereset).
Notation coll_ok := (coll_ok r0 radd last_frame o).
Notation recorded := (recorded r0 radd last_frame o estep ereset).

Lemma seq_nth_error a n j : j < n -> nth_error (seq a n) j = Some (a + j).
Proof. intro Hj. rewrite (nth_error_nth' _ 0) by (rewrite seq_length; exact Hj). rewrite seq_nth by exact Hj. reflexivity. Qed.

(** The state in which the loop starts. *)
Lemma start_inv ns ops (c : coll) t l obs inf : coll_ok ns ops c -> c_pre c = Some (obs, inf) -> start (B := B) (by_steps t) (by_episodes t) c = Ok l ->
  let w := width t (length (c_envs c)) in
  linv ns ops (c_envs c) obs w l [] /\ l_ready l = seq 0 w /\ l_eps l = 0 /\ l_steps l = 0 /\ room (by_episodes t) l /\ 0 < w
  /\ stats_ok r0 radd last_frame o ns ops w l [] /\ l_envs l = c_envs c.
Proof.
  intros (Hpos & Hk & HN & (outs & Hrun) & obs' & inf' & Hpre & Lo & Li) Hpre' E w. rewrite Hpre' in Hpre. injection Hpre as <- <-.
  assert (Er : start (B := B) (by_steps t) (by_episodes t) c = let* obs1 := take obs (seq 0 w) in let* inf1 := take inf (seq 0 w) in
    let* hid := match c_hid c with None => Ok None | Some h => let* h := take h (seq 0 w) in Ok (Some h) end in
    Ok (mkLoop (c_envs c) (c_mgr c) (c_pol c) (seq 0 w) obs1 inf1 hid 0 0 stats0 [] [])).
  { unfold start. destruct t; cbn [by_steps by_episodes bind]; rewrite Hpre'; reflexivity. }
  rewrite Er in E. clear Er. destruct (take obs (seq 0 w)) as [obs1|] eqn:E1; [|discriminate]. cbn [bind] in E.
  destruct (take inf (seq 0 w)) as [inf1|] eqn:E2; [|discriminate]. cbn [bind] in E.
  destruct (match c_hid c with None => Ok None | Some h => let* h := take h (seq 0 w) in Ok (Some h) end) as [hid|]; [|discriminate]. cbn [bind] in E. injection E as <-.
  destruct (take_spec _ _ _ E1) as [T1 T2]. destruct (take_spec _ _ _ E2) as [T3 T4]. rewrite seq_length in T1, T3.
  cbn [l_ready l_eps l_steps l_envs]. split; [|split; [reflexivity|split; [reflexivity|split; [reflexivity|split; [|split; [|split; [|reflexivity]]]]]]].
  - split; cbn [l_envs l_mgr l_pol l_ready l_obs l_inf l_hid l_steps l_eps l_stats l_hook l_calls].
    + exists outs. rewrite app_nil_r. exact Hrun.
    + apply seq_NoDup.
    + intros e He. apply in_seq in He. lia.
    + rewrite seq_length. exact T1.
    + rewrite seq_length. exact T3.
    + reflexivity.
    + intros rd [].
    + reflexivity.
    + intros e s ob He Hs Ho. split; [reflexivity|]. split; [reflexivity|]. split; [exact Hs|]. intros j Hj. cbn.
      assert (Lj : j < w) by (apply nth_error_lt in Hj; rewrite seq_length in Hj; exact Hj). rewrite (T2 _ _ Hj). exact Ho.
    + reflexivity.
    + reflexivity.
    + reflexivity.
    + reflexivity.
    + auto.
    + intros e He Hn. exfalso. apply Hn, in_seq. lia.
    + intros pre rd post e Eq. destruct pre; discriminate.
  - unfold room. destruct t; cbn [by_episodes]; [exact Logic.I|]. cbn [l_eps l_ready]. rewrite seq_length. unfold w. cbn. lia.
  - unfold w. destruct t; cbn [width]; lia.
  - intros e He. cbn. auto.
Qed.

Lemma width_le t N : width t N <= N.
Proof. destruct t; cbn [width]; lia. Qed.

(** Everything known after a successful call. *)
Lemma collect_inv ns ops (c c' : coll) t l fuel : coll_ok ns ops c -> collect fuel (by_steps t) (by_episodes t) false c = Ok (c', l) ->
  exists obs inf rounds, let w := width t (length (c_envs c)) in
  c_pre c = Some (obs, inf) /\ length obs = length (c_envs c)
  /\ linv ns ops (c_envs c) obs w l rounds /\ room (by_episodes t) l /\ rounds <> []
  /\ reached (by_steps t) (l_steps l) || reached (by_episodes t) (l_eps l) = true
  /\ (match t with Episodes _ => True | _ => l_ready l = seq 0 w /\ forall rd, In rd rounds -> fst rd = seq 0 w end)
  /\ (forall pre rd, rounds = pre ++ [rd] -> reached (by_steps t) (l_steps l - length (fst rd)) = false \/ pre = [])
  /\ (fits ns ops w rounds -> stats_ok r0 radd last_frame o ns ops w l rounds)
  /\ c_mgr c' = l_mgr l /\ c_step c' = c_step c + l_steps l /\ c_episode c' = c_episode c + l_eps l
  /\ match t with Steps _ => c_envs c' = l_envs l /\ c_pre c' = Some (l_obs l, l_inf l)
     | Episodes _ => exists z, reset_envs ereset (l_envs l) (seq 0 (length (l_envs l))) = Ok z /\ c_envs c' = fst z /\ c_pre c' = Some (map fst (snd z), map snd (snd z)) end.
Proof.
  intros Hc E. pose proof Hc as (Hpos & Hk & HN & _ & obs & inf & Hpre & Lo & Li). exists obs, inf.
  assert (Ev : collect fuel (by_steps t) (by_episodes t) false c = collect_ r0 radd last_frame o estep ereset act_fn hreset hook fuel (by_steps t) (by_episodes t) c) by (destruct t; reflexivity).
  rewrite Ev in E. clear Ev. unfold collect_ in E. destruct (start (by_steps t) (by_episodes t) c) as [l0|] eqn:E0; [|discriminate]. cbn [bind] in E.
  destruct (start_inv ns ops c t l0 obs inf Hc Hpre E0) as (V & Hr & He & Hs & Rm & Hw & St & Hes). pose proof (width_le t (length (c_envs c))) as Wl.
  set (w := width t (length (c_envs c))) in *.
  destruct (iterate fuel (by_steps t) (by_episodes t) l0) as [lf|] eqn:Ei; [|discriminate]. cbn [bind] in E.
  destruct (iterate_inv r0 radd last_frame o estep ereset act_fn hreset hook ns ops (c_envs c) obs w Hpos Wl ltac:(lia) ltac:(lia) _ _ _ _ _ _ V Rm Ei) as (more & K1 & K2 & K3 & K4 & K5 & K6 & K7).
  cbn [app] in *. exists more.
  assert (X : l = lf /\ c_mgr c' = l_mgr lf /\ c_step c' = c_step c + l_steps lf /\ c_episode c' = c_episode c + l_eps lf /\
     match t with Steps _ => c_envs c' = l_envs lf /\ c_pre c' = Some (l_obs lf, l_inf lf)
     | Episodes _ => exists z, reset_envs ereset (l_envs lf) (seq 0 (length (l_envs lf))) = Ok z /\ c_envs c' = fst z /\ c_pre c' = Some (map fst (snd z), map snd (snd z)) end).
  { clear - E. destruct t; cbn [by_steps by_episodes] in E.
    - injection E as <- <-. auto 6.
    - unfold reset_env in E. cbn [c_envs] in E. destruct (reset_envs ereset (l_envs lf) (seq 0 (length (l_envs lf)))) as [z|] eqn:Ez; [|discriminate]. cbn [bind] in E.
      injection E as <- <-. cbn. split; [reflexivity|]. split; [reflexivity|]. split; [reflexivity|]. split; [reflexivity|]. exists z. auto. }
  destruct X as (-> & X). split; [exact Hpre|]. split; [exact Lo|]. split; [exact K1|]. split; [exact K2|]. split; [exact K3|]. split; [exact K5|].
  split; [destruct t; [|exact Logic.I]; cbn [by_episodes] in K6; rewrite Hr in K6; exact K6|].
  split; [exact K7|]. split; [intro F; apply K4; assumption|]. exact X.
Qed.

Lemma recorded_of_linv ns ops (c : coll) obs inf w (l : loop) rounds : c_pre c = Some (obs, inf) -> w <= length (c_envs c) ->
  linv ns ops (c_envs c) obs w l rounds -> recorded ns ops c (l_mgr l) (l_calls l) rounds.
Proof.
  clear act_fn hreset hook. intros Hpre Wl V. split; [apply (v_mgr _ _ _ _ _ _ _ _ _ _ _ _ _ V)|]. split; [symmetry; apply (v_calls _ _ _ _ _ _ _ _ _ _ _ _ _ V)|]. split.
  - intros rd Hrd. destruct (v_rds _ _ _ _ _ _ _ _ _ _ _ _ _ V rd Hrd) as (Q1 & Q2 & Q3). split; [exact Q1|]. split; [exact Q2|]. intros e He. specialize (Q3 e He). lia.
  - intros e s ob Hs Ho. unfold pre_obs in Ho. rewrite Hpre in Ho. destruct (Nat.lt_ge_cases e w) as [He|He].
    + destruct (v_env _ _ _ _ _ _ _ _ _ _ _ _ _ V e s ob He Hs Ho) as (P1 & P2 & _). split; [exact P1|symmetry; exact P2].
    + assert (Q : forall rd, In rd rounds -> ~ In e (fst rd)).
      { intros rd Hrd Hi. destruct (v_rds _ _ _ _ _ _ _ _ _ _ _ _ _ V rd Hrd) as (_ & _ & Q3). specialize (Q3 e Hi). lia. }
      assert (Qc : forall call, In call (l_calls l) -> ~ In e (fst (fst call))).
      { intros call Hcall. assert (Hin : In (fst (fst call)) (map fst rounds)) by (rewrite <- (v_calls _ _ _ _ _ _ _ _ _ _ _ _ _ V); apply in_map_iff; eauto).
        apply in_map_iff in Hin. destruct Hin as (rd & Er & Hrd). rewrite <- Er. apply Q, Hrd. }
      rewrite (parts_none e rounds Q). unfold answered, shown.
      rewrite (parts_none e (map _ (l_calls l))), (parts_none e (map _ (l_calls l))); [auto| |];
        (intros rd Hrd; apply in_map_iff in Hrd; destruct Hrd as (call & <- & Hcall); apply Qc, Hcall).
Qed.

(** After an n_episode collection no environment is left. *)
Lemma none_left k (l : loop) : room (Some (S k)) l -> reached (Some (S k)) (l_eps l) = true -> l_ready l = [] /\ l_eps l = S k.
Proof. unfold room, reached. intros Rm E. apply Nat.leb_le in E. clear - Rm E. split; [apply length_zero_iff_nil; lia|lia]. Qed.

Lemma rounds_below w (rounds : list (list nat * list trans)) ns ops es0 obs0 (l : loop) : linv ns ops es0 obs0 w l rounds -> forall rd e, In rd rounds -> In e (fst rd) -> e < w.
Proof. intros V rd e Hrd He. destruct (v_rds _ _ _ _ _ _ _ _ _ _ _ _ _ V rd Hrd) as (_ & _ & Q). apply Q, He. Qed.
Lemma parts_out w (rounds : list (list nat * list trans)) e : (forall rd e, In rd rounds -> In e (fst rd) -> e < w) -> w <= e -> parts e rounds = [].
Proof. intros Q He. apply parts_none. intros rd Hrd Hi. specialize (Q rd e Hrd Hi). lia. Qed.

Lemma exact_main ns ops (c c' : coll) l fuel k : coll_ok ns ops c -> collect fuel None (Some (S k)) false c = Ok (c', l) ->
  exists rounds, recorded ns ops c (c_mgr c') (l_calls l) rounds
  /\ st_episodes (l_stats l) = S k /\ c_episode c' = c_episode c + S k
  /\ let w := Nat.min (length (c_envs c)) (S k) in
     num_ends w rounds = S k
  /\ (forall e, w <= e -> parts e rounds = [])
  /\ (forall e, e < w -> exists ts t, parts e rounds = ts ++ [t] /\ ends t = true)
  /\ (forall pre rd post e, rounds = pre ++ rd :: post -> e < w -> ~ In e (fst rd) -> exists ts t, parts e pre = ts ++ [t] /\ ends t = true).
Proof.
  intros Hc E. destruct (collect_inv ns ops c c' (Episodes k) l fuel Hc E) as (obs & inf & rounds & Hpre & Lo & V & Rm & NE & Rd & _ & _ & _ & Em & Es & Ee & _).
  unfold reached in *; cbn [by_steps by_episodes width orb] in *. exists rounds. destruct (none_left k l Rm Rd) as [L0 L1].
  assert (Wl : Nat.min (length (c_envs c)) (S k) <= length (c_envs c)) by lia.
  split; [rewrite Em; exact (recorded_of_linv ns ops c obs inf _ l rounds Hpre Wl V)|].
  split; [rewrite (proj1 (v_steps_eps _ _ _ _ _ _ _ _ _ _ _ _ _ V)); exact L1|]. split; [rewrite Ee, L1; reflexivity|].
  pose proof (rounds_below _ _ _ _ _ _ _ V) as Q. cbv zeta.
  split; [unfold num_ends; rewrite <- (enders_count _ _ Q), <- (v_eps _ _ _ _ _ _ _ _ _ _ _ _ _ V); exact L1|].
  split; [intros e He; exact (parts_out _ _ _ Q He)|].
  split; [intros e He; apply (v_drop _ _ _ _ _ _ _ _ _ _ _ _ _ V e He); rewrite L0; intros []|].
  exact (v_dropped _ _ _ _ _ _ _ _ _ _ _ _ _ V).
Qed.

Lemma ready_again ns ops (c c' : coll) t l fuel : coll_ok ns ops c -> collect fuel (by_steps t) (by_episodes t) false c = Ok (c', l) ->
  exists rounds, recorded ns ops c (c_mgr c') (l_calls l) rounds /\ coll_ok ns (ops ++ as_adds rounds) c' /\ length (c_envs c') = length (c_envs c)
  /\ match t with
     | Steps n => forall e s ob, nth_error (c_envs c) e = Some s -> pre_obs c e = Some ob ->
         nth_error (c_envs c') e = Some (fst (solo_end estep ereset e s ob (answered e (l_calls l))))
         /\ pre_obs c' e = Some (snd (solo_end estep ereset e s ob (answered e (l_calls l))))
     | Episodes k => forall e s ob, nth_error (c_envs c) e = Some s -> pre_obs c e = Some ob ->
         let s1 := fst (solo_end estep ereset e s ob (answered e (l_calls l))) in
         nth_error (c_envs c') e = Some (fst (ereset e s1)) /\ pre_obs c' e = Some (fst (snd (ereset e s1)))
     end.
Proof.
  intros Hc E. destruct (collect_inv ns ops c c' t l fuel Hc E) as (obs & inf & rounds & Hpre & Lo & V & Rm & NE & Rd & Hsame & _ & _ & Em & Es & Ee & Fin).
  pose proof (width_le t (length (c_envs c))) as Wl. exists rounds.
  pose proof (recorded_of_linv ns ops c obs inf _ l rounds Hpre Wl V) as Rec. split; [rewrite Em; exact Rec|].
  destruct Hc as (Hpos & Hk & HN & _ & _). pose proof (v_envlen _ _ _ _ _ _ _ _ _ _ _ _ _ V) as Le.
  assert (Hout : forall e s ob, nth_error (c_envs c) e = Some s -> pre_obs c e = Some ob -> nth_error (l_envs l) e = Some (fst (solo_end estep ereset e s ob (answered e (l_calls l))))).
  { intros e s ob Hs Ho. destruct (Nat.lt_ge_cases e (width t (length (c_envs c)))) as [He|He].
    - unfold pre_obs in Ho. rewrite Hpre in Ho. apply (v_env _ _ _ _ _ _ _ _ _ _ _ _ _ V e s ob He Hs Ho).
    - rewrite (v_out _ _ _ _ _ _ _ _ _ _ _ _ _ V e He).
      assert (Z : parts e rounds = []) by (exact (parts_out _ _ _ (rounds_below _ _ _ _ _ _ _ V) He)).
      destruct Rec as (_ & _ & _ & Rec). destruct (Rec e s ob Hs Ho) as [P1 _]. rewrite Z in P1.
      destruct (answered e (l_calls l)) as [|[a b] q]; [exact Hs|discriminate]. }
  assert (Hrun : exists outs, m_run r0 radd last_frame o (m_init r0 ns) (ops ++ as_adds rounds) = Ok (c_mgr c', outs)) by (rewrite Em; exact (proj1 Rec)).
  destruct t as [n|k]; cbn [by_episodes width] in *.
  - destruct Fin as [F1 F2]. destruct Hsame as [R1 R2]. pose proof (v_obs _ _ _ _ _ _ _ _ _ _ _ _ _ V) as Q1. pose proof (v_inf _ _ _ _ _ _ _ _ _ _ _ _ _ V) as Q2.
    rewrite R1, seq_length in Q1, Q2. split; [|split].
    + unfold CollectSpec.coll_ok. rewrite F1, Le. split; [exact Hpos|]. split; [exact Hk|]. split; [exact HN|]. split; [exact Hrun|].
      exists (l_obs l), (l_inf l). auto.
    + rewrite F1. exact Le.
    + intros e s ob Hs Ho. rewrite F1. split; [apply Hout; assumption|]. unfold pre_obs. rewrite F2.
      unfold pre_obs in Ho. rewrite Hpre in Ho. assert (He : e < length (c_envs c)) by (eapply nth_error_lt; eauto).
      apply (v_env _ _ _ _ _ _ _ _ _ _ _ _ _ V e s ob He Hs Ho). rewrite R1, seq_nth_error by exact He. reflexivity.
  - destruct Fin as ([es' xs] & F0 & F1 & F2). cbn [fst snd] in *. destruct (reset_envs_spec ereset _ _ _ _ (seq_NoDup _ _) F0) as (W1 & W2 & W3 & _). rewrite seq_length in W1.
    split; [|split].
    + unfold CollectSpec.coll_ok. rewrite F1, W2, Le. split; [exact Hpos|]. split; [exact Hk|]. split; [exact HN|]. split; [exact Hrun|].
      exists (map fst xs), (map snd xs). rewrite !map_length, W1, Le. auto.
    + rewrite F1, W2. exact Le.
    + intros e s ob Hs Ho. cbv zeta. assert (He : e < length (l_envs l)) by (rewrite Le; eapply nth_error_lt; eauto).
      destruct (W3 e e) as (s1 & Y1 & Y2 & Y3); [rewrite seq_nth_error by exact He; reflexivity|]. rewrite (Hout e s ob Hs Ho) in Y1. injection Y1 as <-.
      rewrite F1. split; [exact Y3|]. unfold pre_obs. rewrite F2, nth_error_map, Y2. reflexivity.
Qed.

Lemma rounds_main ns ops (c c' : coll) l fuel n : coll_ok ns ops c -> collect fuel (Some (S n)) None false c = Ok (c', l) ->
  let N := length (c_envs c) in
  exists rounds, recorded ns ops c (c_mgr c') (l_calls l) rounds
  /\ (forall rd, In rd rounds -> fst rd = seq 0 N)
  /\ N * (length rounds - 1) < S n <= N * length rounds
  /\ st_steps (l_stats l) = N * length rounds /\ c_step c' = c_step c + N * length rounds
  /\ st_episodes (l_stats l) = num_ends N rounds /\ c_episode c' = c_episode c + num_ends N rounds.
Proof.
  intros Hc E N. pose proof Hc as (_ & _ & HN & _). fold N in HN.
  destruct (collect_inv ns ops c c' (Steps n) l fuel Hc E) as (obs & inf & rounds & Hpre & Lo & V & Rm & NE & Rd & (R1 & R2) & Last & _ & Em & Es & Ee & _).
  unfold reached in *; cbn [by_steps by_episodes width orb] in *. rewrite orb_false_r in Rd. exists rounds. fold N in V, R1, R2.
  split; [rewrite Em; exact (recorded_of_linv ns ops c obs inf N l rounds Hpre ltac:(unfold N; lia) V)|]. split; [exact R2|].
  assert (Hsum : l_steps l = N * length rounds).
  { rewrite (v_steps _ _ _ _ _ _ _ _ _ _ _ _ _ V). clear - R2. induction rounds as [|rd rs IH]; [cbn; lia|]. cbn [map list_sum length fold_right].
    unfold list_sum in *. cbn [fold_right map]. rewrite IH by (intros; apply R2; right; assumption). rewrite (R2 rd) by (left; reflexivity). rewrite seq_length. lia. }
  assert (Hep : l_eps l = num_ends N rounds).
  { rewrite (v_eps _ _ _ _ _ _ _ _ _ _ _ _ _ V). apply enders_count. exact (rounds_below _ _ _ _ _ _ _ V). }
  split.
  { apply Nat.leb_le in Rd. split; [|lia]. destruct (exists_last NE) as (pre & rd & Eq). destruct (Last pre rd Eq) as [L|L].
    - apply Nat.leb_gt in L. rewrite Hsum, (R2 rd), seq_length in L by (rewrite Eq; apply in_or_app; right; left; reflexivity).
      rewrite Nat.mul_sub_distr_l, Nat.mul_1_r. exact L.
    - subst pre. rewrite Eq. cbn. rewrite Nat.mul_0_r. lia. }
  split; [rewrite (v_ststeps _ _ _ _ _ _ _ _ _ _ _ _ _ V); exact Hsum|]. split; [rewrite Es, Hsum; reflexivity|].
  split; [rewrite (proj1 (v_steps_eps _ _ _ _ _ _ _ _ _ _ _ _ _ V)); exact Hep|]. rewrite Ee, Hep. reflexivity.
Qed.

(** Summing over the environments. *)
Lemma part_sum {T} (f : T -> nat) w ids : forall xs, (forall e, In e ids -> e < w) -> length xs = length ids ->
  list_sum (map f xs) = list_sum (map (fun e => list_sum (map f (part e (ids, xs)))) (seq 0 w)).
Proof.
  clear. induction ids as [|i ids IH]; intros [|x xs] Hi L; try discriminate; [symmetry; apply sum_zero; reflexivity|].
  transitivity (f x + list_sum (map (fun e => list_sum (map f (part e (ids, xs)))) (seq 0 w))).
  - rewrite <- IH by (cbn in L; auto; intros; apply Hi; right; assumption). reflexivity.
  - assert (Q : f x = list_sum (map (fun e => (if i =? e then 1 else 0) * f x) (seq 0 w))).
    { assert (G : forall l, list_sum (map (fun e => (if i =? e then 1 else 0) * f x) l) = list_sum (map (fun e => if i =? e then 1 else 0) l) * f x).
      { induction l as [|y l IHl]; [reflexivity|]. cbn [map]. unfold list_sum in *. cbn [fold_right]. rewrite IHl. destruct (i =? y); cbn; lia. }
      rewrite G, sum_one by (apply Hi; left; reflexivity). lia. }
    rewrite Q, <- sum_add. f_equal. apply map_ext. intro e. rewrite part_cons, map_app, list_sum_app. destruct (i =? e); cbn; lia.
Qed.
Lemma parts_sum w (rounds : list (list nat * list trans)) : (forall rd, In rd rounds -> length (snd rd) = length (fst rd) /\ forall e, In e (fst rd) -> e < w) ->
  list_sum (map (fun rd => length (fst rd)) rounds) = list_sum (map (fun e => length (parts e rounds)) (seq 0 w)).
Proof.
  clear. induction rounds as [|[ids ts] rounds IH]; intro Q; [symmetry; apply sum_zero; reflexivity|].
  destruct (Q (ids, ts)) as [Q1 Q2]; [left; reflexivity|]. cbn [fst snd] in *.
  transitivity (length ids + list_sum (map (fun e => length (parts e rounds)) (seq 0 w))).
  - rewrite <- IH by (intros; apply Q; right; assumption). reflexivity.
  - assert (G : length ids = list_sum (map (fun e => length (part e (ids, ts))) (seq 0 w))).
    { rewrite <- Q1. pose proof (part_sum (fun _ => 1) w ids ts Q2 Q1) as P. assert (LS : forall T (l : list T), list_sum (map (fun _ => 1) l) = length l) by (intros T l; induction l as [|y l IHl]; [reflexivity|]; cbn in *; unfold list_sum in *; cbn; lia).
      rewrite LS in P. rewrite P. f_equal. apply map_ext. intro e. rewrite LS. reflexivity. }
    rewrite G, <- sum_add. f_equal. apply map_ext. intro e. change ((ids, ts) :: rounds) with ([(ids, ts)] ++ rounds). rewrite parts_app, parts_one, app_length. reflexivity.
Qed.
Lemma enders_below w (rounds : list (list nat * list trans)) : (forall rd e, In rd rounds -> In e (fst rd) -> e < w) -> forall e, In e (enders rounds) -> e < w.
Proof.
  clear. intros Q e He. unfold enders in He. apply in_concat in He. destruct He as (l & Hl & He). apply in_map_iff in Hl. destruct Hl as (rd & <- & Hrd).
  apply in_map_iff in He. destruct He as ([e' t] & <- & He). apply filter_In in He. destruct He as [He _]. apply in_combine_l in He. exact (Q rd _ Hrd He).
Qed.

Lemma in_progress_app ns (ops : list mop) (rounds : list (list nat * list trans)) e : e < length ns -> (forall rd i, In rd rounds -> In i (fst rd) -> i < length ns) ->
  in_progress ns (ops ++ as_adds rounds) e = add_all (in_progress ns ops e) (parts e rounds).
Proof.
  intros He Q. unfold in_progress. rewrite proj_app, open_app, proj_adds by assumption. unfold add_all. generalize (open_episode (proj (length ns) e ops)). clear.
  induction (parts e rounds) as [|t ts IH]; intro x; [reflexivity|]. cbn [map fold_left]. apply IH.
Qed.

Lemma stats_main ns ops (c c' : coll) t l fuel : coll_ok ns ops c -> collect fuel (by_steps t) (by_episodes t) false c = Ok (c', l) ->
  let st := l_stats l in let N := length (c_envs c) in
  exists rounds, recorded ns ops c (c_mgr c') (l_calls l) rounds
  /\ length (st_returns st) = st_episodes st /\ length (st_lens st) = st_episodes st /\ length (l_hook l) = st_episodes st
  /\ length (enders rounds) = st_episodes st
  /\ st_steps st = list_sum (map (fun e => length (parts e rounds)) (seq 0 N))
  /\ (short_enough ns ops rounds ->
       (forall e, e < N ->
          part e (enders rounds, st_returns st) = map (fun ep => total r0 radd (snd ep)) (episodes ns ops rounds e)
          /\ part e (enders rounds, st_lens st) = map (fun ep => length (fst ep)) (episodes ns ops rounds e)
          /\ part e (enders rounds, map (map (@o_cur _ _ _ _)) (l_hook l)) = map (fun ep => map (fun t => Some (kept last_frame o t)) (fst ep)) (episodes ns ops rounds e))
       /\ list_sum (st_lens st) + list_sum (map (fun e => length (fst (in_progress ns (ops ++ as_adds rounds) e))) (seq 0 N))
          = st_steps st + list_sum (map (fun e => length (fst (in_progress ns ops e))) (seq 0 N))).
Proof.
  intros Hc E st N. destruct (collect_inv ns ops c c' t l fuel Hc E) as (obs & inf & rounds & Hpre & Lo & V & Rm & NE & Rd & Hsame & _ & St & Em & Es & Ee & Fin).
  pose proof (width_le t (length (c_envs c))) as Wl. fold N in V, Wl, St. exists rounds. destruct Hc as (Hpos & Hk & HN & _ & _). fold N in HN.
  split; [rewrite Em; exact (recorded_of_linv ns ops c obs inf _ l rounds Hpre Wl V)|].
  destruct (v_steps_eps _ _ _ _ _ _ _ _ _ _ _ _ _ V) as (E1 & E2 & E3 & E4). fold st in E1, E2, E3. rewrite E1. split; [exact E2|]. split; [exact E3|]. split; [exact E4|].
  split; [symmetry; apply (v_eps _ _ _ _ _ _ _ _ _ _ _ _ _ V)|].
  pose proof (rounds_below _ _ _ _ _ _ _ V) as Q.
  assert (QN : forall rd e, In rd rounds -> In e (fst rd) -> e < N) by (intros rd e A1 A2; specialize (Q rd e A1 A2); lia).
  assert (Ssum : st_steps st = list_sum (map (fun e => length (parts e rounds)) (seq 0 N))).
  { unfold st. rewrite (v_ststeps _ _ _ _ _ _ _ _ _ _ _ _ _ V), (v_steps _ _ _ _ _ _ _ _ _ _ _ _ _ V). apply parts_sum. intros rd Hrd.
    split; [apply (v_rds _ _ _ _ _ _ _ _ _ _ _ _ _ V rd Hrd)|]. intros e He. exact (QN rd e Hrd He). }
  split; [exact Ssum|]. intro Sh.
  assert (F : fits ns ops (width t N) rounds) by (intros e n ep _ Hn Hi; exact (Sh e n ep Hn Hi)). specialize (St F).
  assert (SN : forall e, e < N ->
          part e (enders rounds, st_returns st) = map (fun ep => total r0 radd (snd ep)) (episodes ns ops rounds e)
          /\ part e (enders rounds, st_lens st) = map (fun ep => length (fst ep)) (episodes ns ops rounds e)
          /\ part e (enders rounds, map (map (@o_cur _ _ _ _)) (l_hook l)) = map (fun ep => map (fun t => Some (kept last_frame o t)) (fst ep)) (episodes ns ops rounds e)).
  { intros e He. destruct (Nat.lt_ge_cases e (width t N)) as [Hw|Hw]; [exact (St e Hw)|].
    unfold episodes. rewrite (parts_out _ _ _ Q Hw). rewrite !part_none by (intro Z; apply (enders_below _ _ Q) in Z; lia). auto. }
  split; [exact SN|].
  assert (Hl : list_sum (st_lens st) = list_sum (map (fun e => list_sum (part e (enders rounds, st_lens st))) (seq 0 N))).
  { pose proof (part_sum (fun n => n) N (enders rounds) (st_lens st) (enders_below _ _ QN)) as P. rewrite map_id in P. rewrite P.
    - f_equal. apply map_ext. intro e. rewrite map_id. reflexivity.
    - rewrite E3. apply (v_eps _ _ _ _ _ _ _ _ _ _ _ _ _ V). }
  rewrite Hl, Ssum, <- !sum_add. f_equal. apply map_ext_in. intros e He. apply in_seq in He. destruct (SN e) as (_ & P & _); [lia|]. rewrite P.
  rewrite in_progress_app by (try lia; intros rd i A1 A2; specialize (QN rd i A1 A2); lia).
  pose proof (f_equal (@length _) (finished_rows (in_progress ns ops e) (parts e rounds))) as G. rewrite !app_length in G.
  fold (episodes ns ops rounds e) in G. rewrite (Nat.add_comm (length (parts e rounds))), <- G. f_equal.
  clear. induction (episodes ns ops rounds e) as [|ep eps IH]; [reflexivity|]. cbn [map concat]. rewrite app_length. unfold list_sum in *. cbn [fold_right]. rewrite IH. reflexivity.
Qed.

(** Termination. *)
Section Total.
Variable left : nat -> ES -> nat.
Variable T : nat.
Hypothesis Hreset : forall e s, left e (fst (ereset e s)) <= T.
Hypothesis Hstep : forall e s b, r_done (snd (estep e s b)) = false -> left e (fst (estep e s b)) < left e s.
Hypothesis Hact : forall p ids obs inf hid, length obs = length ids -> length (fst (snd (act_fn p ids obs inf hid))) = length ids.

Lemma total_main ns ops (c : coll) t fuel : coll_ok ns ops c ->
  (forall h, c_hid c = Some h -> length h = length (c_envs c)) ->
  (forall e s n, nth_error (c_envs c) e = Some s -> nth_error ns e = Some n ->
     T + 1 < n /\ left e s <= T /\ length (fst (in_progress ns ops e)) + left e s + 1 < n) ->
  match t with Steps n => (forall b, hook b = false) /\ S n <= fuel * length (c_envs c) | Episodes k => S k * (T + 1) <= fuel end ->
  exists c' l rounds, collect fuel (by_steps t) (by_episodes t) false c = Ok (c', l)
  /\ recorded ns ops c (c_mgr c') (l_calls l) rounds /\ short_enough ns ops rounds.
Proof.
  intros Hc Hh Hcap Hf. pose proof Hc as (Hpos & Hk & HN & Hrun & obs & inf & Hpre & Lo & Li).
  pose proof (width_le t (length (c_envs c))) as Wl. set (w := width t (length (c_envs c))) in *.
  assert (Es : exists l0, start (B := B) (by_steps t) (by_episodes t) c = Ok l0).
  { assert (Er : start (B := B) (by_steps t) (by_episodes t) c = let* obs1 := take obs (seq 0 w) in let* inf1 := take inf (seq 0 w) in
      let* hid := match c_hid c with None => Ok None | Some h => let* h := take h (seq 0 w) in Ok (Some h) end in
      Ok (mkLoop (c_envs c) (c_mgr c) (c_pol c) (seq 0 w) obs1 inf1 hid 0 0 stats0 [] [])).
    { unfold start. destruct t; cbn [by_steps by_episodes bind]; rewrite Hpre; reflexivity. }
    rewrite Er. destruct (take_total obs (seq 0 w)) as [o1 H1]; [intros i Hi; apply in_seq in Hi; lia|]. rewrite H1. cbn [bind].
    destruct (take_total inf (seq 0 w)) as [o2 H2]; [intros i Hi; apply in_seq in Hi; lia|]. rewrite H2. cbn [bind].
    destruct (c_hid c) as [h|]; [|eexists; reflexivity]. specialize (Hh h eq_refl).
    destruct (take_total h (seq 0 w)) as [o3 H3]; [intros i Hi; apply in_seq in Hi; lia|]. rewrite H3. cbn [bind]. eexists; reflexivity. }
  destruct Es as [l0 E0]. destruct (start_inv ns ops c t l0 obs inf Hc Hpre E0) as (V & Hr & He & Hs & Rm & Hw & St & Hes). fold w in V, Hr, Hw, St.
  assert (Hcap' : forall e n, e < w -> nth_error ns e = Some n -> T + 1 < n).
  { intros e n Hew Hn. destruct (nth_error_some (c_envs c) e) as [s Hse]; [lia|]. exact (proj1 (Hcap e s n Hse Hn)). }
  assert (K : ranked ns ops w left T l0 []).
  { split; [intros e n ep _ _ []|]. intros e s n Hew Hse Hn. rewrite Hes in Hse. destruct (Hcap e s n Hse Hn) as (_ & K1 & K2). split; [exact K1|exact K2]. }
  assert (NE : l_ready l0 <> []) by (rewrite Hr; destruct w; [lia|discriminate]).
  assert (Z : exists lf more, iterate fuel (by_steps t) (by_episodes t) l0 = Ok lf /\ linv ns ops (c_envs c) obs w lf ([] ++ more) /\ ranked ns ops w left T lf ([] ++ more)).
  { destruct t as [n|k]; cbn [by_steps by_episodes] in *.
    - destruct Hf as [Hf1 Hf2]. apply (iterate_steps_total r0 radd last_frame o estep ereset act_fn hreset hook ns ops (c_envs c) obs w Hpos Wl ltac:(lia) ltac:(lia) left T Hreset Hstep Hcap' Hk Hact None n Logic.I (fun _ => Hf1) fuel l0 [] V K NE).
      + rewrite Hs, Hr, seq_length. unfold w. cbn [width]. lia.
      + destruct fuel; [cbn in Hf2; lia|lia].
    - apply (iterate_episodes_total r0 radd last_frame o estep ereset act_fn hreset hook ns ops (c_envs c) obs w Hpos Wl ltac:(lia) ltac:(lia) left T Hreset Hstep Hcap' Hk Hact None k Logic.I fuel l0 [] V K); [lia|exact Rm|].
      destruct (nth_error_some (c_envs c) 0) as [s0 Hs0]; [lia|]. exists 0, s0. rewrite Hr, Hes. split; [destruct w; [lia|reflexivity]|]. split; [exact Hs0|].
      destruct (nth_error_some ns 0) as [n0 Hn0]; [lia|]. destruct (Hcap 0 s0 n0 Hs0 Hn0) as (_ & K1 & _). rewrite He, Nat.sub_0_r. cbn [Nat.mul] in Hf. generalize dependent (k * (T + 1)). intros; lia. }
  destruct Z as (lf & more & Ei & Vf & Kf). cbn [app] in *.
  assert (Ec : exists c', collect fuel (by_steps t) (by_episodes t) false c = Ok (c', lf)).
  { assert (Ev : collect fuel (by_steps t) (by_episodes t) false c = collect_ r0 radd last_frame o estep ereset act_fn hreset hook fuel (by_steps t) (by_episodes t) c) by (destruct t; reflexivity).
    rewrite Ev. unfold collect_. rewrite E0. cbn [bind]. rewrite Ei. cbn [bind]. destruct t as [n|k]; cbn [by_steps by_episodes].
    - eexists. reflexivity.
    - unfold reset_env. cbn [c_envs]. destruct (reset_envs_total ereset (seq 0 (length (l_envs lf))) (l_envs lf)) as (es' & xs & Er); [intros i Hi; apply in_seq in Hi; lia|].
      rewrite Er. cbn [bind]. eexists. reflexivity. }
  destruct Ec as [c' Ec]. exists c', lf, more. split; [exact Ec|].
  destruct (collect_inv ns ops c c' t lf fuel Hc Ec) as (_ & _ & _ & _ & _ & _ & _ & _ & _ & _ & _ & _ & Em & _).
  split; [rewrite Em; exact (recorded_of_linv ns ops c obs inf w lf more Hpre Wl Vf)|].
  intros e n ep Hn Hi. destruct (Nat.lt_ge_cases e w) as [Hew|Hew]; [exact (proj1 Kf e n ep Hew Hn Hi)|].
  unfold episodes in Hi. rewrite (parts_out _ _ _ (rounds_below _ _ _ _ _ _ _ Vf) Hew) in Hi. destruct Hi.
Qed.
End Total.

(** Several calls. *)
Lemma answered_app e c1 c2 : answered (Ob := Ob) e (c1 ++ c2) = answered (A := A) (B := B) e c1 ++ answered e c2.
Proof. unfold answered. rewrite map_app. apply parts_app. Qed.
Lemma shown_app e c1 c2 : shown (A := A) (B := B) e (c1 ++ c2) = shown (Ob := Ob) e c1 ++ shown e c2.
Proof. unfold shown. rewrite map_app. apply parts_app. Qed.

Lemma sequence_main ns fuel ts : forall ops (c c' : coll) ls, (forall t, In t ts -> exists n, t = Steps n) -> coll_ok ns ops c ->
  collects (fun a b => collect fuel a b false) ts c = Ok (c', ls) ->
  exists rounds, recorded ns ops c (c_mgr c') (concat (map (@l_calls _ _ _ _ _ _ _ _) ls)) rounds /\ coll_ok ns (ops ++ as_adds rounds) c'
  /\ length (c_envs c') = length (c_envs c)
  /\ forall e s ob, nth_error (c_envs c) e = Some s -> pre_obs c e = Some ob ->
       let acts := answered e (concat (map (@l_calls _ _ _ _ _ _ _ _) ls)) in
       nth_error (c_envs c') e = Some (fst (solo_end estep ereset e s ob acts)) /\ pre_obs c' e = Some (snd (solo_end estep ereset e s ob acts)).
Proof.
  induction ts as [|t ts IH]; intros ops c c' ls Ht Hc E; cbn [collects] in E.
  - injection E as <- <-. exists []. split; [|split; [|split; [reflexivity|]]].
    + split; [cbn; rewrite app_nil_r; apply Hc|]. split; [reflexivity|]. split; [intros rd []|]. intros e s ob _ _. split; reflexivity.
    + cbn. rewrite app_nil_r. exact Hc.
    + intros e s ob Hs Ho. split; [exact Hs|exact Ho].
  - destruct (collect fuel (by_steps t) (by_episodes t) false c) as [[c1 l]|] eqn:E1; [|discriminate].
    destruct (collects (fun a b => collect fuel a b false) ts c1) as [[c2 ls']|] eqn:E2; [|discriminate]. injection E as <- <-.
    destruct (Ht t) as [n ->]; [left; reflexivity|].
    destruct (ready_again ns ops c c1 (Steps n) l fuel Hc E1) as (r1 & Rec1 & Hc1 & Le1 & N1).
    destruct (IH _ c1 c2 ls' (fun t Hi => Ht t (or_intror Hi)) Hc1 E2) as (r2 & Rec2 & Hc2 & Le2 & N2).
    assert (Ea : ops ++ as_adds (r1 ++ r2) = (ops ++ as_adds r1) ++ as_adds r2) by (rewrite as_adds_app, app_assoc; reflexivity).
    exists (r1 ++ r2). cbn [map concat]. rewrite Ea. split; [|split; [exact Hc2|split; [congruence|]]].
    + destruct Rec1 as (_ & B1 & C1 & D1). destruct Rec2 as (A2 & B2 & C2 & D2). split; [rewrite Ea; exact A2|].
      split; [rewrite !map_app, B1, B2; reflexivity|]. split; [intros rd Hrd; apply in_app_or in Hrd; destruct Hrd as [Hrd|Hrd]; [apply C1, Hrd|rewrite <- Le1; apply C2, Hrd]|].
      intros e s ob Hs Ho. destruct (D1 e s ob Hs Ho) as [P1 P2]. destruct (N1 e s ob Hs Ho) as [Q1 Q2]. destruct (D2 e _ _ Q1 Q2) as [P3 P4].
      rewrite answered_app, shown_app, parts_app, solo_app, map_app, P1, P3, <- P1, <- P3. split; [reflexivity|]. rewrite P2, P4. reflexivity.
    + intros e s ob Hs Ho. cbv zeta. destruct (N1 e s ob Hs Ho) as [Q1 Q2]. destruct (N2 e _ _ Q1 Q2) as [Q3 Q4]. rewrite answered_app, solo_end_app. split; [exact Q3|exact Q4].
Qed.
End Collect.

(** collect(n_episode=k+1) returns exactly k+1 finished episodes.  min(N, k+1) environments take part;
    the last row of each of them ends an episode, and so does the last row of an environment that is
    absent from a round. *)
Lemma C28_exact_lemma : forall (Ob A B Inf R H ES PS : Type) (r0 : R) (radd : R -> R -> R) (last_frame : Ob -> Ob) (o : opts)
  (estep : nat -> ES -> B -> ES * sres Ob Inf R) (ereset : nat -> ES -> ES * (Ob * Inf))
  (act_fn : PS -> list nat -> list Ob -> list Inf -> option (list H) -> PS * (list (A * B) * option (list H)))
  (hreset : list nat -> list H -> list H) (hook : list (row_out Ob A Inf R) -> bool)
  ns ops (c : coll Ob A Inf R H ES PS) c' l fuel k,
  coll_ok r0 radd last_frame o ns ops c -> collect r0 radd last_frame o estep ereset act_fn hreset hook fuel None (Some (S k)) false c = Ok (c', l) ->
  exists rounds, recorded r0 radd last_frame o estep ereset ns ops c (c_mgr c') (l_calls l) rounds
  /\ st_episodes (l_stats l) = S k /\ c_episode c' = c_episode c + S k
  /\ let w := Nat.min (length (c_envs c)) (S k) in
     num_ends w rounds = S k
  /\ (forall e, w <= e -> parts e rounds = [])
  /\ (forall e, e < w -> exists ts t, parts e rounds = ts ++ [t] /\ ends t = true)
  /\ (forall pre rd post e, rounds = pre ++ rd :: post -> e < w -> ~ In e (fst rd) -> exists ts t, parts e pre = ts ++ [t] /\ ends t = true).
Proof. intros. eapply exact_main; eassumption. Qed.

(** A collection ends, however the episode lengths differ, if every episode has at most [T] further
    steps after its first, [left e s] bounding those of environment [e] in state [s]; the episodes are
    then all shorter than their sub-buffers. *)
Lemma C28_terminates_partial_lemma : forall (Ob A B Inf R H ES PS : Type) (r0 : R) (radd : R -> R -> R) (last_frame : Ob -> Ob) (o : opts)
  (estep : nat -> ES -> B -> ES * sres Ob Inf R) (ereset : nat -> ES -> ES * (Ob * Inf))
  (act_fn : PS -> list nat -> list Ob -> list Inf -> option (list H) -> PS * (list (A * B) * option (list H)))
  (hreset : list nat -> list H -> list H) (hook : list (row_out Ob A Inf R) -> bool)
  ns ops (c : coll Ob A Inf R H ES PS) (left : nat -> ES -> nat) T fuel k,
  (forall e s, left e (fst (ereset e s)) <= T) ->
  (forall e s b, r_done (snd (estep e s b)) = false -> left e (fst (estep e s b)) < left e s) ->
  (forall p ids obs inf hid, length obs = length ids -> length (fst (snd (act_fn p ids obs inf hid))) = length ids) ->
  coll_ok r0 radd last_frame o ns ops c -> (forall h, c_hid c = Some h -> length h = length (c_envs c)) ->
  (forall e s n, nth_error (c_envs c) e = Some s -> nth_error ns e = Some n ->
     T + 1 < n /\ left e s <= T /\ length (fst (in_progress ns ops e)) + left e s + 1 < n) ->
  S k * (T + 1) <= fuel ->
  exists c' l rounds, collect r0 radd last_frame o estep ereset act_fn hreset hook fuel None (Some (S k)) false c = Ok (c', l)
  /\ recorded r0 radd last_frame o estep ereset ns ops c (c_mgr c') (l_calls l) rounds /\ short_enough ns ops rounds.
Proof. intros until k. intros H1 H2 H3 H4 H5 H6 H7. exact (total_main r0 radd last_frame o estep ereset act_fn hreset hook left T H1 H2 H3 ns ops c (Episodes k) fuel H4 H5 H6 H7). Qed.

(** collect(n_step=n+1) on N environments makes ceil((n+1)/N) rounds with all environments. *)
Lemma C29_rounds_lemma : forall (Ob A B Inf R H ES PS : Type) (r0 : R) (radd : R -> R -> R) (last_frame : Ob -> Ob) (o : opts)
  (estep : nat -> ES -> B -> ES * sres Ob Inf R) (ereset : nat -> ES -> ES * (Ob * Inf))
  (act_fn : PS -> list nat -> list Ob -> list Inf -> option (list H) -> PS * (list (A * B) * option (list H)))
  (hreset : list nat -> list H -> list H) (hook : list (row_out Ob A Inf R) -> bool)
  ns ops (c : coll Ob A Inf R H ES PS) c' l fuel n,
  coll_ok r0 radd last_frame o ns ops c -> collect r0 radd last_frame o estep ereset act_fn hreset hook fuel (Some (S n)) None false c = Ok (c', l) ->
  let N := length (c_envs c) in
  exists rounds, recorded r0 radd last_frame o estep ereset ns ops c (c_mgr c') (l_calls l) rounds
  /\ (forall rd, In rd rounds -> fst rd = seq 0 N)
  /\ N * (length rounds - 1) < S n <= N * length rounds
  /\ st_steps (l_stats l) = N * length rounds /\ c_step c' = c_step c + N * length rounds
  /\ st_episodes (l_stats l) = num_ends N rounds /\ c_episode c' = c_episode c + num_ends N rounds.
Proof. intros. eapply rounds_main; eassumption. Qed.

Lemma C29_terminates_partial_lemma : forall (Ob A B Inf R H ES PS : Type) (r0 : R) (radd : R -> R -> R) (last_frame : Ob -> Ob) (o : opts)
  (estep : nat -> ES -> B -> ES * sres Ob Inf R) (ereset : nat -> ES -> ES * (Ob * Inf))
  (act_fn : PS -> list nat -> list Ob -> list Inf -> option (list H) -> PS * (list (A * B) * option (list H)))
  (hreset : list nat -> list H -> list H) (hook : list (row_out Ob A Inf R) -> bool)
  ns ops (c : coll Ob A Inf R H ES PS) (left : nat -> ES -> nat) T fuel n,
  (forall e s, left e (fst (ereset e s)) <= T) ->
  (forall e s b, r_done (snd (estep e s b)) = false -> left e (fst (estep e s b)) < left e s) ->
  (forall p ids obs inf hid, length obs = length ids -> length (fst (snd (act_fn p ids obs inf hid))) = length ids) ->
  coll_ok r0 radd last_frame o ns ops c -> (forall h, c_hid c = Some h -> length h = length (c_envs c)) ->
  (forall e s n, nth_error (c_envs c) e = Some s -> nth_error ns e = Some n ->
     T + 1 < n /\ left e s <= T /\ length (fst (in_progress ns ops e)) + left e s + 1 < n) ->
  (forall b, hook b = false) -> S n <= fuel * length (c_envs c) ->
  exists c' l rounds, collect r0 radd last_frame o estep ereset act_fn hreset hook fuel (Some (S n)) None false c = Ok (c', l)
  /\ recorded r0 radd last_frame o estep ereset ns ops c (c_mgr c') (l_calls l) rounds /\ short_enough ns ops rounds.
Proof. intros until n. intros H1 H2 H3 H4 H5 H6 H7 H8. exact (total_main r0 radd last_frame o estep ereset act_fn hreset hook left T H1 H2 H3 ns ops c (Steps n) fuel H4 H5 H6 (conj H7 H8)). Qed.

(** The rows of sub-buffer [e] that a call adds are those of environment [e] on its own with the
    actions that were computed from its observations; afterwards the collector is ready for another
    call, with the state and observation where the environment is, or those of a fresh reset after an
    n_episode call. *)
Lemma C30_stored_lemma : forall (Ob A B Inf R H ES PS : Type) (r0 : R) (radd : R -> R -> R) (last_frame : Ob -> Ob) (o : opts)
  (estep : nat -> ES -> B -> ES * sres Ob Inf R) (ereset : nat -> ES -> ES * (Ob * Inf))
  (act_fn : PS -> list nat -> list Ob -> list Inf -> option (list H) -> PS * (list (A * B) * option (list H)))
  (hreset : list nat -> list H -> list H) (hook : list (row_out Ob A Inf R) -> bool)
  ns ops (c : coll Ob A Inf R H ES PS) c' l fuel t,
  coll_ok r0 radd last_frame o ns ops c -> collect r0 radd last_frame o estep ereset act_fn hreset hook fuel (by_steps t) (by_episodes t) false c = Ok (c', l) ->
  exists rounds, recorded r0 radd last_frame o estep ereset ns ops c (c_mgr c') (l_calls l) rounds
  /\ coll_ok r0 radd last_frame o ns (ops ++ as_adds rounds) c' /\ length (c_envs c') = length (c_envs c)
  /\ (forall e, e < length ns -> proj (length ns) e (ops ++ as_adds rounds) = proj (length ns) e ops ++ map OpAdd (parts e rounds))
  /\ forall e s ob, nth_error (c_envs c) e = Some s -> pre_obs c e = Some ob ->
       let x := solo_end estep ereset e s ob (answered e (l_calls l)) in
       match t with
       | Steps _ => nth_error (c_envs c') e = Some (fst x) /\ pre_obs c' e = Some (snd x)
       | Episodes _ => nth_error (c_envs c') e = Some (fst (ereset e (fst x))) /\ pre_obs c' e = Some (fst (snd (ereset e (fst x))))
       end.
Proof.
  intros Ob A B Inf R H ES PS r0 radd last_frame o estep ereset act_fn hreset hook ns ops c c' l fuel t Hc E.
  destruct (ready_again r0 radd last_frame o estep ereset act_fn hreset hook ns ops c c' t l fuel Hc E) as (rounds & Rec & Hc' & Le & Nx).
  exists rounds. split; [exact Rec|]. split; [exact Hc'|]. split; [exact Le|]. split.
  - intros e He. destruct Hc as (_ & _ & HN & _). rewrite proj_app, proj_adds; [reflexivity|exact He|].
    intros rd i Hrd Hi. destruct Rec as (_ & _ & Q & _). destruct (Q rd Hrd) as (_ & _ & Q'). specialize (Q' i Hi). lia.
  - intros e s ob Hs Ho. destruct t; exact (Nx e s ob Hs Ho).
Qed.

(** Several n_step collections are one stream for every environment. *)
Lemma C30_sequence_lemma : forall (Ob A B Inf R H ES PS : Type) (r0 : R) (radd : R -> R -> R) (last_frame : Ob -> Ob) (o : opts)
  (estep : nat -> ES -> B -> ES * sres Ob Inf R) (ereset : nat -> ES -> ES * (Ob * Inf))
  (act_fn : PS -> list nat -> list Ob -> list Inf -> option (list H) -> PS * (list (A * B) * option (list H)))
  (hreset : list nat -> list H -> list H) (hook : list (row_out Ob A Inf R) -> bool)
  ns ops (c : coll Ob A Inf R H ES PS) c' ls fuel ts,
  (forall t, In t ts -> exists n, t = Steps n) -> coll_ok r0 radd last_frame o ns ops c ->
  collects (fun a b => collect r0 radd last_frame o estep ereset act_fn hreset hook fuel a b false) ts c = Ok (c', ls) ->
  exists rounds, recorded r0 radd last_frame o estep ereset ns ops c (c_mgr c') (concat (map (@l_calls _ _ _ _ _ _ _ _) ls)) rounds
  /\ coll_ok r0 radd last_frame o ns (ops ++ as_adds rounds) c'.
Proof.
  intros until ts. intros H1 H2 H3. edestruct (@sequence_main) as (rounds & K1 & K2 & _); [exact H1|exact H2|exact H3|]. exists rounds. split; [exact K1|exact K2].
Qed.

(** Statistics: as many returns, lengths and hook calls as episodes; if every finished episode is
    shorter than its sub-buffer they are, per environment, those of its finished episodes, and the
    lengths with the unfinished steps add up to the number of steps. *)
Lemma C31_stats_partial_lemma : forall (Ob A B Inf R H ES PS : Type) (r0 : R) (radd : R -> R -> R) (last_frame : Ob -> Ob) (o : opts)
  (estep : nat -> ES -> B -> ES * sres Ob Inf R) (ereset : nat -> ES -> ES * (Ob * Inf))
  (act_fn : PS -> list nat -> list Ob -> list Inf -> option (list H) -> PS * (list (A * B) * option (list H)))
  (hreset : list nat -> list H -> list H) (hook : list (row_out Ob A Inf R) -> bool)
  ns ops (c : coll Ob A Inf R H ES PS) c' l fuel t,
  coll_ok r0 radd last_frame o ns ops c -> collect r0 radd last_frame o estep ereset act_fn hreset hook fuel (by_steps t) (by_episodes t) false c = Ok (c', l) ->
  let st := l_stats l in let N := length (c_envs c) in
  exists rounds, recorded r0 radd last_frame o estep ereset ns ops c (c_mgr c') (l_calls l) rounds
  /\ length (st_returns st) = st_episodes st /\ length (st_lens st) = st_episodes st /\ length (l_hook l) = st_episodes st
  /\ length (enders rounds) = st_episodes st
  /\ st_steps st = list_sum (map (fun e => length (parts e rounds)) (seq 0 N))
  /\ (short_enough ns ops rounds ->
       (forall e, e < N ->
          part e (enders rounds, st_returns st) = map (fun ep => total r0 radd (snd ep)) (episodes ns ops rounds e)
          /\ part e (enders rounds, st_lens st) = map (fun ep => length (fst ep)) (episodes ns ops rounds e)
          /\ part e (enders rounds, map (map (@o_cur _ _ _ _)) (l_hook l)) = map (fun ep => map (fun t => Some (kept last_frame o t)) (fst ep)) (episodes ns ops rounds e))
       /\ list_sum (st_lens st) + list_sum (map (fun e => length (fst (in_progress ns (ops ++ as_adds rounds) e))) (seq 0 N))
          = st_steps st + list_sum (map (fun e => length (fst (in_progress ns ops e))) (seq 0 N))).
Proof. intros. eapply stats_main; eassumption. Qed.

(** ** What is false *)
Lemma demo_is_ok ns lens : (forall n, In n ns -> 0 < n) -> 0 < length lens <= length ns -> demo_ok ns [] (demo_coll ns lens).
Proof.
  intros H1 H2. unfold demo_ok, coll_ok, demo_coll. cbn [c_envs c_mgr c_pre]. rewrite map_length.
  split; [exact H1|]. split; [cbn; lia|]. split; [exact H2|]. split; [exists []; reflexivity|]. eexists _, _. split; [reflexivity|]. rewrite !map_length. auto.
Qed.
Ltac demo_ok_tac := apply demo_is_ok; [cbn; intuition lia|cbn; lia].

(** The second episode fills the sub-buffer and does not start at its first slot: its indices are
    looked up as the range from a slot to itself, which is refused. *)
Lemma C28_long_episode_refuted_lemma : exists ns (c : coll nat unit unit Z nat (nat * list nat) unit),
  demo_ok ns [] c /\ forall fuel, 4 <= fuel -> demo_collect HArray fuel None (Some 2) false c = Err ValueError.
Proof.
  exists [3], (demo_coll [3] [[1; 3; 1; 1]]). split; [demo_ok_tac|]. intros fuel Hf.
  destruct fuel as [|[|[|[|fuel]]]]; try lia. vm_compute. reflexivity.
Qed.

(** C29. The same happens when a number of steps is asked for: the call does not return. *)
Lemma C29_long_episode_refuted_lemma : exists ns (c : coll nat unit unit Z nat (nat * list nat) unit),
  demo_ok ns [] c /\ forall fuel, 4 <= fuel -> demo_collect HArray fuel (Some 4) None false c = Err ValueError.
Proof.
  exists [3], (demo_coll [3] [[1; 3; 1; 1]]). split; [demo_ok_tac|]. intros fuel Hf.
  destruct fuel as [|[|[|[|fuel]]]]; try lia. vm_compute. reflexivity.
Qed.

(** An episode of 3 steps in a sub-buffer of 2: the return is of the whole episode, the length and
    what the hook is given are of its last step. *)
Lemma C31_long_episode_refuted_lemma : exists ns (c : coll nat unit unit Z nat (nat * list nat) unit) c' l,
  demo_ok ns [] c /\ demo_collect HArray 5 None (Some 1) false c = Ok (c', l)
  /\ st_steps (l_stats l) = 3 /\ st_returns (l_stats l) = [3%Z] /\ st_lens (l_stats l) = [1]
  /\ map (map (fun r => option_map (@s_obs _ _ _ _) (o_cur r))) (l_hook l) = [[Some 2]].
Proof.
  exists [2], (demo_coll [2] [[3; 1; 1]]). eexists _, _. split; [demo_ok_tac|]. split; [vm_compute; reflexivity|]. repeat split.
Qed.

(** *** Hidden states *)
Lemma reset_hidden_nth {H} k (zero : H -> H) idx h j x : k <> HTensor -> nth_error h j = Some x ->
  nth_error (reset_hidden k zero idx h) j = Some (if existsb (Nat.eqb j) idx then zero x else x).
Proof.
  intros Hk Hx. assert (G : nth_error (map (fun jx => if existsb (Nat.eqb (fst jx)) idx then zero (snd jx) else snd jx) (combine (seq 0 (length h)) h)) j = Some (if existsb (Nat.eqb j) idx then zero x else x)).
  { rewrite nth_error_map, (nth_error_combine _ _ j j x); [reflexivity| |exact Hx]. rewrite seq_nth_error by (eapply nth_error_lt; eauto). reflexivity. }
  destruct k; [exact G|contradiction|exact G].
Qed.

(** A row of a hidden state whose environment finished its episode is reset, the others are kept. *)
Lemma C97_hidden_partial_lemma : forall (Ob A B Inf R H ES PS : Type) (r0 : R) (radd : R -> R -> R) (last_frame : Ob -> Ob) (o : opts)
  (estep : nat -> ES -> B -> ES * sres Ob Inf R) (ereset : nat -> ES -> ES * (Ob * Inf))
  (act_fn : PS -> list nat -> list Ob -> list Inf -> option (list H) -> PS * (list (A * B) * option (list H)))
  (hook : list (row_out Ob A Inf R) -> bool) k (zero : H -> H) (l l' : loop Ob A B Inf R H ES PS) h,
  k <> HTensor -> NoDup (l_ready l) -> length (l_obs l) = length (l_ready l) ->
  snd (snd (act_fn (l_pol l) (l_ready l) (l_obs l) (l_inf l) (l_hid l))) = Some h ->
  iter r0 radd last_frame o estep ereset act_fn (reset_hidden k zero) hook None l = Ok l' ->
  exists rows reps h', m_add r0 radd last_frame o (l_mgr l) (Some (map Z.of_nat (l_ready l))) rows = Ok (l_mgr l', reps)
  /\ l_hid l' = Some h'
  /\ forall j t x, nth_error rows j = Some t -> nth_error h j = Some x -> nth_error h' j = Some (if ends t then zero x else x).
Proof.
  intros Ob A B Inf R H ES PS r0 radd last_frame o estep ereset act_fn hook k zero l l' h Hk ND LO Hh E. unfold iter in E.
  destruct (act_fn (l_pol l) (l_ready l) (l_obs l) (l_inf l) (l_hid l)) as [p [acts hid]]. cbn [snd] in Hh. subst hid.
  destruct (step_envs estep (l_envs l) (l_ready l) (map snd acts)) as [[es rs]|] eqn:E1; [|discriminate]. cbn [bind] in E.
  destruct (m_add r0 radd last_frame o (l_mgr l) (Some (map Z.of_nat (l_ready l))) (rows_of (l_obs l) (map fst acts) rs)) as [[m reps]|] eqn:E2; [|discriminate]. cbn [bind] in E.
  destruct (step_envs_spec estep _ _ _ _ _ ND E1) as (L1 & L2 & _). rewrite map_length in L1.
  assert (Done : forall j t, nth_error (rows_of (l_obs l) (map fst acts) rs) j = Some t -> nth j (map (@r_done _ _ _) rs) false = ends t /\ j < length rs).
  { intros j t Hj. assert (Lj : j < length rs).
    { apply nth_error_lt in Hj. rewrite rows_of_length in Hj by (rewrite ?map_length; congruence). lia. }
    destruct (nth_error_some rs j Lj) as [r Hr]. destruct (nth_error_some (l_obs l) j) as [ob Hob]; [lia|]. destruct (nth_error_some acts j) as [[a b] Hab]; [lia|].
    assert (Ha : nth_error (map fst acts) j = Some a) by (rewrite nth_error_map, Hab; reflexivity).
    rewrite (rows_of_nth _ _ _ _ _ _ _ Hob Ha Hr) in Hj. injection Hj as <-. split; [|exact Lj].
    apply nth_error_nth. rewrite nth_error_map, Hr. reflexivity. }
  exists (rows_of (l_obs l) (map fst acts) rs), reps.
  destruct (length (filter (fun b : bool => b) (map (@r_done _ _ _) rs)) =? 0) eqn:E3.
  - injection E as <-. exists h. split; [exact E2|]. split; [reflexivity|]. intros j t x Ht Hx. destruct (Done j t Ht) as [D1 D2].
    assert (Z : ends t = false); [|rewrite Z; exact Hx]. rewrite <- D1. apply Nat.eqb_eq, length_zero_iff_nil in E3.
    destruct (nth j (map (@r_done _ _ _) rs) false) eqn:Q; [|reflexivity]. exfalso.
    assert (In true (filter (fun b : bool => b) (map (@r_done _ _ _) rs))); [|rewrite E3 in *; contradiction].
    apply filter_In. split; [|reflexivity]. rewrite <- Q. apply nth_In. rewrite map_length. exact D2.
  - destruct (take reps (where_true (map (@r_done _ _ _) rs))) as [rd|]; [|discriminate]. cbn [bind] in E.
    destruct (take (l_ready l) (where_true (map (@r_done _ _ _) rs))) as [dg|]; [|discriminate]. cbn [bind] in E.
    destruct (reset_envs ereset es dg) as [[es' rst]|]; [|discriminate]. cbn [bind] in E.
    destruct (foldM _ rd _) as [[st hooks]|]; [|discriminate]. cbn [bind option_map] in E. injection E as <-.
    eexists. split; [exact E2|]. split; [reflexivity|]. intros j t x Ht Hx. destruct (Done j t Ht) as [D1 D2]. rewrite (reset_hidden_nth _ _ _ _ _ _ Hk Hx). f_equal.
    replace (existsb (Nat.eqb j) (where_true (map (@r_done _ _ _) rs))) with (ends t); [reflexivity|]. rewrite <- D1.
    destruct (nth j (map (@r_done _ _ _) rs) false) eqn:Q; symmetry.
    + apply existsb_exists. exists j. split; [|apply Nat.eqb_refl]. unfold where_true. apply filter_In. split; [|exact Q]. apply in_seq. rewrite map_length. lia.
    + destruct (existsb (Nat.eqb j) (where_true (map (@r_done _ _ _) rs))) eqn:Q2; [|reflexivity]. apply existsb_exists in Q2. destruct Q2 as (j' & K1 & K2).
      apply Nat.eqb_eq in K2. subst j'. unfold where_true in K1. apply filter_In in K1. destruct K1 as [_ K1]. congruence.
Qed.

(** A hidden state that is a tensor is not reset: after 2 episodes of 2 steps the policy has seen 4
    steps instead of none. *)
Lemma C97_tensor_refuted_lemma : exists ns (c : coll nat unit unit Z nat (nat * list nat) unit) c' l,
  demo_ok ns [] c /\ demo_collect HTensor 5 (Some 4) None false c = Ok (c', l)
  /\ st_lens (l_stats l) = [2; 2] /\ c_hid c' = Some [4]
  /\ exists c2 l2, demo_collect HArray 5 (Some 4) None false c = Ok (c2, l2) /\ c_hid c2 = Some [0].
Proof.
  exists [9], (demo_coll [9] [[2; 2; 2]]). eexists _, _. split; [demo_ok_tac|]. split; [vm_compute; reflexivity|]. split; [reflexivity|]. split; [reflexivity|].
  eexists _, _. split; [vm_compute; reflexivity|reflexivity].
Qed.

(** *** Arguments *)
Lemma C98_neither_partial_lemma : forall (Ob A B Inf R H ES PS : Type) (r0 : R) (radd : R -> R -> R) (last_frame : Ob -> Ob) (o : opts)
  (estep : nat -> ES -> B -> ES * sres Ob Inf R) (ereset : nat -> ES -> ES * (Ob * Inf))
  (act_fn : PS -> list nat -> list Ob -> list Inf -> option (list H) -> PS * (list (A * B) * option (list H)))
  (hreset : list nat -> list H -> list H) (hook : list (row_out Ob A Inf R) -> bool)
  (c : coll Ob A Inf R H ES PS) fuel r n_step n_episode,
  (n_step = None \/ n_step = Some 0) -> (n_episode = None \/ n_episode = Some 0) ->
  collect r0 radd last_frame o estep ereset act_fn hreset hook fuel n_step n_episode r c = Err ValueError.
Proof. intros until n_episode. intros [-> | ->] [-> | ->]; reflexivity. Qed.
(** Both n_step and n_episode: accepted; no episode is collected although one was asked for. *)
Lemma C98_both_refuted_lemma : exists ns (c : coll nat unit unit Z nat (nat * list nat) unit) c' l,
  demo_ok ns [] c /\ demo_collect HArray 5 (Some 3) (Some 1) false c = Ok (c', l) /\ st_episodes (l_stats l) = 0 /\ st_steps (l_stats l) = 4.
Proof. exists [9; 9], (demo_coll [9; 9] [[3; 3]; [3; 3]]). eexists _, _. split; [demo_ok_tac|]. split; [vm_compute; reflexivity|]. split; reflexivity. Qed.
(** n_step=0 and n_episode=1: all environments take part and two episodes are collected. *)
Lemma C98_zero_steps_refuted_lemma : exists ns (c : coll nat unit unit Z nat (nat * list nat) unit) c' l,
  demo_ok ns [] c /\ demo_collect HArray 5 (Some 0) (Some 1) false c = Ok (c', l) /\ st_episodes (l_stats l) = 2.
Proof. exists [9; 9], (demo_coll [9; 9] [[3; 3]; [3; 3]]). eexists _, _. split; [demo_ok_tac|]. split; [vm_compute; reflexivity|]. reflexivity. Qed.

(** *** Resets *)
Lemma reset_ok {Ob A Inf R H ES PS} r0 radd last_frame o (ereset : nat -> ES -> ES * (Ob * Inf)) ns ops (c c1 : coll Ob A Inf R H ES PS) :
  coll_ok r0 radd last_frame o ns ops c -> reset r0 ereset false c = Ok c1 -> coll_ok r0 radd last_frame o ns ops c1 /\ length (c_envs c1) = length (c_envs c).
Proof.
  intros (H1 & H2 & H3 & H4 & _) E. unfold reset, reset_env in E.
  destruct (reset_envs ereset (c_envs c) (seq 0 (length (c_envs c)))) as [[es xs]|] eqn:Ez; [|discriminate]. cbn in E. injection E as <-.
  destruct (reset_envs_spec ereset _ _ _ _ (seq_NoDup _ _) Ez) as (W1 & W2 & _). rewrite seq_length in W1. unfold coll_ok. cbn [c_envs c_mgr c_pre]. rewrite W2.
  split; [|reflexivity]. split; [exact H1|]. split; [exact H2|]. split; [exact H3|]. split; [exact H4|]. eexists _, _. split; [reflexivity|]. rewrite !map_length. auto.
Qed.

(** With no episode in progress in the buffer, a call (with or without reset_before_collect) reports
    the lengths of whole episodes of the environments, and the lengths together with the unfinished
    steps add up to the number of steps. *)
Lemma C99_whole_partial_lemma : forall (Ob A B Inf R H ES PS : Type) (r0 : R) (radd : R -> R -> R) (last_frame : Ob -> Ob) (o : opts)
  (estep : nat -> ES -> B -> ES * sres Ob Inf R) (ereset : nat -> ES -> ES * (Ob * Inf))
  (act_fn : PS -> list nat -> list Ob -> list Inf -> option (list H) -> PS * (list (A * B) * option (list H)))
  (hreset : list nat -> list H -> list H) (hook : list (row_out Ob A Inf R) -> bool)
  ns ops (c : coll Ob A Inf R H ES PS) c' l fuel t r,
  coll_ok r0 radd last_frame o ns ops c -> (forall e, e < length (c_envs c) -> in_progress ns ops e = ([], [])) ->
  collect r0 radd last_frame o estep ereset act_fn hreset hook fuel (by_steps t) (by_episodes t) r c = Ok (c', l) ->
  let st := l_stats l in let N := length (c_envs c) in
  exists c1 rounds, (if r then reset r0 ereset false c = Ok c1 else c1 = c)
  /\ recorded r0 radd last_frame o estep ereset ns ops c1 (c_mgr c') (l_calls l) rounds
  /\ (short_enough ns ops rounds ->
       (forall e, e < N -> part e (enders rounds, st_lens st) = map (fun ep => length (fst ep)) (finished ([], []) (parts e rounds)))
       /\ list_sum (st_lens st) + list_sum (map (fun e => length (fst (in_progress ns (ops ++ as_adds rounds) e))) (seq 0 N)) = st_steps st).
Proof.
  intros Ob A B Inf R H ES PS r0 radd last_frame o estep ereset act_fn hreset hook ns ops c c' l fuel t r Hc H0 E st N.
  assert (Z : exists c1, (if r then reset r0 ereset false c = Ok c1 else c1 = c) /\ coll_ok r0 radd last_frame o ns ops c1 /\ length (c_envs c1) = length (c_envs c)
     /\ collect r0 radd last_frame o estep ereset act_fn hreset hook fuel (by_steps t) (by_episodes t) false c1 = Ok (c', l)).
  { destruct r; [|exists c; auto]. unfold collect in *. destruct (validate (by_steps t) (by_episodes t)); [|discriminate]. cbn [bind] in *.
    destruct (reset r0 ereset false c) as [c1|] eqn:Er; [|discriminate]. cbn [bind] in E. exists c1. split; [reflexivity|]. destruct (reset_ok _ _ _ _ _ _ _ _ _ Hc Er). auto. }
  destruct Z as (c1 & Z1 & Z2 & Z3 & Z4). destruct (stats_main r0 radd last_frame o estep ereset act_fn hreset hook ns ops c1 c' t l fuel Z2 Z4) as (rounds & Rec & _ & _ & _ & _ & _ & St).
  exists c1, rounds. split; [exact Z1|]. split; [exact Rec|]. intro Sh. destruct (St Sh) as [S1 S2]. fold st in S1, S2. rewrite Z3 in S1, S2. fold N in S1, S2.
  split.
  - intros e He. destruct (S1 e He) as (_ & P & _). rewrite P. unfold episodes. rewrite H0 by exact He. reflexivity.
  - rewrite S2. rewrite (sum_zero (fun e => length (fst (in_progress ns ops e)))); [lia|]. intros e He. apply in_seq in He. rewrite H0 by lia. reflexivity.
Qed.

(** Calls with n_episode >= N, and calls after which all episodes are over, keep it that way. *)
Lemma C99_episodes_partial_lemma : forall (Ob A B Inf R H ES PS : Type) (r0 : R) (radd : R -> R -> R) (last_frame : Ob -> Ob) (o : opts)
  (estep : nat -> ES -> B -> ES * sres Ob Inf R) (ereset : nat -> ES -> ES * (Ob * Inf))
  (act_fn : PS -> list nat -> list Ob -> list Inf -> option (list H) -> PS * (list (A * B) * option (list H)))
  (hreset : list nat -> list H -> list H) (hook : list (row_out Ob A Inf R) -> bool)
  ns ops (c : coll Ob A Inf R H ES PS) c' l fuel k,
  coll_ok r0 radd last_frame o ns ops c -> length (c_envs c) <= S k -> collect r0 radd last_frame o estep ereset act_fn hreset hook fuel None (Some (S k)) false c = Ok (c', l) ->
  exists rounds, coll_ok r0 radd last_frame o ns (ops ++ as_adds rounds) c'
  /\ forall e, e < length (c_envs c') -> in_progress ns (ops ++ as_adds rounds) e = ([], []).
Proof.
  intros Ob A B Inf R H ES PS r0 radd last_frame o estep ereset act_fn hreset hook ns ops c c' l fuel k Hc Hk E.
  destruct (collect_inv r0 radd last_frame o estep ereset act_fn hreset hook ns ops c c' (Episodes k) l fuel Hc E) as (obs & inf & rounds & Hpre & Lo & V & Rm & NE & Rd & _ & _ & _ & Em & Es & Ee & Fin).
  cbn [by_steps by_episodes width] in *. change (reached None (l_steps l) || reached (Some (S k)) (l_eps l)) with (reached (Some (S k)) (l_eps l)) in Rd.
  destruct (none_left k l Rm Rd) as [L0 L1].
  destruct (recorded_of_linv r0 radd last_frame o estep ereset ns ops c obs inf _ l rounds Hpre (Nat.le_min_l _ _) V) as (Hrun & _ & Q & _).
  destruct Hc as (Hpos & Hs & HN & _ & _). pose proof (v_envlen _ _ _ _ _ _ _ _ _ _ _ _ _ V) as Le.
  destruct Fin as ([es' xs] & F0 & F1 & F2). cbn [fst snd] in *. destruct (reset_envs_spec ereset _ _ _ _ (seq_NoDup _ _) F0) as (W1 & W2 & W3 & _). rewrite seq_length in W1.
  exists rounds. split.
  - unfold CollectSpec.coll_ok. rewrite F1, W2, Le, Em. split; [exact Hpos|]. split; [exact Hs|]. split; [exact HN|]. split; [exact Hrun|].
    exists (map fst xs), (map snd xs). rewrite !map_length, W1, Le. auto.
  - intros e He. rewrite F1, W2, Le in He. rewrite in_progress_app; [|lia|].
    + destruct (v_drop _ _ _ _ _ _ _ _ _ _ _ _ _ V e) as (ts & t & P1 & P2); [lia|rewrite L0; intros []|]. rewrite P1, add_all_app. cbn. rewrite P2. reflexivity.
    + intros rd i Hrd Hi. destruct (Q rd Hrd) as (_ & _ & Q3). specialize (Q3 i Hi). lia.
Qed.

(** reset_before_collect in the middle of an episode: the step of the abandoned episode is counted
    with the new episode, whose 2 steps are reported as 3. *)
Lemma C99_reset_refuted_lemma : exists ns (c : coll nat unit unit Z nat (nat * list nat) unit) c1 l1 c2 l2,
  demo_ok ns [] c /\ demo_collect HArray 5 (Some 1) None false c = Ok (c1, l1) /\ st_episodes (l_stats l1) = 0
  /\ demo_collect HArray 5 None (Some 1) true c1 = Ok (c2, l2)
  /\ st_steps (l_stats l2) = 2 /\ st_returns (l_stats l2) = [3%Z] /\ st_lens (l_stats l2) = [3]
  /\ map (map (fun r => option_map (@s_obs _ _ _ _) (o_cur r))) (l_hook l2) = [[Some 0; Some 0; Some 1]].
Proof.
  exists [9], (demo_coll [9] [[3; 2; 2]]). eexists _, _, _, _. split; [demo_ok_tac|]. split; [vm_compute; reflexivity|]. split; [reflexivity|].
  split; [vm_compute; reflexivity|]. repeat split.
Qed.
(** The same without any explicit reset: an n_episode call resets the environments it did not use. *)
Lemma C99_unused_env_refuted_lemma : exists ns (c : coll nat unit unit Z nat (nat * list nat) unit) c' ls,
  demo_ok ns [] c /\ collects (fun a b => demo_collect HArray 5 a b false) [Steps 1; Episodes 0; Episodes 1] c = Ok (c', ls)
  /\ map (fun l => (st_steps (l_stats l), st_lens (l_stats l))) ls = [(2, []); (2, [3]); (4, [2; 3])].
Proof.
  exists [9; 9], (demo_coll [9; 9] [[3; 2; 2; 2]; [3; 2; 2; 2]]). eexists _, _. split; [demo_ok_tac|]. split; [vm_compute; reflexivity|]. reflexivity.
Qed.

(** The counters of the collector are raised by what a call collected. *)
Lemma C100_counters_partial_lemma : forall (Ob A B Inf R H ES PS : Type) (r0 : R) (radd : R -> R -> R) (last_frame : Ob -> Ob) (o : opts)
  (estep : nat -> ES -> B -> ES * sres Ob Inf R) (ereset : nat -> ES -> ES * (Ob * Inf))
  (act_fn : PS -> list nat -> list Ob -> list Inf -> option (list H) -> PS * (list (A * B) * option (list H)))
  (hreset : list nat -> list H -> list H) (hook : list (row_out Ob A Inf R) -> bool)
  ns ops (c : coll Ob A Inf R H ES PS) c' l fuel t,
  coll_ok r0 radd last_frame o ns ops c -> collect r0 radd last_frame o estep ereset act_fn hreset hook fuel (by_steps t) (by_episodes t) false c = Ok (c', l) ->
  c_step c' = c_step c + st_steps (l_stats l) /\ c_episode c' = c_episode c + st_episodes (l_stats l).
Proof.
  intros Ob A B Inf R H ES PS r0 radd last_frame o estep ereset act_fn hreset hook ns ops c c' l fuel t Hc E.
  destruct (collect_inv r0 radd last_frame o estep ereset act_fn hreset hook ns ops c c' t l fuel Hc E) as (obs & inf & rounds & Hpre & Lo & V & Rm & NE & Rd & _ & _ & _ & Em & Es & Ee & Fin).
  rewrite (v_ststeps _ _ _ _ _ _ _ _ _ _ _ _ _ V), (proj1 (v_steps_eps _ _ _ _ _ _ _ _ _ _ _ _ _ V)). auto.
Qed.
(** reset_before_collect also resets them. *)
Lemma C100_reset_refuted_lemma : exists ns (c : coll nat unit unit Z nat (nat * list nat) unit) c1 l1 c2 l2,
  demo_ok ns [] c /\ demo_collect HArray 5 (Some 4) None false c = Ok (c1, l1) /\ c_step c1 = 4 /\ c_episode c1 = 2
  /\ demo_collect HArray 5 (Some 2) None true c1 = Ok (c2, l2) /\ st_steps (l_stats l2) = 2 /\ c_step c2 = 2 /\ c_episode c2 = 1.
Proof.
  exists [9], (demo_coll [9] [[2; 2; 2; 2]]). eexists _, _, _, _. split; [demo_ok_tac|]. split; [vm_compute; reflexivity|]. split; [reflexivity|]. split; [reflexivity|].
  split; [vm_compute; reflexivity|]. repeat split.
Qed.

Lemma same_rows {Ob A Inf R} (ops : list (aop Ob A Inf R)) : (forall op, In op ops -> op <> OpReset true) ->
  forall x, snd x = map (@t_rew _ _ _ _) (fst x) -> let y := fold_left open_step ops x in snd y = map (@t_rew _ _ _ _) (fst y).
Proof.
  induction ops as [|op ops IH]; intros Hn x Hx; [exact Hx|]. cbn [fold_left]. apply IH; [intros; apply Hn; right; assumption|].
  destruct op as [t|keep]; cbn [open_step].
  - destruct (ends t); [reflexivity|]. cbn. rewrite map_app, Hx. reflexivity.
  - destruct keep; [exfalso; apply (Hn (OpReset true)); [left; reflexivity|reflexivity]|reflexivity].
Qed.
Lemma finished_same {Ob A Inf R} (ts : list (trans Ob A Inf R)) : forall x, snd x = map (@t_rew _ _ _ _) (fst x) ->
  forall ep, In ep (finished x ts) -> snd ep = map (@t_rew _ _ _ _) (fst ep).
Proof.
  induction ts as [|t ts IH]; intros x Hx ep Hi; [destruct Hi|]. cbn [finished] in Hi. apply in_app_or in Hi. destruct Hi as [Hi|Hi].
  - destruct (ends t); [|destruct Hi]. destruct Hi as [<-|[]]. cbn. rewrite map_app, Hx. reflexivity.
  - apply (IH (open_step x (OpAdd t))); [|exact Hi]. cbn [open_step]. destruct (ends t); [reflexivity|]. cbn. rewrite map_app, Hx. reflexivity.
Qed.
(** If the buffer was never reset with keep_statistics, the return and the length that are reported for
    an episode are those of the same rows, the ones the hook is given. *)
Lemma C101_same_rows_partial_lemma : forall (Ob A B Inf R H ES PS : Type) (r0 : R) (radd : R -> R -> R) (last_frame : Ob -> Ob) (o : opts)
  (estep : nat -> ES -> B -> ES * sres Ob Inf R) (ereset : nat -> ES -> ES * (Ob * Inf))
  (act_fn : PS -> list nat -> list Ob -> list Inf -> option (list H) -> PS * (list (A * B) * option (list H)))
  (hreset : list nat -> list H -> list H) (hook : list (row_out Ob A Inf R) -> bool)
  ns ops (c : coll Ob A Inf R H ES PS) c' l fuel t,
  coll_ok r0 radd last_frame o ns ops c -> ~ In (MReset true) ops -> collect r0 radd last_frame o estep ereset act_fn hreset hook fuel (by_steps t) (by_episodes t) false c = Ok (c', l) ->
  let st := l_stats l in
  exists rounds, recorded r0 radd last_frame o estep ereset ns ops c (c_mgr c') (l_calls l) rounds
  /\ (short_enough ns ops rounds -> forall e, e < length (c_envs c) -> let eps := map fst (episodes ns ops rounds e) in
       part e (enders rounds, st_returns st) = map (fun ep => total r0 radd (map (@t_rew _ _ _ _) ep)) eps
       /\ part e (enders rounds, st_lens st) = map (@length _) eps
       /\ part e (enders rounds, map (map (@o_cur _ _ _ _)) (l_hook l)) = map (map (fun t => Some (kept last_frame o t))) eps).
Proof.
  intros Ob A B Inf R H ES PS r0 radd last_frame o estep ereset act_fn hreset hook ns ops c c' l fuel t Hc Hn E st.
  destruct (stats_main r0 radd last_frame o estep ereset act_fn hreset hook ns ops c c' t l fuel Hc E) as (rounds & Rec & _ & _ & _ & _ & _ & St). exists rounds. split; [exact Rec|].
  intros Sh e He. cbv zeta. destruct (St Sh) as [S1 _]. destruct (S1 e He) as (P1 & P2 & P3). fold st in P1, P2. rewrite P1, P2, P3, !map_map. split; [|split; reflexivity].
  apply map_ext_in. intros ep Hep. rewrite (finished_same (parts e rounds) (in_progress ns ops e)) with (ep := ep); [reflexivity| |exact Hep].
  unfold in_progress, open_episode. apply same_rows; [|reflexivity]. intros op Hop ->. apply Hn. clear - Hop. revert Hop. induction ops as [|[ids ts|keep] ops IH]; cbn; [intros []| |].
  - intro Hi. apply in_app_or in Hi. destruct Hi as [Hi|Hi]; [apply in_map_iff in Hi; destruct Hi as (x & Q & _); discriminate|right; apply IH, Hi].
  - intros [Q|Hi]; [left; congruence|right; apply IH, Hi].
Qed.
(** Otherwise the return also counts rows that are neither in the length nor given to the hook. *)
Lemma C101_kept_refuted_lemma : exists ns (c : coll nat unit unit Z nat (nat * list nat) unit) c1 l1 c2 l2,
  demo_ok ns [] c /\ demo_collect HArray 5 (Some 1) None false c = Ok (c1, l1)
  /\ demo_collect HArray 5 None (Some 1) false (reset_buffer 0%Z true c1) = Ok (c2, l2)
  /\ st_returns (l_stats l2) = [3%Z] /\ st_lens (l_stats l2) = [2].
Proof.
  exists [9], (demo_coll [9] [[3; 2; 2]]). eexists _, _, _, _. split; [demo_ok_tac|]. split; [vm_compute; reflexivity|].
  split; [vm_compute; reflexivity|]. split; reflexivity.
Qed.

(** *** Merged hooks *)
Section Merge.
Context {K V : Type}.
Variable eqb : K -> K -> bool.
Hypothesis eqb_eq : forall a b, eqb a b = true <-> a = b.
Notation lookup k l := (option_map snd (find (fun kv : K * V => eqb k (fst kv)) l)).

Lemma find_has k (l : list (K * V)) : existsb (fun kv => eqb k (fst kv)) l = match lookup k l with Some _ => true | None => false end.
Proof. induction l as [|x l IH]; [reflexivity|]. cbn. destruct (eqb k (fst x)); [reflexivity|exact IH]. Qed.
Lemma eqb_refl k : eqb k k = true.
Proof. apply eqb_eq. reflexivity. Qed.

Lemma put_lookup l (kv : K * V) k :
  lookup k (if existsb (fun x => eqb (fst kv) (fst x)) l then map (fun x => if eqb (fst kv) (fst x) then (fst x, snd kv) else x) l else l ++ [kv])
  = if eqb k (fst kv) then Some (snd kv) else lookup k l.
Proof.
  destruct kv as [k' v]. cbn [fst snd]. induction l as [|[a b] l IH]; cbn [existsb find app option_map fst snd map].
  - destruct (eqb k k'); reflexivity.
  - destruct (eqb k' a) eqn:E1; cbn [orb].
    + apply eqb_eq in E1. subst a. cbn [map fst]. rewrite ?eqb_refl. cbn [find fst]. destruct (eqb k k') eqn:E2; [reflexivity|].
      clear IH. induction l as [|[a b'] l IH]; [reflexivity|]. cbn [map find fst snd]. destruct (eqb k' a) eqn:E3; cbn [find fst].
      * apply eqb_eq in E3. subst a. rewrite E2. exact IH.
      * destruct (eqb k a); [reflexivity|exact IH].
    + destruct (existsb (fun x => eqb k' (fst x)) l) eqn:E4.
      * cbn [map fst snd find]. rewrite ?E1. cbn [find fst]. destruct (eqb k a) eqn:E5; [|exact IH]. apply eqb_eq in E5. subst a.
        destruct (eqb k k') eqn:E6; [|reflexivity]. apply eqb_eq in E6. subst. rewrite eqb_refl in E1. discriminate.
      * cbn [find fst]. destruct (eqb k a) eqn:E5; [|exact IH]. apply eqb_eq in E5. subst a.
        destruct (eqb k k') eqn:E6; [|reflexivity]. apply eqb_eq in E6. subst. rewrite eqb_refl in E1. discriminate.
Qed.
End Merge.

(** Merging without the check: the value of a key is the one of the last hook that returned it. *)
Lemma C102_unchecked_partial_lemma : forall (K V : Type) (eqb : K -> K -> bool) (outs : list (option (list (K * V)))),
  (forall a b, eqb a b = true <-> a = b) -> (forall d, In (Some d) outs -> NoDup (map fst d)) ->
  let value k (d : list (K * V)) := option_map snd (find (fun kv => eqb k (fst kv)) d) in
  exists r, merge_hooks eqb false outs = Ok r
  /\ forall k, value k (match r with Some d => d | None => [] end)
      = fold_left (fun acc out => match out with Some d => match value k d with Some v => Some v | None => acc end | None => acc end) outs None.
Proof.
  intros K V eqb outs Heq Hnd value. unfold merge_hooks.
  match goal with |- context [foldM ?f outs []] => set (step := f) end.
  assert (G : forall outs d0, (forall d, In (Some d) outs -> NoDup (map fst d)) -> exists d, foldM step outs d0 = Ok d /\
     forall k, value k d = fold_left (fun acc out => match out with Some d => match value k d with Some v => Some v | None => acc end | None => acc end) outs (value k d0)).
  { clear outs Hnd. induction outs as [|[new|] outs IH]; intros d0 Hnd.
    - exists d0. split; [reflexivity|]. reflexivity.
    - cbn [foldM]. unfold step at 1. cbn [andb bind]. match goal with |- context [foldM step outs ?x] => set (d1 := x) end.
      destruct (IH d1) as (d & E & Hd); [intros; apply Hnd; right; assumption|]. exists d. split; [exact E|]. intro k. rewrite Hd. cbn [fold_left]. f_equal.
      assert (N : NoDup (map fst new)) by (apply Hnd; left; reflexivity). unfold d1. clear - Heq N. revert d0 N. induction new as [|kv new IHn]; intros d0 N; [reflexivity|].
      cbn [fold_left]. inversion N as [|a b N1 N2]; subst. rewrite IHn by exact N2. unfold value. rewrite (put_lookup eqb Heq). cbn [find]. destruct (eqb k (fst kv)) eqn:Q; [|reflexivity].
      apply Heq in Q. subst k. destruct (find (fun kv0 => eqb (fst kv) (fst kv0)) new) as [x|] eqn:Ef; [|reflexivity].
      exfalso. apply find_some in Ef. destruct Ef as [Hin Q]. apply Heq in Q. apply N1. rewrite Q. apply in_map, Hin.
    - cbn [foldM]. unfold step at 1. cbn [bind]. destruct (IH d0) as (d & E & Hd); [intros; apply Hnd; right; assumption|]. exists d. split; [exact E|]. exact Hd. }
  destruct (G outs [] Hnd) as (d & E & Hd). rewrite E. cbn [bind]. destruct d as [|kv d].
  - exists None. split; [reflexivity|]. exact Hd.
  - exists (Some (kv :: d)). split; [reflexivity|]. exact Hd.
Qed.
(** With the check, which is the default, hooks are merged only if none of them returns an entry. *)
Lemma C102_checked_refuted_lemma : forall (K V : Type) (eqb : K -> K -> bool) (outs : list (option (list (K * V)))) r,
  merge_hooks eqb true outs = Ok r <-> r = None /\ forall d, In (Some d) outs -> d = [].
Proof.
  intros K V eqb outs r. unfold merge_hooks. match goal with |- context [foldM ?f outs []] => set (step := f) end.
  assert (G : forall outs, foldM step outs [] = Ok [] /\ (forall d, In (Some d) outs -> d = []) \/ (exists x, foldM step outs [] = Err x) /\ ~ (forall d, In (Some d) outs -> d = [])).
  { clear outs. induction outs as [|[new|] outs IH].
    - left. split; [reflexivity|]. intros d [].
    - cbn [foldM]. unfold step at 1 3. destruct new as [|kv new]; cbn [andb existsb bind fold_left].
      + destruct IH as [[I1 I2]|[I1 I2]]; [left|right]; (split; [exact I1|]).
        * intros d [Q|Q]; [congruence|apply I2, Q].
        * intro Q. apply I2. intros d Hd. apply Q. right. exact Hd.
      + right. split; [eexists; reflexivity|]. intro Q. specialize (Q _ (or_introl eq_refl)). discriminate.
    - cbn [foldM]. unfold step at 1 3. cbn [bind]. destruct IH as [[I1 I2]|[I1 I2]]; [left|right]; (split; [exact I1|]).
      + intros d [Q|Q]; [discriminate|apply I2, Q].
      + intro Q. apply I2. intros d Hd. apply Q. right. exact Hd. }
  destruct (G outs) as [[E1 E2]|[[x E1] E2]]; rewrite E1; cbn [bind].
  - split; [intro Q; injection Q as <-; auto|intros [-> _]; reflexivity].
  - split; [discriminate|]. intros [_ Q]. exfalso. apply E2, Q.
Qed.
