(** * Proofs about collecting from environments one by one *)
From Verif Require Import Py PyLemmas BufferModel BufferSpec BufferProofs BufferMainProofs ManagerModel ManagerSpec ManagerProofs ManagerMainProofs
  GetIndicesModel GetIndicesProofs CollectModel CollectSpec CollectRoundProofs CollectEpisodeProofs CollectRunProofs CollectProofs SepSpec.
Open Scope nat_scope.

(** ** The policy sees rows *)
Section Calls.
Context {Ob A B Inf R H ES PS : Type}.
Variable r0 : R.
Variable radd : R -> R -> R.
Variable last_frame : Ob -> Ob.
Variable o : opts.
Variable estep : nat -> ES -> B -> ES * sres Ob Inf R.
Variable ereset : nat -> ES -> ES * (Ob * Inf).
Variable act_fn : PS -> list nat -> list Ob -> list Inf -> option (list H) -> PS * (list (A * B) * option (list H)).
Variable hreset : list nat -> list H -> list H.
Variable hook : list (row_out Ob A Inf R) -> bool.
Variable f : nat -> Ob -> A * B.
Hypothesis Hf : by_rows f act_fn.
Notation loop := (loop Ob A B Inf R H ES PS).
Definition call_ok (call : list nat * list Ob * list (A * B)) : Prop :=
  length (snd (fst call)) = length (fst (fst call)) /\ snd call = map (fun x => f (fst x) (snd x)) (combine (fst (fst call)) (snd (fst call))).
Definition calls_ok (l : loop) : Prop := length (l_obs l) = length (l_ready l) /\ forall call, In call (l_calls l) -> call_ok call.

Lemma step_envs_len : forall ids es acts es' rs, step_envs estep es ids acts = Ok (es', rs) -> length rs = length ids.
Proof.
  clear. induction ids as [|i ids IH]; intros es [|b acts] es' rs E; cbn [step_envs] in E; try discriminate; [injection E as _ <-; reflexivity|].
  destruct (nth_error es i) as [s|]; [|discriminate]. destruct (estep i s b) as [s' r].
  destruct (step_envs estep (upd es i s') ids acts) as [[es1 rs1]|] eqn:E1; cbn [bind] in E; [|discriminate]. injection E as _ <-. cbn. f_equal. eapply IH, E1.
Qed.
Lemma masked_len {T U} (mask : list bool) : forall (a : list T) (b : list U), length a = length b -> length (masked mask a) = length (masked mask b).
Proof.
  clear. unfold masked. induction mask as [|m mask IH]; intros [|x a] [|y b] E; try discriminate; try reflexivity.
  cbn [combine filter fst]. destruct m; cbn [map length]; [f_equal|]; apply IH; cbn in E; congruence.
Qed.
Lemma iter_calls_ok ne (l l' : loop) : calls_ok l -> CollectModel.iter r0 radd last_frame o estep ereset act_fn hreset hook ne l = Ok l' -> calls_ok l'.
Proof.
  intros [Hl Hc] E. unfold CollectModel.iter in E.
  pose proof (Hf (l_pol l) (l_ready l) (l_obs l) (l_inf l) (l_hid l) Hl) as Ha.
  destruct (act_fn (l_pol l) (l_ready l) (l_obs l) (l_inf l) (l_hid l)) as [p [acts hid]]. cbn [fst snd] in Ha.
  destruct (step_envs estep (l_envs l) (l_ready l) (map snd acts)) as [[es rs]|] eqn:E1; cbn [bind] in E; [|discriminate].
  pose proof (step_envs_len _ _ _ _ _ E1) as L1.
  destruct (m_add r0 radd last_frame o (l_mgr l) _ _) as [[m reps]|]; cbn [bind] in E; [|discriminate].
  assert (Hcalls : forall call, In call (l_calls l ++ [(l_ready l, l_obs l, acts)]) -> call_ok call).
  { intros call Hin. apply in_app_or in Hin. destruct Hin as [Hin|[<-|[]]]; [apply Hc, Hin|]. split; [exact Hl|exact Ha]. }
  destruct (length (filter (fun b => b) (map r_done rs)) =? 0).
  { injection E as <-. split; [cbn; rewrite map_length; exact L1|exact Hcalls]. }
  destruct (take reps (where_true (map r_done rs))) as [rd|]; cbn [bind] in E; [|discriminate].
  destruct (take (l_ready l) (where_true (map r_done rs))) as [dg|]; cbn [bind] in E; [|discriminate].
  destruct (reset_envs ereset es dg) as [[es2 rst]|]; cbn [bind] in E; [|discriminate].
  destruct (foldM _ rd _) as [[st hooks]|]; cbn [bind] in E; [|discriminate].
  assert (L2 : length (put (where_true (map r_done rs)) (map fst rst) (map r_obs rs)) = length (l_ready l)) by (rewrite put_length, map_length; exact L1).
  destruct ne as [[|n]|]; [injection E as <-; split; [exact L2|exact Hcalls]| |injection E as <-; split; [exact L2|exact Hcalls]].
  destruct (0 <? _)%Z; injection E as <-; (split; [|exact Hcalls]); [|exact L2]. cbn [l_obs l_ready]. apply masked_len, L2.
Qed.
Lemma iterate_calls_ok n_step ne : forall fuel (l l' : loop), calls_ok l -> iterate r0 radd last_frame o estep ereset act_fn hreset hook fuel n_step ne l = Ok l' -> calls_ok l'.
Proof.
  induction fuel as [|fuel IH]; intros l l' Hl E; [discriminate|]. cbn [iterate] in E.
  destruct (CollectModel.iter r0 radd last_frame o estep ereset act_fn hreset hook ne l) as [l1|] eqn:E1; cbn [bind] in E; [|discriminate].
  pose proof (iter_calls_ok ne l l1 Hl E1) as H1. destruct (reached n_step (l_steps l1) || reached ne (l_eps l1)); [injection E as <-; exact H1|]. eapply IH; eauto.
Qed.
Lemma collect_calls_ok ns ne fuel (c c' : coll Ob A Inf R H ES PS) (l : loop) :
  collect r0 radd last_frame o estep ereset act_fn hreset hook fuel ns ne false c = Ok (c', l) -> forall call, In call (l_calls l) -> call_ok call.
Proof.
  unfold collect, collect_. destruct (validate ns ne); cbn [bind]; [|discriminate].
  destruct (start ns ne c) as [l0|] eqn:E0; cbn [bind]; [|discriminate].
  destruct (iterate r0 radd last_frame o estep ereset act_fn hreset hook fuel ns ne l0) as [l1|] eqn:E1; cbn [bind]; [|discriminate].
  assert (H0 : calls_ok l0).
  { unfold start in E0. destruct (match ns with Some _ => _ | None => _ end) as [ready|]; cbn [bind] in E0; [|discriminate].
    destruct (c_pre c) as [[obs inf]|]; [|discriminate].
    destruct (take obs ready) as [obs1|] eqn:E2; cbn [bind] in E0; [|discriminate].
    destruct (take inf ready) as [inf1|] eqn:E3; cbn [bind] in E0; [|discriminate].
    destruct (match c_hid c with Some _ => _ | None => _ end) as [hid|]; cbn [bind] in E0; [|discriminate].
    injection E0 as <-. split; [cbn; unfold take in E2; exact (mapM_length _ _ _ E2)|]. intros call []. }
  pose proof (iterate_calls_ok _ _ _ _ _ H0 E1) as [_ H1].
  destruct ns as [[|n]|]; [destruct ne as [[|k]|]| |destruct ne as [[|k]|]];
    try (destruct (reset_env _ _); cbn [bind]; [|discriminate]); intros E; injection E as _ <-; exact H1.
Qed.
Lemma answered_shown e (calls : list (list nat * list Ob * list (A * B))) : (forall call, In call calls -> call_ok call) ->
  answered e calls = map (f e) (shown e calls).
Proof.
  clear. unfold answered, shown, parts. induction calls as [|[[ids obs] acts] calls IH]; intros Hc; [reflexivity|].
  cbn [map concat]. rewrite map_app, <- IH by (intros; apply Hc; right; assumption). f_equal.
  destruct (Hc _ (or_introl eq_refl)) as [L E]. cbn [fst snd] in *. subst acts. unfold part. cbn [fst snd]. clear Hc IH calls.
  revert obs L. induction ids as [|i ids IH]; intros [|ob obs] L; try discriminate; [reflexivity|].
  cbn [combine map filter fst snd]. destruct (Nat.eqb_spec i e) as [->|Hne]; cbn [map fst snd]; [f_equal|]; apply IH; cbn in L; congruence.
Qed.
End Calls.

(** ** One environment *)
Section Alone.
Context {Ob A B Inf R ES : Type}.
Variable estep : nat -> ES -> B -> ES * sres Ob Inf R.
Variable ereset : nat -> ES -> ES * (Ob * Inf).
Lemma after_next (g : Ob -> A * B) e s ob : after estep ereset e s (snd (g ob)) = next_of (estep e) (ereset e) g s ob.
Proof.
  unfold after, next_of. destruct (estep e s (snd (g ob))) as [s1 r]. cbn [fst snd]. destruct (r_term r || r_trunc r); [|reflexivity].
  destruct (ereset e s1) as [s2 x]. reflexivity.
Qed.
Lemma solo_follow (g : Ob -> A * B) e : forall (ts : list (trans Ob A Inf R)) s ob, ts = solo estep ereset e s ob (map g (map (@t_obs _ _ _ _) ts)) ->
  ts = follow (estep e) (ereset e) g s ob (length ts)
  /\ solo_end estep ereset e s ob (map g (map (@t_obs _ _ _ _) ts)) = follow_end (estep e) (ereset e) g s ob (length ts).
Proof.
  induction ts as [|t ts IH]; intros s ob E; [split; reflexivity|]. cbn [map length follow follow_end] in *.
  destruct (g (t_obs t)) as [a b] eqn:Eg. cbn [solo] in E. injection E as Et Ets.
  assert (Eo : t_obs t = ob) by (rewrite Et; reflexivity). rewrite Eo in Eg.
  pose proof (after_next g e s ob) as An. rewrite Eg in An. cbn [snd] in An. rewrite An in Ets.
  destruct (IH _ _ Ets) as [I1 I2]. split.
  - f_equal; [|exact I1]. rewrite Et at 1. unfold transition. rewrite Eg. reflexivity.
  - cbn [solo_end]. rewrite An. exact I2.
Qed.
End Alone.
Lemma part_seq {T} e N (xs : list T) : e < N -> length xs = N -> length (part e (seq 0 N, xs)) = 1.
Proof.
  intros He L. unfold part. cbn [fst snd]. rewrite map_length.
  assert (G : forall a (ys : list T), length (filter (fun x : nat * T => fst x =? e) (combine (seq a (length ys)) ys)) = if (a <=? e) && (e <? a + length ys) then 1 else 0).
  { intros a ys. revert a. induction ys as [|y ys IH]; intros a.
    - cbn [length seq combine filter]. destruct (Nat.leb_spec a e); destruct (Nat.ltb_spec e (a + 0)); cbn [andb]; try reflexivity; exfalso; lia.
    - cbn [length seq combine filter fst]. destruct (Nat.eqb_spec a e) as [->|Hne]; cbn [length]; rewrite IH.
      + destruct (Nat.leb_spec (S e) e); destruct (Nat.leb_spec e e); destruct (Nat.ltb_spec e (e + S (length ys))); cbn [andb]; try reflexivity; exfalso; lia.
      + destruct (Nat.leb_spec (S a) e); destruct (Nat.leb_spec a e); destruct (Nat.ltb_spec e (S a + length ys)); destruct (Nat.ltb_spec e (a + S (length ys))); cbn [andb]; try reflexivity; exfalso; lia. }
  rewrite <- L at 1. rewrite G. destruct (Nat.leb_spec 0 e); destruct (Nat.ltb_spec e (0 + length xs)); cbn [andb]; try reflexivity; exfalso; lia.
Qed.
Lemma div_unique N k r j : 0 < N -> N * k < S j <= N * S k -> N * (r - 1) < S j <= N * r -> r = S k.
Proof. intros HN [H1 H2] [H3 H4]. destruct r as [|r]; [rewrite Nat.mul_0_r in H4; lia|]. replace (S r - 1) with r in H3 by lia. f_equal. nia. Qed.

Section One.
Context {Ob A B Inf R H ES PS : Type}.
Variable r0 : R.
Variable radd : R -> R -> R.
Variable last_frame : Ob -> Ob.
Variable o : opts.
Variable estep : nat -> ES -> B -> ES * sres Ob Inf R.
Variable ereset : nat -> ES -> ES * (Ob * Inf).
Variable act_fn : PS -> list nat -> list Ob -> list Inf -> option (list H) -> PS * (list (A * B) * option (list H)).
Variable hreset : list nat -> list H -> list H.
Variable hook : list (row_out Ob A Inf R) -> bool.
Variable f : nat -> Ob -> A * B.
Hypothesis Hf : by_rows f act_fn.

(** What one call does for one environment. *)
Lemma one_call ns ops (c c' : coll Ob A Inf R H ES PS) l fuel j k : coll_ok r0 radd last_frame o ns ops c ->
  length (c_envs c) * k < S j <= length (c_envs c) * S k ->
  collect r0 radd last_frame o estep ereset act_fn hreset hook fuel (Some (S j)) None false c = Ok (c', l) ->
  exists rounds, recorded r0 radd last_frame o estep ereset ns ops c (c_mgr c') (l_calls l) rounds
  /\ coll_ok r0 radd last_frame o ns (ops ++ as_adds rounds) c' /\ length (c_envs c') = length (c_envs c)
  /\ forall e s ob, nth_error (c_envs c) e = Some s -> pre_obs c e = Some ob ->
     parts e rounds = follow (estep e) (ereset e) (f e) s ob (S k)
     /\ proj (length ns) e (ops ++ as_adds rounds) = proj (length ns) e ops ++ map OpAdd (follow (estep e) (ereset e) (f e) s ob (S k))
     /\ nth_error (c_envs c') e = Some (fst (follow_end (estep e) (ereset e) (f e) s ob (S k)))
     /\ pre_obs c' e = Some (snd (follow_end (estep e) (ereset e) (f e) s ob (S k))).
Proof.
  intros Hc Hj E.
  destruct (C29_rounds_lemma _ _ _ _ _ _ _ _ r0 radd last_frame o estep ereset act_fn hreset hook ns ops c c' l fuel j Hc E) as (rds & Rec0 & Hids & Hr & _).
  destruct (C30_stored_lemma _ _ _ _ _ _ _ _ r0 radd last_frame o estep ereset act_fn hreset hook ns ops c c' l fuel (Steps j) Hc E) as (rounds & Rec & Hc' & Le & Hp & Hx).
  exists rounds. split; [exact Rec|]. split; [exact Hc'|]. split; [exact Le|]. intros e s ob Hs Ho.
  pose proof (answered_shown f e (l_calls l) (collect_calls_ok r0 radd last_frame o estep ereset act_fn hreset hook f Hf _ _ _ _ _ _ E)) as Ea.
  pose proof Hc as (_ & _ & HN & _).
  assert (He : e < length (c_envs c)) by (eapply nth_error_lt; eauto).
  destruct Rec0 as (_ & _ & R3 & R4). destruct (R4 e s ob Hs Ho) as [P1 P2].
  destruct Rec as (_ & _ & _ & Q4). destruct (Q4 e s ob Hs Ho) as [Q1 _].
  rewrite Ea, <- P2 in P1, Q1.
  assert (Lr : length rds = S k) by (eapply div_unique; [|exact Hj|exact Hr]; lia).
  assert (Lp : length (parts e rds) = length rds).
  { clear - Hids R3 He. unfold parts. induction rds as [|rd rds IH]; [reflexivity|]. cbn [map concat length]. rewrite app_length, IH by (intros; (apply Hids || apply R3); right; assumption).
    destruct rd as [ids ts]. pose proof (Hids _ (or_introl eq_refl)) as E1. cbn [fst] in E1. subst ids.
    destruct (R3 _ (or_introl eq_refl)) as (_ & L & _). cbn [fst snd] in L. rewrite seq_length in L. rewrite part_seq by assumption. reflexivity. }
  destruct (solo_follow estep ereset (f e) e (parts e rds) s ob P1) as [F1 F2]. rewrite Lp, Lr in F1, F2.
  assert (Er : parts e rounds = follow (estep e) (ereset e) (f e) s ob (S k)) by (rewrite Q1, <- P1; exact F1).
  specialize (Hx e s ob Hs Ho). cbv zeta iota beta in Hx. rewrite Ea, <- P2, F2 in Hx. rewrite Hp by lia. rewrite Er. auto.
Qed.
End One.

(** C348.  Any number of n_step collections with a policy that acts row by row, from N environments together and from
    one of them alone with the N-th part of the steps (rounded up): the environment ends in the same state with the same
    observation, and its sub-buffer holds what the buffer of the environment alone holds. *)
Lemma C348_data_lemma : forall (Ob A B Inf R H ES PS H1 PS1 : Type) (r0 : R) (radd : R -> R -> R) (last_frame : Ob -> Ob) (o : opts)
  (estep : nat -> ES -> B -> ES * sres Ob Inf R) (ereset : nat -> ES -> ES * (Ob * Inf))
  (act_fn : PS -> list nat -> list Ob -> list Inf -> option (list H) -> PS * (list (A * B) * option (list H)))
  (act_fn1 : PS1 -> list nat -> list Ob -> list Inf -> option (list H1) -> PS1 * (list (A * B) * option (list H1)))
  (hreset : list nat -> list H -> list H) (hreset1 : list nat -> list H1 -> list H1) (hook hook1 : list (row_out Ob A Inf R) -> bool)
  (f : nat -> Ob -> A * B) ns ops (c c' : coll Ob A Inf R H ES PS) ls fuel e n ops1 (c1 c1' : coll Ob A Inf R H1 ES PS1) ls1 fuel1 js ks,
  by_rows f act_fn -> by_rows (fun _ => f e) act_fn1 ->
  coll_ok r0 radd last_frame o ns ops c -> coll_ok r0 radd last_frame o [n] ops1 c1 -> same_env ns ops c e n ops1 c1 ->
  Forall2 (fun j k => length (c_envs c) * k < S j <= length (c_envs c) * S k) js ks ->
  collects (fun a b => collect r0 radd last_frame o estep ereset act_fn hreset hook fuel a b false) (map Steps js) c = Ok (c', ls) ->
  collects (fun a b => collect r0 radd last_frame o (fun _ => estep e) (fun _ => ereset e) act_fn1 hreset1 hook1 fuel1 a b false) (map Steps ks) c1 = Ok (c1', ls1) ->
  nth_error (c_envs c') e = nth_error (c_envs c1') 0 /\ pre_obs c' e = pre_obs c1' 0
  /\ nth_error (m_bufs (c_mgr c')) e = nth_error (m_bufs (c_mgr c1')) 0
  /\ slice (off ns e) n (meta_rows (list_sum ns) (m_meta (c_mgr c'))) = slice 0 n (meta_rows n (m_meta (c_mgr c1'))).
Proof.
  intros Ob A B Inf R H ES PS H1 PS1 r0 radd last_frame o estep ereset act_fn act_fn1 hreset hreset1 hook hook1 f ns ops c c' ls fuel e n ops1 c1 c1' ls1 fuel1 js ks Hf Hf1 Hc Hc1 Hs Hjk.
  revert ops c ls ops1 c1 ls1 Hc Hc1 Hs Hjk. revert ks. induction js as [|j js IH]; intros ks ops c ls ops1 c1 ls1 Hc Hc1 Hs Hjk E E1.
  - inversion Hjk; subst ks. cbn [map collects] in E, E1. injection E as <- _. injection E1 as <- _.
    destruct Hs as (S1 & S2 & S3 & S4 & S5 & S6). split; [exact S5|]. split; [exact S6|].
    destruct Hc as (Hpos & _ & _ & (outs & Hrun) & _). destruct Hc1 as (Hpos1 & _ & _ & (outs1 & Hrun1) & _).
    destruct (C08_independent_lemma _ _ _ _ r0 radd last_frame o ns ops (c_mgr c) outs Hpos Hrun e n S1) as (b & rep & B1 & _ & B2 & _ & _ & B3).
    destruct (C08_independent_lemma _ _ _ _ r0 radd last_frame o [n] ops1 (c_mgr c1) outs1 Hpos1 Hrun1 0 n eq_refl) as (b1 & rep1 & D1 & _ & D2 & _ & _ & D3).
    cbn [length] in D1. rewrite S4, B1 in D1. injection D1 as <- _. split; [congruence|]. rewrite B3, <- D3.
    unfold off. cbn [offsets nth list_sum fold_right]. rewrite Nat.add_0_r. reflexivity.
  - inversion Hjk as [|j0 k js0 ks0 Hk Hjk']; subst. cbn [map collects by_steps by_episodes] in E, E1.
    destruct (collect r0 radd last_frame o estep ereset act_fn hreset hook fuel (Some (S j)) None false c) as [[c2 l]|] eqn:Ea; [|discriminate].
    destruct (collect r0 radd last_frame o (fun _ => estep e) (fun _ => ereset e) act_fn1 hreset1 hook1 fuel1 (Some (S k)) None false c1) as [[c3 l3]|] eqn:Eb; [|discriminate].
    destruct (collects _ (map Steps js) c2) as [[c4 l4]|] eqn:Ec in E; [|discriminate].
    destruct (collects _ (map Steps ks0) c3) as [[c5 l5]|] eqn:Ed in E1; [|discriminate].
    injection E as <- _. injection E1 as <- _.
    destruct (one_call r0 radd last_frame o estep ereset act_fn hreset hook f Hf ns ops c c2 l fuel j k Hc Hk Ea) as (rounds & Rec & Hc2 & Le & Hx).
    destruct Hs as (S1 & S2 & S3 & S4 & S5 & S6).
    assert (Hk1 : length (c_envs c1) * k < S k <= length (c_envs c1) * S k) by (rewrite S2; lia).
    destruct (one_call r0 radd last_frame o (fun _ => estep e) (fun _ => ereset e) act_fn1 hreset1 hook1 (fun _ => f e) Hf1 [n] ops1 c1 c3 l3 fuel1 k k Hc1 Hk1 Eb) as (rounds1 & Rec1 & Hc3 & Le1 & Hx1).
    destruct (nth_error (c_envs c) e) as [s|] eqn:Es; [|apply nth_error_None in Es; lia].
    destruct (pre_obs c e) as [ob|] eqn:Eo.
    2: { exfalso. destruct Hc as (_ & _ & _ & _ & obs & inf & Hpre & Lo & _). unfold pre_obs in Eo. rewrite Hpre in Eo. apply nth_error_None in Eo. lia. }
    destruct (Hx e s ob Es Eo) as (_ & P1 & P2 & P3). destruct (Hx1 0 s ob (eq_sym S5) (eq_sym S6)) as (_ & Q1 & Q2 & Q3).
    apply (IH ks0 (ops ++ as_adds rounds) c2 l4 (ops1 ++ as_adds rounds1) c3 l5 Hc2 Hc3); [|rewrite Le; exact Hjk'|exact Ec|exact Ed].
    split; [exact S1|]. split; [rewrite Le1; exact S2|]. split; [rewrite Le; exact S3|]. split; [|split].
    + cbn [length] in Q1. rewrite Q1, P1, S4. reflexivity.
    + rewrite P2, Q2. reflexivity.
    + rewrite P3, Q3. reflexivity.
Qed.

(** ** What is reported *)
Lemma part_combine {T U} e (ids : list nat) : forall (a : list T) (b : list U), length a = length ids -> length b = length ids ->
  part e (ids, combine a b) = combine (part e (ids, a)) (part e (ids, b)).
Proof.
  unfold part. cbn [fst snd]. induction ids as [|i ids IH]; intros [|x a] [|y b] La Lb; try discriminate; [reflexivity|].
  cbn [combine filter fst]. destruct (i =? e); cbn [map combine snd]; [f_equal|]; apply IH; cbn in *; congruence.
Qed.
Lemma part_all {T} e (ids : list nat) : forall xs : list T, length xs = length ids -> (forall i, In i ids -> i = e) -> part e (ids, xs) = xs.
Proof.
  unfold part. cbn [fst snd]. induction ids as [|i ids IH]; intros [|x xs] L Hi; try discriminate; [reflexivity|].
  cbn [combine filter fst]. rewrite (Hi i) by (left; reflexivity). rewrite Nat.eqb_refl. cbn [map snd]. f_equal. apply IH; [cbn in L; congruence|]. intros; apply Hi; right; assumption.
Qed.
Lemma part_perm {T} N (ids : list nat) : forall xs : list T, length xs = length ids -> (forall i, In i ids -> i < N) ->
  Permutation xs (concat (map (fun e => part e (ids, xs)) (seq 0 N))).
Proof.
  induction ids as [|i ids IH]; intros [|x xs] L Hi; try discriminate.
  - replace (concat _) with (@nil T); [constructor|]. clear. induction (seq 0 N) as [|e l IH]; [reflexivity|exact IH].
  - specialize (IH xs (f_equal pred L) (fun j Hj => Hi j (or_intror Hj))). pose proof (Hi i (or_introl eq_refl)) as HiN.
    assert (G : forall l, NoDup l -> Permutation (concat (map (fun e => part e (i :: ids, x :: xs)) l)) ((if existsb (Nat.eqb i) l then [x] else []) ++ concat (map (fun e => part e (ids, xs)) l))).
    { clear. induction l as [|e l IHl]; intros Nd; [constructor|]. inversion Nd as [|e0 l0 Hni Nd']; subst. cbn [map concat existsb]. specialize (IHl Nd').
      unfold part at 1. cbn [fst snd combine filter]. destruct (Nat.eqb_spec i e) as [->|Hne].
      - cbn [map snd orb app]. constructor. fold (part e (ids, xs)). change (map snd (filter (fun y : nat * T => fst y =? e) (combine ids xs))) with (part e (ids, xs)).
        apply Permutation_app_head. destruct (existsb (Nat.eqb e) l) eqn:Ex; [|exact IHl]. exfalso. apply existsb_exists in Ex. destruct Ex as (y & Hy & E). apply Nat.eqb_eq in E. subst y. contradiction.
      - cbn [orb]. change (map snd (filter (fun y : nat * T => fst y =? e) (combine ids xs))) with (part e (ids, xs)).
        rewrite IHl. rewrite !app_assoc. apply Permutation_app_tail. apply Permutation_app_comm. }
    specialize (G (seq 0 N) (seq_NoDup N 0)).
    replace (existsb (Nat.eqb i) (seq 0 N)) with true in G by (symmetry; apply existsb_exists; exists i; split; [apply in_seq; lia|apply Nat.eqb_refl]).
    symmetry. rewrite G. cbn [app]. constructor. symmetry. exact IH.
Qed.

Section Reports.
Context {Ob A B Inf R H ES PS : Type}.
Variable r0 : R.
Variable radd : R -> R -> R.
Variable last_frame : Ob -> Ob.
Variable o : opts.
Variable estep : nat -> ES -> B -> ES * sres Ob Inf R.
Variable ereset : nat -> ES -> ES * (Ob * Inf).
Variable act_fn : PS -> list nat -> list Ob -> list Inf -> option (list H) -> PS * (list (A * B) * option (list H)).
Variable hreset : list nat -> list H -> list H.
Variable hook : list (row_out Ob A Inf R) -> bool.
Variable f : nat -> Ob -> A * B.
Hypothesis Hf : by_rows f act_fn.
Definition rep_of (ep : list (trans Ob A Inf R) * list R) := (total r0 radd (snd ep), length (fst ep), map (fun t => Some (kept last_frame o t)) (fst ep)).

Lemma reports_of ns ops (c c' : coll Ob A Inf R H ES PS) l fuel j k : coll_ok r0 radd last_frame o ns ops c ->
  length (c_envs c) * k < S j <= length (c_envs c) * S k ->
  collect r0 radd last_frame o estep ereset act_fn hreset hook fuel (Some (S j)) None false c = Ok (c', l) ->
  (forall e s ob n ep, nth_error (c_envs c) e = Some s -> pre_obs c e = Some ob -> nth_error ns e = Some n ->
     In ep (finished (in_progress ns ops e) (follow (estep e) (ereset e) (f e) s ob (S k))) -> length (fst ep) < n) ->
  st_steps (l_stats l) = length (c_envs c) * S k
  /\ st_episodes (l_stats l) = length (reported l)
  /\ exists ids, length ids = length (reported l) /\ (forall i, In i ids -> i < length (c_envs c))
  /\ forall e s ob, nth_error (c_envs c) e = Some s -> pre_obs c e = Some ob ->
     part e (ids, reported l) = map rep_of (finished (in_progress ns ops e) (follow (estep e) (ereset e) (f e) s ob (S k))).
Proof.
  intros Hc Hj E Hsh.
  destruct (one_call r0 radd last_frame o estep ereset act_fn hreset hook f Hf ns ops c c' l fuel j k Hc Hj E) as (rds & Rec0 & Hc' & Le & Hx).
  destruct (C29_rounds_lemma _ _ _ _ _ _ _ _ r0 radd last_frame o estep ereset act_fn hreset hook ns ops c c' l fuel j Hc E) as (rds1 & _ & _ & Hr & Hst & _).
  destruct (C31_stats_partial_lemma _ _ _ _ _ _ _ _ r0 radd last_frame o estep ereset act_fn hreset hook ns ops c c' l fuel (Steps j) Hc E) as (rounds & Rec & N1 & N2 & N3 & N4 & _ & Hst2).
  pose proof Hc as (_ & _ & HN & _ & obs & inf & Hpre & Lo & _).
  assert (Hpo : forall e, e < length (c_envs c) -> exists s ob, nth_error (c_envs c) e = Some s /\ pre_obs c e = Some ob).
  { intros e He. destruct (nth_error (c_envs c) e) as [s|] eqn:Es; [|apply nth_error_None in Es; lia].
    unfold pre_obs. rewrite Hpre. destruct (nth_error obs e) as [ob|] eqn:Eo; [|apply nth_error_None in Eo; lia]. eauto. }
  assert (Hp : forall e s ob, nth_error (c_envs c) e = Some s -> pre_obs c e = Some ob -> parts e rounds = follow (estep e) (ereset e) (f e) s ob (S k)).
  { intros e s ob Hs Ho. destruct (Hx e s ob Hs Ho) as [P _]. rewrite <- P. destruct Rec as (_ & _ & _ & Q). destruct Rec0 as (_ & _ & _ & Q0).
    rewrite (proj1 (Q e s ob Hs Ho)), (proj1 (Q0 e s ob Hs Ho)). reflexivity. }
  assert (Hout : forall e, length (c_envs c) <= e -> parts e rounds = []).
  { intros e He. apply parts_none. intros rd H1 H2. destruct Rec as (_ & _ & Q & _). destruct (Q rd H1) as (_ & _ & Q'). specialize (Q' _ H2). lia. }
  assert (Sh : short_enough ns ops rounds).
  { intros e n ep Hn Hin. unfold episodes in Hin. destruct (Nat.lt_ge_cases e (length (c_envs c))) as [He|He].
    - destruct (Hpo e He) as (s & ob & Hs & Ho). rewrite (Hp e s ob Hs Ho) in Hin. eapply Hsh; eauto.
    - rewrite (Hout e He) in Hin. destruct Hin. }
  destruct (Hst2 Sh) as [Hrep _].
  split; [rewrite Hst; f_equal; eapply div_unique; [|exact Hj|exact Hr]; lia|].
  assert (L : length (reported l) = st_episodes (l_stats l)).
  { unfold reported. rewrite !combine_length, map_length. lia. }
  split; [symmetry; exact L|]. exists (enders rounds). split; [congruence|]. split.
  - apply enders_below. intros rd i H1 H2. destruct Rec as (_ & _ & Q & _). destruct (Q rd H1) as (_ & _ & Q'). apply Q', H2.
  - intros e s ob Hs Ho. destruct (Hrep e) as (A1 & A2 & A3); [eapply nth_error_lt; eauto|].
    unfold reported. rewrite part_combine, part_combine, A1, A2, A3; [|congruence|congruence|rewrite combine_length; lia|rewrite map_length; congruence].
    unfold episodes. rewrite (Hp e s ob Hs Ho). clear. induction (finished _ _) as [|ep eps IH]; [reflexivity|]. cbn [map combine]. rewrite IH. reflexivity.
Qed.
End Reports.

(** C348.  The statistics of a collection from N environments are those of the N collections from one each, in some order:
    numbers of steps and episodes are the sums, and the reported returns, lengths and rows the same.  (For episodes that
    fit into the sub-buffers.) *)
Lemma C348_stats_lemma : forall (Ob A B Inf R H ES PS H1 PS1 : Type) (r0 : R) (radd : R -> R -> R) (last_frame : Ob -> Ob) (o : opts)
  (estep : nat -> ES -> B -> ES * sres Ob Inf R) (ereset : nat -> ES -> ES * (Ob * Inf))
  (act_fn : PS -> list nat -> list Ob -> list Inf -> option (list H) -> PS * (list (A * B) * option (list H)))
  (act_fn1 : nat -> PS1 -> list nat -> list Ob -> list Inf -> option (list H1) -> PS1 * (list (A * B) * option (list H1)))
  (hreset : list nat -> list H -> list H) (hreset1 : list nat -> list H1 -> list H1) (hook hook1 : list (row_out Ob A Inf R) -> bool)
  (f : nat -> Ob -> A * B) ns ops (c c' : coll Ob A Inf R H ES PS) l fuel j k
  (sizes : nat -> nat) (hist : nat -> list (mop Ob A Inf R)) (cs cs' : nat -> coll Ob A Inf R H1 ES PS1) (ls : nat -> loop Ob A B Inf R H1 ES PS1) fuel1,
  let N := length (c_envs c) in
  by_rows f act_fn -> coll_ok r0 radd last_frame o ns ops c -> N * k < S j <= N * S k ->
  collect r0 radd last_frame o estep ereset act_fn hreset hook fuel (Some (S j)) None false c = Ok (c', l) ->
  (forall e, e < N -> by_rows (fun _ => f e) (act_fn1 e) /\ coll_ok r0 radd last_frame o [sizes e] (hist e) (cs e) /\ same_env ns ops c e (sizes e) (hist e) (cs e)
     /\ collect r0 radd last_frame o (fun _ => estep e) (fun _ => ereset e) (act_fn1 e) hreset1 hook1 fuel1 (Some (S k)) None false (cs e) = Ok (cs' e, ls e)) ->
  (forall e s ob n ep, nth_error (c_envs c) e = Some s -> pre_obs c e = Some ob -> nth_error ns e = Some n ->
     In ep (finished (in_progress ns ops e) (follow (estep e) (ereset e) (f e) s ob (S k))) -> length (fst ep) < n) ->
  Permutation (reported l) (concat (map (fun e => reported (ls e)) (seq 0 N)))
  /\ st_steps (l_stats l) = list_sum (map (fun e => st_steps (l_stats (ls e))) (seq 0 N))
  /\ st_episodes (l_stats l) = list_sum (map (fun e => st_episodes (l_stats (ls e))) (seq 0 N)).
Proof.
  intros Ob A B Inf R H ES PS H1 PS1 r0 radd last_frame o estep ereset act_fn act_fn1 hreset hreset1 hook hook1 f ns ops c c' l fuel j k sizes hist cs cs' ls fuel1 N Hf Hc Hj E Hs Hsh.
  destruct (reports_of r0 radd last_frame o estep ereset act_fn hreset hook f Hf ns ops c c' l fuel j k Hc Hj E Hsh) as (S1 & S2 & ids & L & Hi & Hp). fold N in S1, Hi.
  assert (Hone : forall e, e < N -> part e (ids, reported l) = reported (ls e) /\ st_steps (l_stats (ls e)) = S k /\ st_episodes (l_stats (ls e)) = length (reported (ls e))).
  { intros e He. destruct (Hs e He) as (F1 & C1 & (X1 & X2 & X3 & X4 & X5 & X6) & E1).
    destruct (nth_error (c_envs c) e) as [s|] eqn:Es; [|apply nth_error_None in Es; unfold N in He; lia].
    destruct (pre_obs c e) as [ob|] eqn:Eo.
    2: { exfalso. pose proof Hc as (_ & _ & _ & _ & obs & inf & Hpre & Lo & _). unfold pre_obs in Eo. rewrite Hpre in Eo. apply nth_error_None in Eo. lia. }
    assert (Hip : in_progress [sizes e] (hist e) 0 = in_progress ns ops e) by (unfold in_progress; cbn [length]; rewrite X4; reflexivity).
    assert (Hk1 : length (c_envs (cs e)) * k < S k <= length (c_envs (cs e)) * S k) by (rewrite X2; lia).
    destruct (reports_of r0 radd last_frame o (fun _ => estep e) (fun _ => ereset e) (act_fn1 e) hreset1 hook1 (fun _ => f e) F1 [sizes e] (hist e) (cs e) (cs' e) (ls e) fuel1 k k C1 Hk1 E1) as (T1 & T2 & ids1 & L1 & Hi1 & Hp1).
    { intros e1 s1 ob1 n1 ep Y1 Y2 Y3 Y4. destruct e1 as [|e1]; [|destruct e1; discriminate]. rewrite Hip in Y4. rewrite <- X5 in Y1. injection Y1 as <-. rewrite <- X6 in Y2. injection Y2 as <-.
      injection Y3 as <-. exact (Hsh e s ob (sizes e) ep Es Eo X1 Y4). }
    split; [|split; [rewrite T1, X2; lia|exact T2]].
    rewrite (Hp e s ob Es Eo), <- Hip, <- (Hp1 0 s ob (eq_sym X5) (eq_sym X6)).
    apply part_all; [symmetry; exact L1|]. intros i Hin. specialize (Hi1 i Hin). lia. }
  assert (P : Permutation (reported l) (concat (map (fun e => reported (ls e)) (seq 0 N)))).
  { rewrite (part_perm N ids (reported l)) by (congruence || exact Hi). rewrite (map_ext_in (fun e => part e (ids, reported l)) (fun e => reported (ls e))); [reflexivity|].
    intros e He. apply in_seq in He. apply Hone. lia. }
  split; [exact P|]. split.
  - rewrite S1, (map_ext_in (fun e => st_steps (l_stats (ls e))) (fun _ => S k)) by (intros e He; apply in_seq in He; apply Hone; lia).
    fold N. clear. generalize 0. induction N as [|N IH]; intros a; [reflexivity|]. cbn [seq map]. unfold list_sum in *. cbn [fold_right]. rewrite <- IH. lia.
  - rewrite S2, (Permutation_length P). rewrite (map_ext_in (fun e => st_episodes (l_stats (ls e))) (fun e => length (reported (ls e)))) by (intros e He; apply in_seq in He; apply Hone; lia).
    clear. induction (seq 0 N) as [|e es IH]; [reflexivity|]. cbn [map concat]. unfold list_sum in *. cbn [fold_right]. rewrite app_length, IH. reflexivity.
Qed.

(** ** Episodes *)
Lemma all_one (g : nat -> nat) : forall l, (forall e, In e l -> 1 <= g e) -> list_sum (map g l) = length l -> forall e, In e l -> g e = 1.
Proof.
  assert (Ge : forall l, (forall e, In e l -> 1 <= g e) -> length l <= list_sum (map g l)).
  { induction l as [|x l IH]; intros Hg; [apply Nat.le_refl|]. cbn [map length]. unfold list_sum in *. cbn [fold_right]. pose proof (Hg x (or_introl eq_refl)). specialize (IH (fun e He => Hg e (or_intror He))). lia. }
  induction l as [|x l IH]; intros Hg Hs e He; [destruct He|]. cbn [map length] in Hs. change (list_sum (g x :: map g l)) with (g x + list_sum (map g l)) in Hs.
  pose proof (Hg x (or_introl eq_refl)) as Hx. pose proof (Ge l (fun e He => Hg e (or_intror He))) as Hl.
  destruct He as [<-|He]; [lia|]. apply IH; [intros; apply Hg; right; assumption|lia|exact He].
Qed.
Lemma follow_app {Ob A B Inf R ES} (step : ES -> B -> ES * sres Ob Inf R) reset (g : Ob -> A * B) : forall n m s ob, n <= m ->
  firstn n (follow step reset g s ob m) = follow step reset g s ob n.
Proof. induction n as [|n IH]; intros [|m] s ob L; try reflexivity; [lia|]. cbn [follow firstn]. f_equal. apply IH. lia. Qed.
Lemma follow_len {Ob A B Inf R ES} (step : ES -> B -> ES * sres Ob Inf R) reset (g : Ob -> A * B) : forall n s ob, length (follow step reset g s ob n) = n.
Proof. induction n as [|n IH]; intros s ob; [reflexivity|]. cbn [follow length]. rewrite IH. reflexivity. Qed.

Section OneEpisode.
Context {Ob A B Inf R H ES PS : Type}.
Variable r0 : R.
Variable radd : R -> R -> R.
Variable last_frame : Ob -> Ob.
Variable o : opts.
Variable estep : nat -> ES -> B -> ES * sres Ob Inf R.
Variable ereset : nat -> ES -> ES * (Ob * Inf).
Variable act_fn : PS -> list nat -> list Ob -> list Inf -> option (list H) -> PS * (list (A * B) * option (list H)).
Variable hreset : list nat -> list H -> list H.
Variable hook : list (row_out Ob A Inf R) -> bool.
Variable f : nat -> Ob -> A * B.
Hypothesis Hf : by_rows f act_fn.

Lemma episode_call ns ops (c c' : coll Ob A Inf R H ES PS) l fuel k : coll_ok r0 radd last_frame o ns ops c -> S k <= length (c_envs c) ->
  collect r0 radd last_frame o estep ereset act_fn hreset hook fuel None (Some (S k)) false c = Ok (c', l) ->
  exists ops', coll_ok r0 radd last_frame o ns ops' c'
  /\ forall e s ob, nth_error (c_envs c) e = Some s -> pre_obs c e = Some ob ->
     exists ts, proj (length ns) e ops' = proj (length ns) e ops ++ map OpAdd ts
     /\ ts = follow (estep e) (ereset e) (f e) s ob (length ts)
     /\ (if e <? S k then exists ts0 t, ts = ts0 ++ [t] /\ ends t = true /\ forall x, In x ts0 -> ends x = false else ts = [])
     /\ let s1 := fst (follow_end (estep e) (ereset e) (f e) s ob (length ts)) in
        nth_error (c_envs c') e = Some (fst (ereset e s1)) /\ pre_obs c' e = Some (fst (snd (ereset e s1))).
Proof.
  intros Hc Hk E.
  destruct (C28_exact_lemma _ _ _ _ _ _ _ _ r0 radd last_frame o estep ereset act_fn hreset hook ns ops c c' l fuel k Hc E) as (rds & Rec0 & _ & _ & Hn & Hout & Hlast & _).
  rewrite Nat.min_r in Hn, Hout, Hlast by exact Hk.
  destruct (C30_stored_lemma _ _ _ _ _ _ _ _ r0 radd last_frame o estep ereset act_fn hreset hook ns ops c c' l fuel (Episodes k) Hc E) as (rounds & Rec & Hc' & Le & Hp & Hx).
  exists (ops ++ as_adds rounds). split; [exact Hc'|]. intros e s ob Hs Ho.
  pose proof (answered_shown f e (l_calls l) (collect_calls_ok r0 radd last_frame o estep ereset act_fn hreset hook f Hf _ _ _ _ _ _ E)) as Ea.
  pose proof Hc as (_ & _ & HN & _).
  assert (He : e < length (c_envs c)) by (eapply nth_error_lt; eauto).
  destruct Rec0 as (_ & _ & _ & R4). destruct (R4 e s ob Hs Ho) as [P1 P2].
  destruct Rec as (_ & _ & _ & Q4). destruct (Q4 e s ob Hs Ho) as [Q1 _].
  rewrite Ea, <- P2 in P1, Q1.
  destruct (solo_follow estep ereset (f e) e (parts e rds) s ob P1) as [F1 F2].
  exists (parts e rds). split; [rewrite Hp by lia; rewrite Q1, <- P1; reflexivity|]. split; [exact F1|]. split.
  - destruct (Nat.ltb_spec e (S k)) as [Hek|Hek]; [|apply Hout; exact Hek].
    destruct (Hlast e Hek) as (ts0 & t & Et & Hend). exists ts0, t. split; [exact Et|]. split; [exact Hend|].
    assert (H1 : length (filter ends (parts e rds)) = 1).
    { apply (all_one (fun e => length (filter ends (parts e rds))) (seq 0 (S k))).
      - intros e' He'. apply in_seq in He'. destruct (Hlast e') as (ts1 & t1 & Et1 & Hend1); [lia|]. rewrite Et1, filter_app, app_length. cbn [filter]. rewrite Hend1. cbn [length]. lia.
      - rewrite seq_length. exact Hn.
      - apply in_seq. lia. }
    rewrite Et, filter_app, app_length in H1. cbn [filter] in H1. rewrite Hend in H1. cbn [length] in H1.
    intros x Hin. destruct (ends x) eqn:Ex; [|reflexivity]. exfalso. assert (Hf2 : In x (filter ends ts0)) by (apply filter_In; auto).
    destruct (filter ends ts0); [destruct Hf2|cbn in H1; lia].
  - specialize (Hx e s ob Hs Ho). cbv zeta iota beta in Hx |- *. rewrite Ea, <- P2, F2 in Hx. exact Hx.
Qed.
End OneEpisode.

(** C349.  Asked for at most as many episodes as there are environments, with a policy that acts row by row, the collector takes
    exactly one episode of each of the first environments, however long: what is stored for it and the state it is left in are those
    of collecting one episode from the environment alone. *)
Lemma C349_episode_lemma : forall (Ob A B Inf R H ES PS H1 PS1 : Type) (r0 : R) (radd : R -> R -> R) (last_frame : Ob -> Ob) (o : opts)
  (estep : nat -> ES -> B -> ES * sres Ob Inf R) (ereset : nat -> ES -> ES * (Ob * Inf))
  (act_fn : PS -> list nat -> list Ob -> list Inf -> option (list H) -> PS * (list (A * B) * option (list H)))
  (act_fn1 : PS1 -> list nat -> list Ob -> list Inf -> option (list H1) -> PS1 * (list (A * B) * option (list H1)))
  (hreset : list nat -> list H -> list H) (hreset1 : list nat -> list H1 -> list H1) (hook hook1 : list (row_out Ob A Inf R) -> bool)
  (f : nat -> Ob -> A * B) ns ops (c c' : coll Ob A Inf R H ES PS) l fuel e n ops1 (c1 c1' : coll Ob A Inf R H1 ES PS1) l1 fuel1 k,
  by_rows f act_fn -> by_rows (fun _ => f e) act_fn1 ->
  coll_ok r0 radd last_frame o ns ops c -> coll_ok r0 radd last_frame o [n] ops1 c1 -> same_env ns ops c e n ops1 c1 ->
  e <= k -> S k <= length (c_envs c) ->
  collect r0 radd last_frame o estep ereset act_fn hreset hook fuel None (Some (S k)) false c = Ok (c', l) ->
  collect r0 radd last_frame o (fun _ => estep e) (fun _ => ereset e) act_fn1 hreset1 hook1 fuel1 None (Some 1) false c1 = Ok (c1', l1) ->
  nth_error (c_envs c') e = nth_error (c_envs c1') 0 /\ pre_obs c' e = pre_obs c1' 0
  /\ nth_error (m_bufs (c_mgr c')) e = nth_error (m_bufs (c_mgr c1')) 0
  /\ slice (off ns e) n (meta_rows (list_sum ns) (m_meta (c_mgr c'))) = slice 0 n (meta_rows n (m_meta (c_mgr c1'))).
Proof.
  intros Ob A B Inf R H ES PS H1 PS1 r0 radd last_frame o estep ereset act_fn act_fn1 hreset hreset1 hook hook1 f ns ops c c' l fuel e n ops1 c1 c1' l1 fuel1 k Hf Hf1 Hc Hc1 (S1 & S2 & S3 & S4 & S5 & S6) Hek HkN E E1.
  destruct (episode_call r0 radd last_frame o estep ereset act_fn hreset hook f Hf ns ops c c' l fuel k Hc HkN E) as (ops' & Hc' & Hx).
  destruct (episode_call r0 radd last_frame o (fun _ => estep e) (fun _ => ereset e) act_fn1 hreset1 hook1 (fun _ => f e) Hf1 [n] ops1 c1 c1' l1 fuel1 0 Hc1 ltac:(lia) E1) as (ops1' & Hc1' & Hx1).
  destruct (nth_error (c_envs c) e) as [s|] eqn:Es; [|apply nth_error_None in Es; lia].
  destruct (pre_obs c e) as [ob|] eqn:Eo.
  2: { exfalso. destruct Hc as (_ & _ & _ & _ & obs & inf & Hpre & Lo & _). unfold pre_obs in Eo. rewrite Hpre in Eo. apply nth_error_None in Eo. lia. }
  destruct (Hx e s ob Es Eo) as (ts & P1 & P2 & P3 & P4 & P5).
  destruct (Hx1 0 s ob (eq_sym S5) (eq_sym S6)) as (ts1 & Q1 & Q2 & Q3 & Q4 & Q5).
  replace (e <? S k) with true in P3 by (symmetry; apply Nat.ltb_lt; lia). cbn [Nat.ltb Nat.leb] in Q3.
  destruct P3 as (a & t & Ea & Ta & Na). destruct Q3 as (a1 & t1 & Ea1 & Ta1 & Na1).
  assert (Hle : forall u v x y : list (trans Ob A Inf R), forall w z, u = x ++ [w] -> v = y ++ [z] -> ends w = true -> (forall q, In q y -> ends q = false) ->
    u = follow (estep e) (ereset e) (f e) s ob (length u) -> v = follow (estep e) (ereset e) (f e) s ob (length v) -> length v <= length u).
  { intros u v x y w z Eu Ev Hw Hy Fu Fv. destruct (Nat.le_gt_cases (length v) (length u)) as [L|L]; [exact L|exfalso].
    assert (Eq : firstn (length u) v = u) by (transitivity (firstn (length u) (follow (estep e) (ereset e) (f e) s ob (length v))); [f_equal; exact Fv|rewrite follow_app by (apply Nat.lt_le_incl, L); symmetry; exact Fu]).
    assert (Hin : In w (firstn (length u) v)) by (rewrite Eq, Eu; apply in_or_app; right; left; reflexivity).
    rewrite Ev in Hin. rewrite firstn_app in Hin. replace (length u - length y) with 0 in Hin by (rewrite Ev, app_length in L; cbn in L; lia).
    cbn [firstn] in Hin. rewrite app_nil_r in Hin. apply (fun H => eq_true_false_abs _ Hw (Hy w H)).
    rewrite <- (firstn_skipn (length u) y). apply in_or_app. left. exact Hin. }
  assert (Len : length ts = length ts1) by (apply Nat.le_antisymm; [apply (Hle ts1 ts a1 a t1 t)|apply (Hle ts ts1 a a1 t t1)]; assumption).
  assert (Et : ts = ts1) by (rewrite P2, Q2, Len; reflexivity). clear Ea Ea1. subst ts1.
  split; [rewrite P4, Q4; reflexivity|]. split; [rewrite P5, Q5; reflexivity|].
  assert (Hpr : proj 1 0 ops1' = proj (length ns) e ops') by (cbn [length] in Q1; rewrite P1, Q1, S4; reflexivity).
  destruct Hc' as (Hpos & _ & _ & (outs & Hrun) & _). destruct Hc1' as (Hpos1 & _ & _ & (outs1 & Hrun1) & _).
  destruct (C08_independent_lemma _ _ _ _ r0 radd last_frame o ns ops' (c_mgr c') outs Hpos Hrun e n S1) as (b & rep & B1 & _ & B2 & _ & _ & B3).
  destruct (C08_independent_lemma _ _ _ _ r0 radd last_frame o [n] ops1' (c_mgr c1') outs1 Hpos1 Hrun1 0 n eq_refl) as (b1 & rep1 & D1 & _ & D2 & _ & _ & D3).
  cbn [length] in D1. rewrite Hpr, B1 in D1. injection D1 as <- _. split; [congruence|]. rewrite B3, <- D3.
  unfold off. cbn [offsets nth list_sum fold_right]. rewrite Nat.add_0_r. reflexivity.
Qed.
