(** * Proofs about asynchronous collection *)
From Verif Require Import Py PyLemmas BufferModel BufferSpec BufferProofs BufferMainProofs ManagerModel ManagerSpec ManagerProofs ManagerMainProofs
  GetIndicesModel GetIndicesProofs CollectModel CollectSpec CollectRoundProofs CollectEpisodeProofs CollectRunProofs AsyncModel AsyncSpec.
From Verif Require VenvModel VenvProofs AsyncVenvProofs.
From Coq Require Import Permutation.
Open Scope nat_scope.

(** ** The report about a finished episode *)
Section Report.
Context {Ob A Inf R : Type}.
Variable r0 : R.
Variable radd : R -> R -> R.
Variable last_frame : Ob -> Ob.
Variable o : opts.
Lemma report_at ns (ops : list (mop Ob A Inf R)) m outs ids rows m' reps j e t rep : (forall n, In n ns -> 0 < n) ->
  m_run r0 radd last_frame o (m_init r0 ns) ops = Ok (m, outs) -> m_add r0 radd last_frame o m (Some (map Z.of_nat ids)) rows = Ok (m', reps) ->
  NoDup ids -> (forall i, In i ids -> i < length ns) -> nth_error ids j = Some e -> nth_error rows j = Some t -> nth_error reps j = Some rep -> ends t = true ->
  let x := open_episode (proj (length ns) e ops) in
  snd (fst (fst rep)) = total r0 radd (snd x ++ [t_rew t]) /\ snd (fst rep) = length (snd x ++ [t_rew t]).
Proof.
  intros Hpos Hrun Hadd ND Hids Hj Ht Hrep Et x.
  assert (He : e < length ns) by (apply Hids; eapply nth_error_In; eauto).
  destruct (nth_error_some ns e He) as [n Hn]. assert (Hn0 : 0 < n) by (apply Hpos; eapply nth_error_In; eauto).
  assert (Hrun' : m_run r0 radd last_frame o (m_init r0 ns) (ops ++ [MAdd (Some (map Z.of_nat ids)) rows]) = Ok (m', outs ++ combine (map Z.of_nat ids) reps)).
  { rewrite m_run_app, Hrun. cbn [bind fst snd ManagerSpec.m_run]. rewrite Hadd. cbn [bind fst snd]. rewrite app_nil_r. reflexivity. }
  assert (Hproj : proj (length ns) e (ops ++ [MAdd (Some (map Z.of_nat ids)) rows]) = proj (length ns) e ops ++ [OpAdd t]).
  { rewrite proj_app. cbn [proj]. rewrite select_part by auto. rewrite (part_single e ids rows j t ND Hj Ht). reflexivity. }
  destruct (run_view r0 radd last_frame o ns _ _ _ Hpos Hrun) as (_ & _ & _ & _ & bfs & Hs & Hb). destruct (Hb e n Hn) as (b1 & bo1 & _ & R1 & R2).
  destruct (run_view r0 radd last_frame o ns _ _ _ Hpos Hrun') as (_ & _ & _ & _ & bfs' & Hs' & Hb'). destruct (Hb' e n Hn) as (b2 & bo2 & _ & R3 & R4).
  destruct (C02_episode_report_lemma _ _ _ _ r0 radd last_frame o n (proj (length ns) e ops) Hn0) as [b1' C1]. rewrite C1 in R1. injection R1 as <- <-.
  rewrite Hproj in R3. destruct (C02_episode_report_lemma _ _ _ _ r0 radd last_frame o n (proj (length ns) e ops ++ [OpAdd t]) Hn0) as [b2' C2]. rewrite C2 in R3. injection R3 as <- <-.
  destruct (epi_open r0 radd last_frame o n (proj (length ns) e ops)) as (P1 & P2 & P3 & _).
  set (E := fst (epi_run r0 radd n epi0 (proj (length ns) e ops))) in *.
  rewrite select_app, R2, epi_run_app in R4. cbn [snd] in R4. rewrite map_app in R4. apply app_inv_head in R4. fold E in R4.
  cbn [epi_run] in R4. cbn [epi_step] in R4. change (t_term t || t_trunc t) with (ends t) in R4. rewrite Et in R4. cbn [fst snd map] in R4.
  rewrite select_part in R4 by auto. rewrite (part_single e ids reps j rep ND Hj Hrep) in R4. injection R4 as R4.
  subst rep. cbn [fst snd ManagerSpec.shift]. rewrite P2. split; reflexivity.
Qed.
End Report.

(** ** Lists *)
Lemma mapM_is_map {X Y} (f : X -> res Y) g : (forall x y, f x = Ok y -> y = g x) -> forall l l', mapM f l = Ok l' -> l' = map g l.
Proof. intros Hf. induction l as [|x l IH]; intros l' E; cbn in E; [injection E as <-; reflexivity|]. destruct (f x) as [y|] eqn:Ex; [|discriminate]. cbn in E. destruct (mapM f l) as [m|]; [|discriminate]. cbn in E. injection E as <-. cbn. f_equal; [apply Hf, Ex|apply IH; reflexivity]. Qed.
Lemma mapM_ok_map {X Y} (f : X -> res Y) g : forall l, (forall x, In x l -> f x = Ok (g x)) -> mapM f l = Ok (map g l).
Proof. induction l as [|x l IH]; intros Hf; [reflexivity|]. cbn. rewrite Hf by (left; reflexivity). cbn. rewrite IH; [reflexivity|]. intros y Hy. apply Hf. right. exact Hy. Qed.
Lemma sum_zero_filter (l : list bool) : length (filter (fun b => b) l) = 0 -> forall j b, nth_error l j = Some b -> b = false.
Proof.
  induction l as [|x l IH]; intros H [|j] b Hj; try discriminate; cbn in *.
  - injection Hj as ->. destruct b; [discriminate|reflexivity].
  - destruct x; [discriminate|]. eapply IH; eauto.
Qed.
Lemma in_pos {T} (l : list T) x : In x l -> exists j, nth_error l j = Some x.
Proof. apply In_nth_error. Qed.
Lemma rows_done_gen {Ob A Inf R} : forall (obs : list Ob) (acts : list A) (rs : list (sres Ob Inf R)), length acts = length obs -> length rs = length obs ->
  map ends (rows_of obs acts rs) = map (@r_done _ _ _) rs.
Proof. induction obs as [|x obs IH]; intros [|a al] [|r rl] H1 H2; try discriminate; [reflexivity|]. cbn. f_equal. apply IH; cbn in *; lia. Qed.
Lemma enders_facts {Ob A Inf R} (ids : list nat) (rows : list (trans Ob A Inf R)) done : length rows = length ids -> map ends rows = done -> NoDup ids ->
  let ne := enders [(ids, rows)] in let dl := where_true done in
  length ne = length dl /\ NoDup ne /\ forall k i, nth_error dl k = Some i -> nth_error ne k = nth_error ids i.
Proof.
  intros L D ND ne dl.
  assert (Q : map (fun y => ends (snd y)) (combine ids rows) = done).
  { rewrite <- (map_map snd ends). rewrite combine_snd by (symmetry; exact L). exact D. }
  assert (Ndl : forall k i, nth_error dl k = Some i -> nth_error ne k = nth_error ids i).
  { intros k i Hi. unfold ne. rewrite enders_one, nth_error_map. unfold dl in Hi. rewrite <- Q in Hi. rewrite (where_filter _ _ _ _ Hi).
    assert (Li : i < length ids). { apply nth_error_In, where_in in Hi. apply nth_error_lt in Hi. rewrite map_length, combine_length, L in Hi. lia. }
    destruct (nth_error_some ids i Li) as [x Hx]. destruct (nth_error_some rows i) as [t Ht]; [lia|].
    rewrite (nth_error_combine _ _ _ _ _ Hx Ht), Hx. reflexivity. }
  assert (Lne : length ne = length dl).
  { unfold ne. rewrite enders_one, map_length. unfold dl. rewrite where_length, <- Q, filter_map_length. reflexivity. }
  split; [exact Lne|]. split; [|exact Ndl].
  apply NoDup_nth_error. intros i j Hi Eij. rewrite Lne in Hi. destruct (nth_error_some _ _ Hi) as [di Hdi]. rewrite (Ndl _ _ Hdi) in Eij.
  assert (Ldi : di < length ids). { apply nth_error_In, where_in in Hdi. apply nth_error_lt in Hdi. rewrite <- Q, map_length, combine_length, L in Hdi. lia. }
  destruct (nth_error_some _ _ Ldi) as [x Hx]. rewrite Hx in Eij. symmetry in Eij.
  assert (Lj : j < length dl) by (rewrite <- Lne; eapply nth_error_lt; eauto). destruct (nth_error_some _ _ Lj) as [dj Hdj]. rewrite (Ndl _ _ Hdj) in Eij.
  assert (di = dj) by (exact (nodup_pos _ _ _ _ ND Hx Eij)). subst. exact (nodup_pos _ _ _ _ (where_nodup _) Hdi Hdj).
Qed.

Section Proofs.
Context {Ob A B Inf R H ES PS : Type}.
Variable r0 : R.
Variable radd : R -> R -> R.
Variable last_frame : Ob -> Ob.
Variable o : opts.
Variable estep : ES -> B -> ES * sres Ob Inf R.
Variable ereset : ES -> ES * (Ob * Inf).
Variable dummy : bool.
Variable act_fn : PS -> list nat -> list Ob -> list Inf -> option (list H) -> PS * (list (A * B) * option (list H)).
Variable hreset : list nat -> list H -> list H.
Variable hzero : H -> H.
Variable cell : A -> res A.
Notation venv := (@VenvModel.venv ES B (answer Ob Inf R)).
Notation mgr := (mgr Ob (A * H) Inf R).
Notation trans := (trans Ob (A * H) Inf R).
Notation arun := (arun Ob A B Inf R H ES PS).
Notation acoll := (acoll Ob A B Inf R H ES PS).
Notation env_cmd := (env_cmd estep ereset).
Notation estep' := (fun _ : nat => estep).
Notation ereset' := (fun _ : nat => ereset).
Notation solo := (solo (A := A * H) estep' ereset').
Notation solo_end := (solo_end (A := A * H) estep' ereset').
Notation after := (after estep' ereset').
Notation around := (around r0 radd last_frame o estep ereset dummy act_fn hreset hzero cell).
Notation arounds := (arounds r0 radd last_frame o estep ereset dummy act_fn hreset hzero cell).
Notation a_collect := (a_collect r0 radd last_frame o estep ereset dummy act_fn hreset hzero cell).
Notation acall := (list nat * list Ob * option (list H) * list (A * B) * option (list H))%type.
Notation final := (VenvProofs.final env_cmd).
Notation m_run := (m_run r0 radd last_frame o).

(** ** The commands that an environment gets *)
Fixpoint cmds (s : ES) (acts : list ((A * H) * B)) : list (VenvModel.cmd B) :=
  match acts with
  | [] => []
  | (_, b) :: acts => VenvModel.CStep b :: (if r_done (snd (estep s b)) then [VenvModel.CReset] else []) ++ cmds (fst (after 0 s b)) acts
  end.
Lemma after_e e s b : after e s b = after 0 s b.
Proof. reflexivity. Qed.
Lemma cmds_app : forall a1 s ob a2, cmds s (a1 ++ a2) = cmds s a1 ++ cmds (fst (solo_end 0 s ob a1)) a2.
Proof.
  induction a1 as [|[a b] a1 IH]; intros s ob a2; [reflexivity|]. cbn [app cmds CollectSpec.solo_end]. rewrite (IH _ (snd (after 0 s b))). rewrite <- app_assoc. reflexivity.
Qed.
Lemma final_step s b : final s (VenvModel.CStep b :: (if r_done (snd (estep s b)) then [VenvModel.CReset] else [])) = fst (after 0 s b).
Proof.
  cbn [VenvProofs.final]. unfold CollectSpec.after. cbn [AsyncModel.env_cmd]. destruct (estep s b) as [s1 r] eqn:E. cbn [fst snd]. unfold r_done. destruct (r_term r || r_trunc r); [|reflexivity].
  cbn. destruct (ereset s1); reflexivity.
Qed.
Lemma final_cmds : forall acts s ob, final s (cmds s acts) = fst (solo_end 0 s ob acts).
Proof.
  induction acts as [|[a b] acts IH]; intros s ob; [reflexivity|]. cbn [cmds CollectSpec.solo_end]. rewrite app_comm_cons, AsyncVenvProofs.final_app, final_step. apply IH.
Qed.
Lemma solo_e e : forall acts s ob, solo e s ob acts = solo 0 s ob acts.
Proof. induction acts as [|[a b] acts IH]; intros s ob; [reflexivity|]. cbn [CollectSpec.solo]. rewrite IH. reflexivity. Qed.
Lemma solo_length : forall acts s ob, length (solo 0 s ob acts) = length acts.
Proof. induction acts as [|[a b] acts IH]; intros s ob; [reflexivity|]. cbn. f_equal. apply IH. Qed.

(** ** The invariant *)
Variable ns : list nat.
Variable ops0 : list (mop Ob (A * H) Inf R).
Variable envs : list ES.
Variable obs0 : list Ob.
Variable pre : nat -> list (VenvModel.cmd B).
Variable fl : A -> A.
Variable zero : H -> H.
Variable wn : nat.
Variable tm : bool.
Notation N := (length envs).
Hypothesis Hpos : forall n, In n ns -> 0 < n.
Hypothesis HN : N <= length ns.
Hypothesis Hobs0 : length obs0 = N.
Hypothesis Hcell : forall a b, cell a = Ok b -> b = fl a.
Hypothesis Hstate : stateful act_fn.
Hypothesis Hhreset : forall idx h, length (hreset idx h) = length h.

(** The hidden states that environment [e] should be given. *)
Definition hids (ts : list trans) (ans : list ((A * H) * B)) : list (option H) :=
  None :: map (fun x => Some (if ends (fst x) then zero (snd (fst (snd x))) else snd (fst (snd x)))) (combine ts ans).
Definition rowwise : Prop := forall idx h i x, nth_error h i = Some x -> nth_error (hreset idx h) i = Some (if existsb (Nat.eqb i) idx then zero x else x).

Definition own (e : nat) (v : venv) (obs : list Ob) (calls : list acall) (rds : list (list nat * list trans)) (ans pend : list ((A * H) * B)) : Prop :=
  exists s0 ob w, nth_error envs e = Some s0 /\ nth_error obs0 e = Some ob /\ nth_error (VenvModel.workers v) e = Some w
  /\ let s := final s0 (pre e) in
     answered e (map (reply fl) calls) = ans ++ pend /\ parts e rds = solo 0 s ob ans
  /\ shown e (map (reply fl) calls) = map (@t_obs _ _ _ _) (parts e rds) ++ map (fun _ => snd (solo_end 0 s ob ans)) pend
  /\ nth_error obs e = Some (snd (solo_end 0 s ob ans))
  /\ VenvModel.w_hist w = pre e ++ cmds s ans ++ map VenvModel.CStep (map snd pend)
  /\ (rowwise -> given e calls = firstn (length (ans ++ pend)) (hids (parts e rds) ans)).

Record ainv (v : venv) (m : mgr) (ready : list nat) (obs : list Ob) (hid : option (list H)) (act : list A) (calls : list acall)
    (rds : list (list nat * list trans)) : Prop := {
  y_inv : exists out, VenvProofs.inv env_cmd dummy envs v out;
  y_open : VenvModel.is_closed v = false;
  y_mgr : exists outs, m_run (m_init r0 ns) (ops0 ++ as_adds rds) = Ok (m, outs);
  y_rds : forall rd, In rd rds -> NoDup (fst rd) /\ length (snd rd) = length (fst rd) /\ forall e, In e (fst rd) -> e < N;
  y_nd : NoDup ready;
  y_ready : forall k, In k ready <-> In (Z.of_nat k) (VenvModel.ready_id v);
  y_obs : length obs = N;
  y_act : length act = N;
  y_wn : VenvModel.wait_num v = wn /\ VenvModel.timed v = tm;
  y_wait : dummy = false -> tm = false -> Nat.min wn N <= length ready;
  y_hid : match hid with None => ready = seq 0 N | Some hs => length hs = N end;
  y_env : forall e, e < N -> exists ans pend, own e v obs calls rds ans pend
    /\ (In e ready -> pend = [] /\ (rowwise -> nth_error (hids (parts e rds) ans) (length ans) = Some (match hid with None => None | Some hs => nth_error hs e end)))
    /\ (~ In e ready -> exists a h b hs, pend = [((a, h), b)] /\ nth_error act e = Some a /\ hid = Some hs /\ nth_error hs e = Some h)
}.

Lemma ready_lt v m ready obs hid act calls rds : ainv v m ready obs hid act calls rds -> forall k, In k ready -> k < N.
Proof.
  intros Y k Hk. apply (y_ready _ _ _ _ _ _ _ _ Y) in Hk. destruct (y_inv _ _ _ _ _ _ _ _ Y) as [out I]. pose proof (VenvProofs.inv_range _ _ _ _ _ _ I (or_intror Hk)). lia.
Qed.
Lemma reply_snoc (calls : list acall) c : map (reply fl) (calls ++ [c]) = map (reply fl) calls ++ [reply fl c].
Proof. apply map_app. Qed.

(** What is pending after the policy was called: one action in every environment. *)
Lemma act_phase v m ready obs hid act calls rds last_obs last_hid acts h : ainv v m ready obs hid act calls rds ->
  take obs ready = Ok last_obs -> match hid with None => last_hid = None | Some hs => exists lh, last_hid = Some lh /\ take hs ready = Ok lh end ->
  length acts = length ready -> length h = length ready ->
  let act' := put ready (map fl (map fst acts)) act in
  let hs' := match hid with Some hs => put ready h hs | None => h end in
  let calls' := calls ++ [(ready, last_obs, last_hid, acts, Some h)] in
  length act' = N /\ length hs' = N /\ forall e, e < N -> exists ans a hh b s0 ob w, nth_error act' e = Some a /\ nth_error hs' e = Some hh
    /\ nth_error envs e = Some s0 /\ nth_error obs0 e = Some ob /\ nth_error (VenvModel.workers v) e = Some w
  /\ let s := final s0 (pre e) in
     answered e (map (reply fl) calls') = ans ++ [((a, hh), b)] /\ parts e rds = solo 0 s ob ans
  /\ shown e (map (reply fl) calls') = map (@t_obs _ _ _ _) (parts e rds) ++ [snd (solo_end 0 s ob ans)]
  /\ nth_error obs e = Some (snd (solo_end 0 s ob ans))
  /\ VenvModel.w_hist w ++ map VenvModel.CStep (part e (ready, map snd acts)) = pre e ++ cmds s ans ++ [VenvModel.CStep b]
  /\ (rowwise -> given e calls' = firstn (length ans + 1) (hids (parts e rds) ans)).
Proof.
  intros Y T1 T2 L1 L2 act' hs' calls'. pose proof (y_nd _ _ _ _ _ _ _ _ Y) as ND. pose proof (ready_lt _ _ _ _ _ _ _ _ Y) as Hlt.
  destruct (take_spec _ _ _ T1) as [L3 T1'].
  assert (La : length act' = N) by (unfold act'; rewrite put_length; apply (y_act _ _ _ _ _ _ _ _ Y)).
  pose proof (y_hid _ _ _ _ _ _ _ _ Y) as Yh.
  assert (Lh : length hs' = N).
  { unfold hs'. destruct hid as [hs|]; [rewrite put_length; exact Yh|]. rewrite L2, Yh, seq_length. reflexivity. }
  split; [exact La|]. split; [exact Lh|]. intros e He.
  destruct (y_env _ _ _ _ _ _ _ _ Y e He) as (ans & pend & (s0 & ob & w & E1 & E2 & E3 & O1 & O2 & O3 & O4 & O5 & O6) & Yr & Yw).
  cbv zeta in *. set (s := final s0 (pre e)) in *.
  assert (Hans : answered e (map (reply fl) calls') = (ans ++ pend) ++ part e (ready, map (fun x => ((fl (fst (fst x)), snd x), snd (fst x))) (combine acts h))).
  { unfold calls'. rewrite reply_snoc. cbn [reply]. rewrite answered_snoc, O1. reflexivity. }
  assert (Hshown : shown e (map (reply fl) calls') = (map (@t_obs _ _ _ _) (parts e rds) ++ map (fun _ => snd (solo_end 0 s ob ans)) pend) ++ part e (ready, last_obs)).
  { unfold calls'. rewrite reply_snoc. cbn [reply]. rewrite shown_snoc, O3. reflexivity. }
  assert (Hgiven : given e calls' = given e calls ++ part e (ready, match last_hid with Some h => map Some h | None => map (fun _ => None) ready end)).
  { unfold given, calls'. rewrite map_app, parts_app. cbn [map]. rewrite parts_one. reflexivity. }
  destruct (in_dec Nat.eq_dec e ready) as [Hi|Hi].
  - destruct (Yr Hi) as [-> Hh]. clear Yr Yw. apply In_nth_error in Hi as [j Hj].
    destruct (nth_error_some acts j) as [[a b] Hab]; [rewrite L1; eapply nth_error_lt; eauto|]. destruct (nth_error_some h j) as [hh Hhh]; [rewrite L2; eapply nth_error_lt; eauto|].
    exists ans, (fl a), hh, b, s0, ob, w. rewrite app_nil_r in *.
    split. { unfold act'. apply put_at with j; [exact ND|exact Hj| |rewrite (y_act _ _ _ _ _ _ _ _ Y); exact He]. rewrite !nth_error_map, Hab. reflexivity. }
    split. { unfold hs'. destruct hid as [hs|]; [apply put_at with j; auto; rewrite Yh; exact He|]. rewrite Yh in Hj. rewrite nth_error_nth' with (d := 0) in Hj by (apply nth_error_lt in Hj; exact Hj).
      injection Hj as Hj. pose proof (nth_error_lt _ _ _ Hhh) as Lj. rewrite L2, Yh, seq_length in Lj. rewrite seq_nth in Hj by exact Lj. cbn in Hj. subst j. exact Hhh. }
    split; [exact E1|]. split; [exact E2|]. split; [exact E3|].
    split. { rewrite Hans. rewrite (part_single e ready _ j ((fl a, hh), b) ND Hj); [reflexivity|]. rewrite nth_error_map, (nth_error_combine _ _ _ _ _ Hab Hhh). reflexivity. }
    split; [exact O2|]. split. { rewrite Hshown. cbn [map]. rewrite ?app_nil_r. rewrite (part_single e ready last_obs j (snd (solo_end 0 s ob ans)) ND Hj); [reflexivity|]. rewrite (T1' _ _ Hj). exact O4. }
    split; [exact O4|]. split. { rewrite O5. rewrite (part_single e ready (map snd acts) j b ND Hj) by (rewrite nth_error_map, Hab; reflexivity). cbn [map]. rewrite ?app_nil_r, <- ?app_assoc. reflexivity. }
    intros Rw. rewrite Hgiven, (O6 Rw). specialize (Hh Rw). rewrite (part_single e ready _ j (match hid with None => None | Some hs => nth_error hs e end) ND Hj).
    + set (L := hids (parts e rds) ans) in *. clearbody L. clear - Hh. revert L Hh. generalize (length ans) as n. induction n as [|n IH]; intros [|x L] Hh; try discriminate; cbn in *; [congruence|]. f_equal. apply IH, Hh.
    + destruct hid as [hs|].
      * destruct T2 as (lh & -> & T2). destruct (take_spec _ _ _ T2) as [L4 T2']. rewrite nth_error_map, (T2' _ _ Hj). destruct (nth_error_some hs e) as [x Hx]; [rewrite Yh; exact He|]. rewrite Hx. reflexivity.
      * rewrite T2, nth_error_map, Hj. reflexivity.
  - destruct (Yw Hi) as (a & hh & b & hs & -> & W1 & -> & W2). clear Yr Yw. exists ans, a, hh, b, s0, ob, w.
    split; [unfold act'; rewrite put_other by exact Hi; exact W1|]. split; [unfold hs'; rewrite put_other by exact Hi; exact W2|].
    split; [exact E1|]. split; [exact E2|]. split; [exact E3|]. rewrite Hans, Hshown, !part_none by exact Hi. rewrite !app_nil_r. split; [reflexivity|]. split; [exact O2|]. split; [reflexivity|].
    split; [exact O4|]. split; [rewrite O5; cbn [map]; rewrite ?app_nil_r; reflexivity|].
    intros Rw. rewrite Hgiven, part_none by exact Hi. rewrite app_nil_r, (O6 Rw), app_length. reflexivity.
Qed.
Lemma hist_env v out e w s0 : VenvProofs.inv env_cmd dummy envs v out -> nth_error (VenvModel.workers v) e = Some w -> nth_error envs e = Some s0 -> VenvModel.w_env w = final s0 (VenvModel.w_hist w).
Proof. intros I Ew Es. apply (VenvProofs.i_wok _ _ _ v out I e w s0 Ew Es). Qed.

(** The part of a round after the step: finished environments are reset. *)
Lemma reset_phase v1 out1 ks (rs : list (sres Ob Inf R)) pe (reps : list (nat * R * nat * nat)) z :
  VenvProofs.inv env_cmd dummy envs v1 out1 -> VenvModel.is_closed v1 = false -> NoDup ks -> (forall k, In k ks -> k < N) -> length rs = length ks -> length pe = length ks ->
  (if length (filter (fun b => b) (map (@r_done _ _ _) rs)) =? 0 then Ok (v1, (map (@r_obs _ _ _) rs, map (@r_info _ _ _) rs, pe), ([], []))
   else
     let dl := where_true (map (@r_done _ _ _) rs) in
     let* reps_d := take reps dl in
     let* dg := take ks dl in
     let '(v, rst) := VenvModel.v_reset env_cmd dummy v1 (ids_of dg) in
     let* rst := rst in
     let* rst := mapM as_reset rst in
     Ok (v, (put dl (map fst rst) (map (@r_obs _ _ _) rs), put dl (map snd rst) (map (@r_info _ _ _) rs), hreset dl pe),
         (map (fun rep : nat * R * nat * nat => snd (fst rep)) reps_d, map (fun rep : nat * R * nat * nat => snd (fst (fst rep))) reps_d))) = Ok z ->
  exists v2 lo li lh lens rets, z = (v2, (lo, li, lh), (lens, rets))
  /\ (exists out, VenvProofs.inv env_cmd dummy envs v2 out) /\ VenvModel.is_closed v2 = false /\ VenvModel.ready_id v2 = VenvModel.ready_id v1
  /\ (VenvModel.wait_num v2 = VenvModel.wait_num v1 /\ VenvModel.timed v2 = VenvModel.timed v1)
  /\ length lo = length ks /\ length lh = length ks
  /\ (forall e, ~ In e ks -> option_map (@VenvModel.w_hist _ _ _) (nth_error (VenvModel.workers v2) e) = option_map (@VenvModel.w_hist _ _ _) (nth_error (VenvModel.workers v1) e))
  /\ (forall j e r s0 w, nth_error ks j = Some e -> nth_error rs j = Some r -> nth_error envs e = Some s0 -> nth_error (VenvModel.workers v1) e = Some w ->
        (exists w2, nth_error (VenvModel.workers v2) e = Some w2 /\ VenvModel.w_hist w2 = VenvModel.w_hist w ++ (if r_done r then [VenvModel.CReset] else []))
        /\ nth_error lo j = Some (if r_done r then fst (snd (ereset (final s0 (VenvModel.w_hist w)))) else r_obs r)
        /\ (rowwise -> forall x, nth_error pe j = Some x -> nth_error lh j = Some (if r_done r then zero x else x)))
  /\ exists reps_d, take reps (where_true (map (@r_done _ _ _) rs)) = Ok reps_d /\ lens = map (fun rep : nat * R * nat * nat => snd (fst rep)) reps_d
       /\ rets = map (fun rep : nat * R * nat * nat => snd (fst (fst rep))) reps_d.
Proof.
  intros I C ND Hlt L1 L2 Hz. destruct (Nat.eqb_spec (length (filter (fun b => b) (map (@r_done _ _ _) rs))) 0) as [Z0|Z0].
  - injection Hz as <-. exists v1, (map (@r_obs _ _ _) rs), (map (@r_info _ _ _) rs), pe, [], []. split; [reflexivity|]. split; [exists out1; exact I|]. split; [exact C|]. split; [reflexivity|]. split; [split; reflexivity|].
    split; [rewrite map_length; exact L1|]. split; [exact L2|]. split; [reflexivity|]. split.
    + intros j e r s0 w Hj Hr Hs Hw. assert (D : r_done r = false). { eapply sum_zero_filter; [exact Z0|]. rewrite nth_error_map, Hr. reflexivity. }
      rewrite D. split; [exists w; split; [exact Hw|rewrite app_nil_r; reflexivity]|]. split; [rewrite nth_error_map, Hr; reflexivity|]. auto.
    + exists []. assert (W : where_true (map (@r_done _ _ _) rs) = []) by (apply length_zero_iff_nil; rewrite where_length; exact Z0). rewrite W. repeat split.
  - cbv zeta in Hz. set (dl := where_true (map (@r_done _ _ _) rs)) in *. destruct (take reps dl) as [reps_d|] eqn:Et; [|discriminate]. cbn [bind] in Hz.
    destruct (take ks dl) as [dg|] eqn:Eg; [|discriminate]. cbn [bind] in Hz. destruct (VenvModel.v_reset env_cmd dummy v1 (ids_of dg)) as [v2 rst] eqn:Er.
    destruct rst as [rst|]; [|discriminate]. cbn [bind] in Hz. destruct (mapM as_reset rst) as [xs|] eqn:Ex; [|discriminate]. cbn [bind] in Hz. injection Hz as <-.
    destruct (take_spec _ _ _ Eg) as [Lg Hg].
    assert (NDdl : NoDup dl) by apply where_nodup.
    assert (DL : forall j, In j dl <-> exists r, nth_error rs j = Some r /\ r_done r = true).
    { intros j. unfold dl. rewrite where_in, nth_error_map. destruct (nth_error rs j) as [r|]; cbn.
      - split; [intro K; exists r; split; [reflexivity|congruence]|intros (r' & K1 & K2); congruence].
      - split; [discriminate|intros (r' & K1 & _); discriminate]. }
    assert (Ldl : forall k i, nth_error dl k = Some i -> i < length ks).
    { intros k i Hk. apply nth_error_In, DL in Hk as (r & Hr & _). rewrite <- L1. eapply nth_error_lt; eauto. }
    assert (NDg : NoDup dg).
    { apply NoDup_nth_error. intros i j Hi Eij. rewrite Lg in Hi. destruct (nth_error_some _ _ Hi) as [di Hdi]. rewrite (Hg _ _ Hdi) in Eij.
      destruct (nth_error_some ks di (Ldl _ _ Hdi)) as [x Hx]. rewrite Hx in Eij. symmetry in Eij.
      assert (Lj : j < length dl) by (rewrite <- Lg; eapply nth_error_lt; eauto). destruct (nth_error_some _ _ Lj) as [dj Hdj]. rewrite (Hg _ _ Hdj) in Eij.
      assert (di = dj) by (exact (nodup_pos _ _ _ _ ND Hx Eij)). subst. exact (nodup_pos _ _ _ _ NDdl Hdi Hdj). }
    destruct (AsyncVenvProofs.reset_facts env_cmd dummy envs v1 out1 dg v2 rst I C NDg Er) as (F1 & F2 & Fw & Ft & F3 & _ & F5 & _ & F7 & F8).
    pose proof (mapM_length _ _ _ Ex) as Lx.
    assert (Lrst : length rst = length dg) by (rewrite <- (map_length fst rst), F3, map_length; reflexivity).
    exists v2. eexists _, _, _, _, _. split; [reflexivity|]. split; [eexists; exact F2|]. split; [exact F1|]. split; [exact F5|]. split; [split; [exact Fw|exact Ft]|].
    split; [rewrite put_length, map_length; exact L1|]. split; [rewrite Hhreset; exact L2|].
    assert (Lw : length (VenvModel.workers v2) = length (VenvModel.workers v1)) by (rewrite (VenvProofs.i_len _ _ _ _ _ F2), (VenvProofs.i_len _ _ _ _ _ I); reflexivity).
    split; [|split].
    + intros e He. destruct (nth_error (VenvModel.workers v2) e) as [w2|] eqn:E2.
      * destruct (F7 e w2 E2) as (w & W1 & W2). rewrite W1. cbn. rewrite W2, AsyncVenvProofs.part_nil; [cbn; rewrite app_nil_r; reflexivity|].
        intros F. apply In_nth_error in F as [k Hk]. assert (Lk : k < length dl) by (rewrite <- Lg; eapply nth_error_lt; eauto). destruct (nth_error_some _ _ Lk) as [i Hi].
        apply He. apply nth_error_In with i. rewrite <- (Hg _ _ Hi). exact Hk.
      * apply nth_error_None in E2. rewrite Lw in E2. apply nth_error_None in E2. rewrite E2. reflexivity.
    + intros j e r s0 w Hj Hr Hs Hw. assert (He : e < N) by (apply Hlt; eapply nth_error_In; eauto).
      destruct (nth_error_some (VenvModel.workers v2) e) as [w2 Hw2]; [rewrite (VenvProofs.i_len _ _ _ _ _ F2); exact He|].
      destruct (F7 e w2 Hw2) as (w' & W1 & W2). rewrite Hw in W1. injection W1 as <-.
      assert (Hin : In j dl <-> r_done r = true). { rewrite DL. split; [intros (r' & K1 & K2); congruence|eauto]. }
      destruct (r_done r) eqn:D.
      * assert (Hd : In j dl) by (apply Hin; reflexivity). apply In_nth_error in Hd as [k Hk].
        assert (Hgk : nth_error dg k = Some e) by (rewrite (Hg _ _ Hk); exact Hj).
        split. { exists w2. split; [exact Hw2|]. rewrite W2, (AsyncVenvProofs.part_one e dg dg k e NDg Hgk Hgk). reflexivity. }
        destruct (nth_error_some rst k) as [[z a] Hz]; [rewrite Lrst; eapply nth_error_lt; eauto|].
        assert (z = Z.of_nat e). { assert (Q : nth_error (map fst rst) k = Some z) by (rewrite nth_error_map, Hz; reflexivity). rewrite F3, nth_error_map, Hgk in Q. injection Q as <-. reflexivity. } subst z.
        destruct (F8 e w2 s0 a Hw2 Hs (nth_error_In _ _ Hz)) as (hh & cc & K1 & K2).
        rewrite W2, (AsyncVenvProofs.part_one e dg dg k e NDg Hgk Hgk) in K1. cbn [map] in K1. apply app_inj_tail in K1 as [<- <-].
        destruct (nth_error_some xs k) as [x Hx]; [rewrite Lx; eapply nth_error_lt; eauto|].
        pose proof (mapM_nth _ _ _ _ _ Ex Hz) as (x' & M1 & M2). rewrite Hx in M1. injection M1 as <-. subst a. cbn [AsyncModel.env_cmd] in M2.
        destruct (ereset (final s0 (VenvModel.w_hist w))) as [s2 [ob inf]] eqn:Es. cbn in M2. injection M2 as <-.
        split. { apply put_at with k; [exact NDdl|exact Hk|rewrite nth_error_map, Hx; reflexivity|rewrite map_length; eapply nth_error_lt; eauto]. }
        intros Rw y Hy. rewrite (Rw dl pe j y Hy). replace (existsb (Nat.eqb j) dl) with true; [reflexivity|]. symmetry. apply existsb_exists. exists j. split; [eapply nth_error_In; eauto|apply Nat.eqb_refl].
      * assert (Hd : ~ In j dl) by (intros F; apply Hin in F; discriminate).
        split. { exists w2. split; [exact Hw2|]. rewrite W2, AsyncVenvProofs.part_nil; [reflexivity|].
          intros F. apply In_nth_error in F as [k Hk]. assert (Lk : k < length dl) by (rewrite <- Lg; eapply nth_error_lt; eauto). destruct (nth_error_some _ _ Lk) as [i Hi].
          rewrite (Hg _ _ Hi) in Hk. assert (i = j) by (exact (nodup_pos _ _ _ _ ND Hk Hj)). subst i. apply Hd. eapply nth_error_In; eauto. }
        split. { rewrite put_other by exact Hd. rewrite nth_error_map, Hr. reflexivity. }
        intros Rw y Hy. rewrite (Rw dl pe j y Hy). replace (existsb (Nat.eqb j) dl) with false; [reflexivity|]. symmetry. apply not_true_is_false. intros F. apply existsb_exists in F as (i & F1' & F2'). apply Nat.eqb_eq in F2'. subst i. contradiction.
    + exists reps_d. split; [reflexivity|]. split; reflexivity.
Qed.

(** ** One round *)
Record lok (cb : list acall) (rb : list (list nat * list trans)) (l : arun) (rn : list (list nat * list trans)) : Prop := {
  q_inv : ainv (n_venv l) (n_mgr l) (n_ready l) (n_obs l) (n_hid l) (n_act l) (cb ++ n_calls l) (rb ++ rn);
  q_obs : take (n_obs l) (n_ready l) = Ok (n_last_obs l);
  q_hid : match n_hid l with None => n_last_hid l = None | Some hs => exists lh, n_last_hid l = Some lh /\ take hs (n_ready l) = Ok lh end;
  q_steps : n_steps l = list_sum (map (fun rd => length (fst rd)) rn);
  q_eps : n_eps l = length (enders rn);
  q_len : length (n_lens l) = n_eps l /\ length (n_returns l) = n_eps l;
  q_stats : forall e, e < N -> let eps := finished (open_episode (proj (length ns) e (ops0 ++ as_adds rb))) (parts e rn) in
    part e (enders rn, n_returns l) = map (fun ep => total r0 radd (snd ep)) eps /\ part e (enders rn, n_lens l) = map (fun ep => length (snd ep)) eps
}.

Lemma take_put {T} idx (xs l : list T) : NoDup idx -> length xs = length idx -> (forall i, In i idx -> i < length l) -> take (put idx xs l) idx = Ok xs.
Proof.
  intros ND L Hi. destruct (take_total (put idx xs l) idx) as [r Hr]; [intros i H'; rewrite put_length; apply Hi, H'|]. rewrite Hr. f_equal. destruct (take_spec _ _ _ Hr) as [L2 H2].
  apply nth_error_ext. intros j. destruct (nth_error idx j) as [i|] eqn:Ej.
  - rewrite (H2 _ _ Ej). destruct (nth_error_some xs j) as [x Hx]; [rewrite L; eapply nth_error_lt; eauto|]. rewrite Hx. apply put_at with j; auto. apply Hi. eapply nth_error_In; eauto.
  - apply nth_error_None in Ej. rewrite (proj2 (nth_error_None r j)), (proj2 (nth_error_None xs j)); [reflexivity|lia|lia].
Qed.

Lemma around_step cb rb l rn rounds l' : lok cb rb l rn -> around rounds l = Ok l' ->
  exists rd, lok cb rb l' (rn ++ [rd]) /\ 0 < length (fst rd) <= N /\ n_steps l' = n_steps l + length (fst rd)
    /\ n_eps l' = n_eps l + length (enders [rd]).
Proof.
  intros Q E. pose proof (q_inv _ _ _ _ Q) as Y. unfold AsyncModel.around in E.
  destruct (negb (length (n_obs l) =? length (n_act l)) || negb (length (n_act l) =? VenvModel.env_num (n_venv l))); [discriminate|].
  destruct (act_fn (n_pol l) (n_ready l) (n_last_obs l) (n_last_inf l) (n_last_hid l)) as [p [acts hid]] eqn:Ea.
  destruct (Hstate (n_pol l) (n_ready l) (n_last_obs l) (n_last_inf l) (n_last_hid l)) as (h & Hh & Lh). rewrite Ea in Hh. cbn [snd] in Hh. subst hid.
  destruct (mapM cell (map fst acts)) as [cells|] eqn:Ec; [|discriminate]. pose proof (mapM_is_map cell fl Hcell _ _ Ec) as ->.
  cbn [bind] in E. unfold assign at 1 in E. destruct (Nat.eqb_spec (length (map fl (map fst acts))) (length (n_ready l))) as [La|]; [|discriminate]. cbn [bind] in E.
  rewrite !map_length in La. destruct (take_spec _ _ _ (q_obs _ _ _ _ Q)) as [Lo _]. rewrite Lo in Lh.
  set (hs' := match n_hid l with Some hs => put (n_ready l) h hs | None => h end).
  set (act' := put (n_ready l) (map fl (map fst acts)) (n_act l)) in *.
  set (calls' := (cb ++ n_calls l) ++ [(n_ready l, n_last_obs l, n_last_hid l, acts, Some h)]).
  destruct (act_phase _ _ _ _ _ _ _ _ _ _ acts h Y (q_obs _ _ _ _ Q) (q_hid _ _ _ _ Q) La Lh) as (LA & LH & Mid). fold act' hs' calls' in LA, LH, Mid.
  match type of E with bind ?X _ = _ => assert (EX : X = Ok (Some hs')) end.
  { unfold hs', assign. destruct (n_hid l); [|reflexivity]. rewrite Lh, Nat.eqb_refl. reflexivity. }
  rewrite EX in E. cbn [bind] in E. clear EX.
  destruct (VenvModel.v_step env_cmd dummy (n_venv l) (Some (map snd acts)) (ids_of (n_ready l)) rounds) as [v1 out1] eqn:Ev. destruct out1 as [out1|]; [|discriminate]. cbn [bind] in E.
  destruct (y_inv _ _ _ _ _ _ _ _ Y) as [out I].
  destruct (AsyncVenvProofs.step_facts env_cmd dummy envs (n_venv l) out (map snd acts) (n_ready l) rounds v1 out1 I (y_open _ _ _ _ _ _ _ _ Y) (y_nd _ _ _ _ _ _ _ _ Y) Ev)
    as (_ & C1 & I1 & Wn1 & Wt1 & Wmin & _ & (ks & K1 & NDk & Kne & Klt & Kr) & Hhist & Hres).
  destruct (mapM as_step out1) as [steps|] eqn:Es; [|discriminate]. cbn [bind] in E. pose proof (mapM_length _ _ _ Es) as Ls.
  assert (Lout : length out1 = length ks) by (rewrite <- (map_length fst out1), K1, map_length; reflexivity).
  assert (Hst : forall j e, nth_error ks j = Some e -> exists r, nth_error out1 j = Some (Z.of_nat e, AStep r) /\ nth_error steps j = Some (e, r)).
  { intros j e Hj. destruct (nth_error_some out1 j) as [[z a] Ho]; [rewrite Lout; eapply nth_error_lt; eauto|].
    assert (z = Z.of_nat e). { assert (X : nth_error (map fst out1) j = Some z) by (rewrite nth_error_map, Ho; reflexivity). rewrite K1, nth_error_map, Hj in X. injection X as <-. reflexivity. } subst z.
    destruct (mapM_nth _ _ _ _ _ Es Ho) as (x & X1 & X2). unfold as_step in X2. cbn [fst snd] in X2. destruct a as [r| |]; try discriminate. injection X2 as <-. rewrite Nat2Z.id in X1. eauto. }
  assert (Eks : map fst steps = ks).
  { apply nth_error_ext. intros j. rewrite nth_error_map. destruct (nth_error ks j) as [e|] eqn:Ej; [destruct (Hst _ _ Ej) as (r & _ & X); rewrite X; reflexivity|].
    apply nth_error_None in Ej. rewrite (proj2 (nth_error_None steps j)); [reflexivity|lia]. }
  rewrite Eks in E. set (rs := map snd steps) in *. assert (Lrs : length rs = length ks) by (unfold rs; rewrite map_length, <- Eks, map_length; reflexivity).
  destruct (take (n_obs l) ks) as [ob|] eqn:Eob; [|discriminate]. cbn [bind] in E. destruct (take act' ks) as [ac|] eqn:Eac; [|discriminate]. cbn [bind] in E.
  destruct (take hs' ks) as [pe|] eqn:Epe; [|discriminate]. cbn [bind] in E.
  destruct (take_spec _ _ _ Eob) as [Lob Tob]. destruct (take_spec _ _ _ Eac) as [Lac Tac]. destruct (take_spec _ _ _ Epe) as [Lpe Tpe].
  set (rows := rows_of ob (combine ac pe) rs) in *.
  assert (Lcp : length (combine ac pe) = length ob) by (rewrite combine_length; lia).
  assert (Lrows : length rows = length ks) by (unfold rows; rewrite rows_of_length; lia).
  destruct (m_add r0 radd last_frame o (n_mgr l) (Some (map Z.of_nat ks)) rows) as [[m' reps]|] eqn:Em; [|discriminate]. cbn [bind] in E.
  match type of E with bind ?X _ = _ => destruct X as [z|] eqn:Ez; [|discriminate] end. cbn [bind] in E.
  destruct (reset_phase v1 (out ++ out1) ks rs pe reps z I1 C1 NDk Klt Lrs Lpe Ez) as (v2 & lo & li & lh & lens & rets & -> & (out2 & I2) & C2 & R2 & (Wn2 & Wt2) & Llo & Llh & Hoth & Hrst & reps_d & Et & -> & ->).
  cbn [fst snd] in E. injection E as <-. clear Ez.
  set (rd := (ks, rows)).
  assert (Lks : forall k, In k ks -> k < length (n_obs l)) by (intros k Hk; rewrite (y_obs _ _ _ _ _ _ _ _ Y); apply Klt, Hk).
  (* what happened in an environment that answered *)
  assert (Row : forall j e, nth_error ks j = Some e -> exists ans a hh b s0 ob1 w2 t, nth_error rows j = Some t
    /\ nth_error envs e = Some s0 /\ nth_error obs0 e = Some ob1 /\ nth_error (VenvModel.workers v2) e = Some w2
    /\ let s := final s0 (pre e) in let s1 := fst (solo_end 0 s ob1 ans) in
       answered e (map (reply fl) calls') = ans ++ [((a, hh), b)] /\ parts e (rb ++ rn) = solo 0 s ob1 ans
    /\ shown e (map (reply fl) calls') = map (@t_obs _ _ _ _) (parts e (rb ++ rn)) ++ [snd (solo_end 0 s ob1 ans)]
    /\ t = transition estep' 0 s1 (snd (solo_end 0 s ob1 ans)) (a, hh) b
    /\ nth_error lo j = Some (snd (after 0 s1 b))
    /\ VenvModel.w_hist w2 = pre e ++ cmds s ans ++ VenvModel.CStep b :: (if r_done (snd (estep s1 b)) then [VenvModel.CReset] else [])
    /\ (rowwise -> given e calls' = firstn (length ans + 1) (hids (parts e (rb ++ rn)) ans) /\ nth_error lh j = Some (if ends t then zero hh else hh))).
  { intros j e Hj. assert (He : e < N) by (apply Klt; eapply nth_error_In; eauto).
    destruct (Mid e He) as (ans & a & hh & b & s0 & ob1 & w & M1 & M2 & M3 & M4 & M5 & M6 & M7 & M8 & M9 & M10 & M11). cbv zeta in *.
    set (s := final s0 (pre e)) in *. set (s1 := fst (solo_end 0 s ob1 ans)) in *.
    destruct (nth_error_some (VenvModel.workers v1) e) as [w1 Hw1]; [rewrite (VenvProofs.i_len _ _ _ _ _ I1); exact He|].
    destruct (Hhist e w1 Hw1) as (w' & W1 & W2). rewrite M5 in W1. injection W1 as <-. rewrite M10 in W2.
    destruct (Hst j e Hj) as (r & Hr1 & Hr2). destruct (Hres e w1 s0 (AStep r) Hw1 M3 (nth_error_In _ _ Hr1)) as (hc & cc & X1 & X2).
    rewrite W2 in X1. rewrite app_assoc in X1. apply app_inj_tail in X1 as [<- <-].
    rewrite AsyncVenvProofs.final_app in X2. fold s in X2. rewrite (final_cmds ans s ob1) in X2. fold s1 in X2. cbn [AsyncModel.env_cmd] in X2.
    assert (Er : r = snd (estep s1 b)) by (revert X2; destruct (estep s1 b); cbn; congruence).
    assert (Hrs : nth_error rs j = Some r) by (unfold rs; rewrite nth_error_map, Hr2; reflexivity).
    destruct (Hrst j e r s0 w1 Hj Hrs M3 Hw1) as ((w2 & V1 & V2) & V3 & V4).
    assert (Hrow : nth_error rows j = Some (transition estep' 0 s1 (snd (solo_end 0 s ob1 ans)) (a, hh) b)).
    { unfold rows. erewrite rows_of_nth; [| |eapply nth_error_combine|exact Hrs]; [|rewrite (Tob _ _ Hj); exact M9|rewrite (Tac _ _ Hj); exact M1|rewrite (Tpe _ _ Hj); exact M2].
      unfold transition. rewrite Er. reflexivity. }
    exists ans, a, hh, b, s0, ob1, w2. eexists. split; [exact Hrow|]. split; [exact M3|]. split; [exact M4|]. split; [exact V1|]. cbv zeta. fold s. fold s1. split; [exact M6|]. split; [exact M7|]. split; [exact M8|]. split; [reflexivity|].
    assert (Hf : final s0 (VenvModel.w_hist w1) = fst (estep s1 b)).
    { rewrite W2, !AsyncVenvProofs.final_app. fold s. rewrite (final_cmds ans s ob1). fold s1. cbn. destruct (estep s1 b); reflexivity. }
    split. { rewrite V3, Hf. f_equal. rewrite Er. unfold CollectSpec.after, r_done. destruct (estep s1 b) as [s2 r2]. cbn [fst snd]. destruct (r_term r2 || r_trunc r2); [|reflexivity]. destruct (ereset s2); reflexivity. }
    split. { rewrite V2, W2, Er. rewrite <- !app_assoc. reflexivity. }
    intros Rw. split; [apply M11, Rw|]. rewrite (V4 Rw hh) by (rewrite (Tpe _ _ Hj); exact M2). rewrite Er. reflexivity. }
  assert (Dn : map ends rows = map (@r_done _ _ _) rs) by (apply rows_done_gen; lia).
  destruct (enders_facts ks rows _ Lrows Dn NDk) as (Lne & NDne & Hne). fold rd in Lne, NDne, Hne.
  destruct (take_spec _ _ _ Et) as [Lrd Trd].
  exists rd. split; [|cbn [rd fst n_steps n_eps]; split; [|split; [reflexivity|]]].
  2:{ split; [destruct ks; [destruct Kne; reflexivity|cbn; lia]|]. rewrite <- (seq_length N 0). apply NoDup_incl_length; [exact NDk|]. intros k Hk. apply in_seq. specialize (Klt k Hk). lia. }
  2:{ rewrite Lne, where_length. reflexivity. }
  split; cbn [n_venv n_mgr n_pol n_ready n_obs n_inf n_hid n_act n_last_obs n_last_inf n_last_hid n_steps n_eps n_lens n_returns n_calls option_map].
  - split.
    + exists out2. exact I2.
    + exact C2.
    + destruct (y_mgr _ _ _ _ _ _ _ _ Y) as [outs Hr]. exists (outs ++ combine (map Z.of_nat ks) reps).
      rewrite app_assoc, as_adds_app, app_assoc, m_run_app, Hr. cbn [bind fst snd as_adds map rd ManagerSpec.m_run]. rewrite Em. cbn [bind fst snd]. rewrite app_nil_r. reflexivity.
    + intros x Hx. rewrite app_assoc in Hx. apply in_app_or in Hx as [Hx|[<-|[]]]; [apply (y_rds _ _ _ _ _ _ _ _ Y); exact Hx|]. cbn [rd fst snd]. auto.
    + exact NDk.
    + intros k. rewrite R2, Kr. split; [auto|]. intros [[F1 F2]|F]; [|exact F]. apply (y_ready _ _ _ _ _ _ _ _ Y) in F1. contradiction.
    + rewrite put_length. apply (y_obs _ _ _ _ _ _ _ _ Y).
    + exact LA.
    + rewrite Wn2, Wt2, Wn1, Wt1. apply (y_wn _ _ _ _ _ _ _ _ Y).
    + intros Hd Ht. destruct (y_wn _ _ _ _ _ _ _ _ Y) as [Ywn Ytm]. rewrite Ytm, Ywn in Wmin. specialize (Wmin Hd Ht). rewrite Lout in Wmin.
      enough (X : length (VenvModel.waiting_id (n_venv l)) + length (n_ready l) = N) by (rewrite X in Wmin; exact Wmin).
      pose proof (Permutation_length (VenvProofs.i_perm _ _ _ _ _ I)) as P. unfold VenvProofs.zids in P. rewrite app_length, map_length, seq_length in P. rewrite <- P. f_equal.
      apply Nat.le_antisymm.
      * rewrite <- (map_length Z.of_nat (n_ready l)). apply NoDup_incl_length; [apply AsyncVenvProofs.zmap_nodup, (y_nd _ _ _ _ _ _ _ _ Y)|]. intros i Hi. apply in_map_iff in Hi as (k & <- & Hk). apply (y_ready _ _ _ _ _ _ _ _ Y), Hk.
      * rewrite <- (map_length Z.of_nat (n_ready l)). pose proof (VenvProofs.inv_nodup _ _ _ _ _ I) as Nd. apply NoDup_incl_length.
        { clear - Nd. induction (VenvModel.waiting_id (n_venv l)) as [|x m IH]; [exact Nd|]. apply IH. inversion Nd; assumption. }
        intros i Hi. pose proof (VenvProofs.inv_range _ _ _ _ _ i I (or_intror Hi)) as Ri. apply in_map_iff. exists (Z.to_nat i). split; [lia|]. apply (y_ready _ _ _ _ _ _ _ _ Y). rewrite Z2Nat.id by lia. exact Hi.
    + rewrite put_length. exact LH.
    + intros e He. rewrite app_assoc. fold calls'. rewrite (app_assoc rb rn [rd]).
      assert (Hparts : parts e ((rb ++ rn) ++ [rd]) = parts e (rb ++ rn) ++ part e (ks, rows)) by (rewrite parts_app, parts_one; reflexivity).
      destruct (in_dec Nat.eq_dec e ks) as [Hi|Hi].
      * apply In_nth_error in Hi as [j Hj]. destruct (Row j e Hj) as (ans & a & hh & b & s0 & ob1 & w2 & t & X1 & X2 & X3 & X4 & X5 & X6 & X7 & X8 & X9 & X10 & X11). cbv zeta in *.
        set (s := final s0 (pre e)) in *. set (s1 := fst (solo_end 0 s ob1 ans)) in *.
        rewrite (part_single e ks rows j t NDk Hj X1) in Hparts. exists (ans ++ [((a, hh), b)]), []. split; [|split].
        -- exists s0, ob1, w2. split; [exact X2|]. split; [exact X3|]. split; [exact X4|]. cbv zeta. fold s. rewrite Hparts, app_nil_r.
           assert (Hend : solo_end 0 s ob1 (ans ++ [((a, hh), b)]) = after 0 s1 b) by (rewrite solo_end_app; cbn [CollectSpec.solo_end]; fold s1; symmetry; apply surjective_pairing).
           split; [exact X5|]. split; [rewrite solo_app, X6, X8; reflexivity|]. split; [rewrite X7, map_app, X8; cbn [map]; rewrite app_nil_r; reflexivity|].
           split. { rewrite Hend. apply put_at with j; auto. rewrite (y_obs _ _ _ _ _ _ _ _ Y). exact He. }
           split. { rewrite X10, (cmds_app ans s ob1). fold s1. cbn [cmds map]. rewrite ?app_nil_r, <- ?app_assoc. reflexivity. }
           intros Rw. destruct (X11 Rw) as [G1 G2]. rewrite G1, app_length. cbn [length]. unfold hids.
           assert (Lp : length (parts e (rb ++ rn)) = length ans) by (rewrite X6; apply solo_length).
           assert (Cp : combine (parts e (rb ++ rn) ++ [t]) (ans ++ [((a, hh), b)]) = combine (parts e (rb ++ rn)) ans ++ [(t, ((a, hh), b))]).
           { clear - Lp. revert Lp. generalize (parts e (rb ++ rn)) as ps. clear. revert ans. induction ans as [|x ans IH]; intros [|y ps] Lp; try discriminate; [reflexivity|]. cbn. f_equal. apply IH. cbn in Lp. lia. }
           rewrite Cp, map_app. cbn [map fst snd]. rewrite Nat.add_1_r. cbn [firstn]. f_equal. rewrite firstn_app, map_length, combine_length, Lp, Nat.min_id, Nat.sub_diag. cbn [firstn]. rewrite app_nil_r. reflexivity.
        -- intros _. split; [reflexivity|]. intros Rw. destruct (X11 Rw) as [G1 G2]. rewrite Hparts, app_length. cbn [length]. rewrite Nat.add_1_r. unfold hids. cbn [nth_error].
           assert (Lp : length (parts e (rb ++ rn)) = length ans) by (rewrite X6; apply solo_length).
           rewrite nth_error_map. erewrite (nth_error_combine _ _ (length ans)); [| rewrite nth_error_app2 by lia; rewrite Lp, Nat.sub_diag; reflexivity|rewrite nth_error_app2 by lia; rewrite Nat.sub_diag; reflexivity].
           cbn [option_map fst snd]. f_equal. symmetry. apply put_at with j; auto. rewrite LH. exact He.
        -- intros F. destruct F. eapply nth_error_In; eauto.
      * rewrite part_none in Hparts by exact Hi. rewrite app_nil_r in Hparts. destruct (Mid e He) as (ans & a & hh & b & s0 & ob1 & w & M1 & M2 & M3 & M4 & M5 & M6 & M7 & M8 & M9 & M10 & M11). cbv zeta in *.
        set (s := final s0 (pre e)) in *.
        destruct (nth_error_some (VenvModel.workers v1) e) as [w1 Hw1]; [rewrite (VenvProofs.i_len _ _ _ _ _ I1); exact He|].
        destruct (Hhist e w1 Hw1) as (w' & W1 & W2). rewrite M5 in W1. injection W1 as <-. rewrite M10 in W2.
        pose proof (Hoth e Hi) as Ho. rewrite Hw1 in Ho. destruct (nth_error (VenvModel.workers v2) e) as [w2|] eqn:Hw2; [|discriminate]. cbn [option_map] in Ho. injection Ho as Ho.
        exists ans, [((a, hh), b)]. split; [|split].
        -- exists s0, ob1, w2. split; [exact M3|]. split; [exact M4|]. split; [exact Hw2|]. cbv zeta. fold s. rewrite Hparts. split; [exact M6|]. split; [exact M7|]. split; [exact M8|].
           split; [rewrite put_other by exact Hi; exact M9|]. split; [rewrite Ho, W2; reflexivity|]. intros Rw. rewrite app_length. apply M11, Rw.
        -- intros F. contradiction.
        -- intros _. exists a, hh, b. eexists. split; [reflexivity|]. split; [exact M1|]. split; [reflexivity|]. rewrite put_other by exact Hi. exact M2.
  - apply take_put; auto.
  - exists lh. split; [reflexivity|]. apply take_put; auto. intros i Hi. rewrite LH. apply Klt, Hi.
  - rewrite (q_steps _ _ _ _ Q), map_app, list_sum_app. cbn. lia.
  - rewrite (q_eps _ _ _ _ Q), enders_app, app_length, Lne, where_length. reflexivity.
  - destruct (q_len _ _ _ _ Q) as [X1 X2]. rewrite !app_length, !map_length, X1, X2, Lrd, where_length. auto.
  - intros e He. cbv zeta. destruct (q_stats _ _ _ _ Q e He) as [S1 S2]. destruct (q_len _ _ _ _ Q) as [X1 X2]. pose proof (q_eps _ _ _ _ Q) as X3.
    rewrite enders_app, !part_app by congruence. rewrite S1, S2, parts_app, parts_one, finished_app, !map_app.
    assert (Hb : add_all (open_episode (proj (length ns) e (ops0 ++ as_adds rb))) (parts e rn) = open_episode (proj (length ns) e (ops0 ++ as_adds (rb ++ rn)))).
    { rewrite as_adds_app, app_assoc, (proj_app _ _ (ops0 ++ as_adds rb)), open_app, proj_adds; [reflexivity|lia|]. intros x i Hx Hxi. destruct (y_rds _ _ _ _ _ _ _ _ Y x) as (_ & _ & Z); [apply in_or_app; right; exact Hx|]. specialize (Z i Hxi). lia. }
    rewrite Hb.
    enough (G : part e (enders [rd], map (fun r : nat * R * nat * nat => snd (fst (fst r))) reps_d) = map (fun ep => total r0 radd (snd ep)) (finished (open_episode (proj (length ns) e (ops0 ++ as_adds (rb ++ rn)))) (part e rd))
      /\ part e (enders [rd], map (fun r : nat * R * nat * nat => snd (fst r)) reps_d) = map (fun ep => length (snd ep)) (finished (open_episode (proj (length ns) e (ops0 ++ as_adds (rb ++ rn)))) (part e rd))).
    { destruct G as [-> ->]. auto. }
    destruct (in_dec Nat.eq_dec e ks) as [Hi|Hi].
    2:{ assert (Hn : ~ In e (enders [rd])).
        { intros K. apply In_nth_error in K as [k Hk]. assert (Lk : k < length (where_true (map (@r_done _ _ _) rs))) by (rewrite <- Lne; eapply nth_error_lt; eauto).
          destruct (nth_error_some _ _ Lk) as [i Hdi]. rewrite (Hne _ _ Hdi) in Hk. apply Hi. eapply nth_error_In; eauto. }
        unfold rd at 2 4. rewrite !part_none by assumption. auto. }
    apply In_nth_error in Hi as [j Hj]. destruct (nth_error_some rows j) as [t Ht]; [rewrite Lrows; eapply nth_error_lt; eauto|].
    unfold rd at 2 4. rewrite (part_single e ks rows j t NDk Hj Ht). cbn [finished]. rewrite app_nil_r.
    assert (Dj : nth_error (map (@r_done _ _ _) rs) j = Some (ends t)) by (rewrite <- Dn, nth_error_map, Ht; reflexivity).
    destruct (ends t) eqn:Ee.
    2:{ assert (Hn : ~ In e (enders [rd])).
        { intros K. apply In_nth_error in K as [k Hk]. assert (Lk : k < length (where_true (map (@r_done _ _ _) rs))) by (rewrite <- Lne; eapply nth_error_lt; eauto).
          destruct (nth_error_some _ _ Lk) as [i Hdi]. rewrite (Hne _ _ Hdi) in Hk. assert (i = j) by (exact (nodup_pos _ _ _ _ NDk Hk Hj)). subst.
          apply nth_error_In, where_in in Hdi. congruence. }
        rewrite !part_none by assumption. auto. }
    assert (Hd : In j (where_true (map (@r_done _ _ _) rs))) by (apply where_in; exact Dj). apply In_nth_error in Hd as [k Hk].
    assert (Hek : nth_error (enders [rd]) k = Some e) by (rewrite (Hne _ _ Hk); exact Hj).
    destruct (nth_error_some reps_d k) as [rep Hrep]; [rewrite Lrd; eapply nth_error_lt; eauto|].
    pose proof Hrep as Hrep'. rewrite (Trd _ _ Hk) in Hrep'. destruct (y_mgr _ _ _ _ _ _ _ _ Y) as [outs Hr].
    destruct (report_at r0 radd last_frame o ns _ _ _ ks rows m' reps j e t rep Hpos Hr Em NDk) as [G1 G2]; auto.
    { intros i Hi. specialize (Klt i Hi). lia. }
    rewrite (part_single e _ _ k (snd (fst (fst rep))) NDne Hek) by (rewrite nth_error_map, Hrep; reflexivity).
    rewrite (part_single e _ _ k (snd (fst rep)) NDne Hek) by (rewrite nth_error_map, Hrep; reflexivity).
    cbn [map fst snd]. rewrite G1, G2. auto.
Qed.

(** ** Whole runs *)
Definition counts (rn : list (list nat * list trans)) : nat * nat := (list_sum (map (fun rd => length (fst rd)) rn), length (enders rn)).
Definition stops (nst nep : option nat) (x : nat * nat) : bool := reached nst (fst x) || reached nep (snd x).
Lemma arounds_step nst nep cb rb : forall sched l rn l', lok cb rb l rn -> arounds sched nst nep l = Ok l' ->
  exists more rd, lok cb rb l' (rn ++ more ++ [rd]) /\ 0 < length (fst rd) <= N /\ stops nst nep (counts (rn ++ more ++ [rd])) = true
    /\ (more = [] \/ stops nst nep (counts (rn ++ more)) = false).
Proof.
  induction sched as [|rounds sched IH]; intros l rn l' Q E; [discriminate|]. cbn [AsyncModel.arounds] in E. destruct (around rounds l) as [l1|] eqn:E1; [|discriminate]. cbn [bind] in E.
  destruct (around_step _ _ _ _ _ _ Q E1) as (rd & Q1 & H1 & _).
  assert (Es : reached nst (n_steps l1) || reached nep (n_eps l1) = stops nst nep (counts (rn ++ [rd]))) by (unfold stops, counts; cbn [fst snd]; rewrite <- (q_steps _ _ _ _ Q1), <- (q_eps _ _ _ _ Q1); reflexivity).
  rewrite Es in E. destruct (stops nst nep (counts (rn ++ [rd]))) eqn:Ss.
  - injection E as <-. exists [], rd. cbn [app]. auto.
  - destruct (IH _ _ _ Q1 E) as (more & rd' & Q2 & H2 & H3 & H4). exists (rd :: more), rd'. rewrite <- app_assoc in Q2, H3. cbn [app] in *. split; [exact Q2|]. split; [exact H2|]. split; [exact H3|].
    right. destruct H4 as [-> | H4]; [exact Ss|]. rewrite <- app_assoc in H4. exact H4.
Qed.
Definition cok (c : acoll) (cb : list acall) (rb : list (list nat * list trans)) : Prop :=
  exists obs inf, a_cur c = Some (obs, inf) /\ ainv (a_venv c) (a_mgr c) (a_ready c) obs (a_hid c) (a_act c) cb rb.
Lemma collect_step sched nst nep c cb rb c' l : cok c cb rb -> a_collect sched nst nep c = Ok (c', l) ->
  exists more rd, cok c' (cb ++ n_calls l) (rb ++ more ++ [rd]) /\ lok cb rb l (more ++ [rd]) /\ 0 < length (fst rd) <= N
    /\ stops nst nep (counts (more ++ [rd])) = true /\ (more = [] \/ stops nst nep (counts more) = false)
    /\ a_mgr c' = n_mgr l /\ a_step c' = a_step c + n_steps l /\ a_episode c' = a_episode c + n_eps l.
Proof.
  intros (obs & inf & Ec & Y) E. unfold AsyncModel.a_collect in E. destruct (validate nst nep); [|discriminate]. cbn [bind] in E. unfold a_start in E. rewrite Ec in E.
  destruct (take obs (a_ready c)) as [lo|] eqn:El; [|discriminate]. cbn [bind] in E. destruct (take inf (a_ready c)) as [li|]; [|discriminate]. cbn [bind] in E.
  match type of E with context [match ?X with Ok _ => _ | Err _ => _ end] => idtac | _ => idtac end.
  assert (Hx : exists lh, match a_hid c with None => Ok None | Some hs => let* h := take hs (a_ready c) in Ok (Some h) end = Ok lh
    /\ match a_hid c with None => lh = None | Some hs => exists lh', lh = Some lh' /\ take hs (a_ready c) = Ok lh' end).
  { destruct (a_hid c) as [hs|]; [|exists None; auto]. destruct (take hs (a_ready c)) as [h|] eqn:Eh; [|discriminate]. exists (Some h). split; [reflexivity|]. exists h. auto. }
  destruct Hx as (lh & Hx1 & Hx2). rewrite Hx1 in E. cbn [bind] in E.
  match type of E with bind (arounds _ _ _ ?L) _ = _ => set (l0 := L) in E end.
  assert (Q : lok cb rb l0 []).
  { split; unfold l0; cbn [n_venv n_mgr n_ready n_obs n_hid n_act n_last_obs n_last_hid n_steps n_eps n_lens n_returns n_calls]; rewrite ?app_nil_r; try reflexivity; try assumption; split; reflexivity. }
  destruct (arounds sched nst nep l0) as [lf|] eqn:Ea; [|discriminate]. cbn [bind] in E. injection E as <- <-.
  destruct (arounds_step _ _ _ _ _ _ _ _ Q Ea) as (more & rd & Q1 & H1 & H2 & H3). cbn [app] in *. exists more, rd.
  split. { exists (n_obs lf), (n_inf lf). split; [reflexivity|]. apply (q_inv _ _ _ _ Q1). }
  split; [exact Q1|]. split; [exact H1|]. split; [exact H2|]. split; [exact H3|]. auto.
Qed.
Lemma collects_step : forall calls c cb rb c' ls, cok c cb rb -> a_collects a_collect calls c = Ok (c', ls) ->
  exists rn, cok c' (cb ++ concat (map (@n_calls _ _ _ _ _ _ _ _) ls)) (rb ++ rn).
Proof.
  induction calls as [|[t sched] calls IH]; intros c cb rb c' ls C E; cbn [a_collects] in E.
  - injection E as <- <-. exists []. cbn. rewrite !app_nil_r. exact C.
  - destruct (a_collect sched (by_steps t) (by_episodes t) c) as [[c1 l]|] eqn:E1; [|discriminate]. destruct (a_collects a_collect calls c1) as [[c2 ls']|] eqn:E2; [|discriminate]. injection E as <- <-.
    destruct (collect_step _ _ _ _ _ _ _ _ C E1) as (more & rd & C1 & _). destruct (IH _ _ _ _ _ C1 E2) as (rn & C2). exists ((more ++ [rd]) ++ rn). cbn [map concat]. rewrite !app_assoc in *. exact C2.
Qed.
End Proofs.
