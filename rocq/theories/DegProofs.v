(** * Proofs about components at the ends of their parameters *)
From Verif Require Import Py PyLemmas Num SegTreeModel SegTreeSpec SegTreeProofs BufferModel BufferSpec PrioModel PrioSpec PrioProofs PrioMainProofs HerModel HerSpec HerProofs HerMainProofs StatModel StatProofs MaModel TatSpec DegSpec.
Open Scope nat_scope.

(** ** Prioritized buffers *)
Lemma frac_S k : frac (S k) = (1 + frac k)%Qc.
Proof. change (sq (S k) = 1 + sq k)%Qc. rewrite sq_S. ring. Qed.
Lemma frac_0 : frac 0 = 0%Qc.
Proof. reflexivity. Qed.
Lemma frac_nonneg k : (0 <= frac k)%Qc.
Proof. exact (sq_nonneg k). Qed.
Lemma frac_pos k : 0 < k -> (0 < frac k)%Qc.
Proof. exact (sq_pos k). Qed.
Lemma Forall_upd {X} (P : X -> Prop) (l : list X) i v : Forall P l -> P v -> Forall P (upd l i v).
Proof.
  rewrite !Forall_forall. intros H Hv x Hx. apply In_nth_error in Hx as (j & Hj). rewrite nth_error_upd in Hj.
  destruct ((i =? j) && (j <? length l)) in Hj; [injection Hj as <-; exact Hv|].
  apply H. eapply nth_error_In. exact Hj.
Qed.
Lemma Qclt_irrefl_aux (x : Qc) : ~ (x < x)%Qc.
Proof. unfold Qclt. apply Qlt_irrefl. Qed.
Definition zero_one (x : Qc) : Prop := x = 0%Qc \/ x = 1%Qc.
Lemma zo_write : forall idx vals arr, Forall zero_one arr -> Forall zero_one vals -> Forall zero_one (write_all arr idx vals).
Proof.
  induction idx as [|i idx IH]; intros [|v vals] arr Ha Hv; cbn [write_all]; try exact Ha.
  inversion Hv; subst. apply IH; [apply Forall_upd; assumption|assumption].
Qed.
Lemma zo_ring n : forall k arr c, Forall zero_one arr -> Forall zero_one (ring_fill n arr c k 1%Qc).
Proof. induction k as [|k IH]; intros arr c H; cbn [ring_fill]; [exact H|]. apply IH, Forall_upd; [exact H|right; reflexivity]. Qed.
Lemma zo_run {Ob A Inf R} eps n : forall (ops : list (pop Ob A Inf R)) s, Forall zero_one (ps_arr s) -> Forall zero_one (ps_arr (fold_left (ps_step (fun _ => 1%Qc) eps n) ops s)).
Proof.
  induction ops as [|op ops IH]; intros s H; [exact H|]. cbn [fold_left]. apply IH.
  destruct op; cbn [ps_step ps_arr]; [apply zo_ring, H|apply zo_ring, H|].
  apply zo_write; [exact H|]. apply Forall_forall. intros x Hx. apply in_map_iff in Hx as (w & <- & _). right. reflexivity.
Qed.
Lemma ones_sum : forall (arr : list Qc) m k, m <= length arr -> (forall i, i < length arr -> nth i arr 0%Qc = if i <? m then 1%Qc else 0%Qc) ->
  qsum (firstn k arr) = frac (Nat.min k m).
Proof.
  induction arr as [|x arr IH]; intros m k Hm H.
  { cbn in Hm. replace m with 0 by lia. rewrite Nat.min_0_r, firstn_nil. symmetry. apply frac_0. }
  destruct k as [|k]; [symmetry; apply frac_0|].
  cbn [firstn qsum fold_right]. pose proof (H 0 ltac:(cbn; lia)) as H0. cbn in H0.
  change (fold_right Qcplus 0%Qc (firstn k arr)) with (qsum (firstn k arr)). rewrite (IH (m - 1) k).
  - destruct m as [|m]; cbn in H0; rewrite H0.
    + replace (Nat.min k (0 - 1)) with 0 by lia. replace (Nat.min (S k) 0) with 0 by lia. rewrite frac_0. ring.
    + replace (Nat.min (S k) (S m)) with (S (Nat.min k m)) by lia. rewrite frac_S. replace (S m - 1) with m by lia. ring.
  - cbn in Hm. lia.
  - intros i Hi. specialize (H (S i) ltac:(cbn; lia)). cbn [nth] in H. rewrite H.
    destruct m as [|m]; [reflexivity|]. replace (S m - 1) with m by lia. reflexivity.
Qed.

Section Alpha0.
Context {Ob A Inf R : Type}.
Variables (eps : Qc) (r0 : R) (radd : R -> R -> R) (last_frame : Ob -> Ob) (o : opts) (n : nat).
Variables (ops : list (pop Ob A Inf R)) (b : pbuf Ob A Inf R).
Hypothesis Heps : (0 < eps)%Qc.
Hypothesis Hn : 0 < n.
Hypothesis Hok : pops_ok (fun _ => 1%Qc) eps r0 radd last_frame o n (ps_init n) ops.
Hypothesis Hrun : p_run (fun _ => 1%Qc) eps r0 radd last_frame o (pb_init r0 n) ops = Ok b.
Let s := ps_run (fun _ => 1%Qc) eps n ops.
Let m := size (b_st (pb_buf b)).
Lemma one_pos : forall x : Qc, (0 < x)%Qc -> (0 < 1)%Qc.
Proof. intros x _. apply Qclt_alt. reflexivity. Qed.
Lemma arr_ones : length (ps_arr s) = n /\ m = Nat.min (ps_cnt s) n /\ forall i, i < n -> nth i (ps_arr s) 0%Qc = if i <? m then 1%Qc else 0%Qc.
Proof.
  destruct (C16_weights_lemma (fun _ => 1%Qc) eps Ob A Inf R r0 radd last_frame o n ops one_pos Heps Hn Hok) as (b' & E & Hl & _ & _ & _ & Hsz & Hpos).
  rewrite Hrun in E. injection E as <-. fold s in Hl, Hsz, Hpos. fold m in Hsz, Hpos.
  split; [exact Hl|]. split; [exact Hsz|]. intros i Hi. destruct (Hpos i Hi) as [H1 H2].
  destruct (Nat.ltb_spec i m) as [Hlt|Hge]; [|apply H2, Hge].
  assert (Hz : Forall zero_one (ps_arr s)).
  { apply zo_run. apply Forall_forall. intros x Hx. apply repeat_spec in Hx. left. exact Hx. }
  rewrite Forall_forall in Hz. destruct (Hz (nth i (ps_arr s) 0%Qc)) as [E|E]; [apply nth_In; lia| |exact E].
  specialize (H1 Hlt). rewrite E in H1. exfalso. exact (Qclt_irrefl_aux _ H1).
Qed.
Lemma sums k : slice_sum (ps_arr s) 0 k = frac (Nat.min k m).
Proof.
  destruct arr_ones as (Hl & Hm & Hv). unfold slice_sum. rewrite Nat.sub_0_r. cbn [skipn].
  apply ones_sum; [lia|]. intros i Hi. apply Hv. lia.
Qed.
Lemma a0_draw rnd draw z : 0 < m -> (0 < z)%Z -> (forall j, (0 <= draw j)%Qc /\ (draw j < 1)%Qc) ->
  exists l, pb_sample_indices o b rnd draw (Some z) = Ok l /\ length l = Z.to_nat z /\ forall k j, nth_error l k = Some j -> equal_part m (draw k) j.
Proof.
  intros H0 Hz Hd. destruct arr_ones as (Hl & Hm & Hv).
  destruct (C16_sampling_lemma (fun _ => 1%Qc) eps Ob A Inf R r0 radd last_frame o n ops b rnd draw z one_pos Heps Hn Hok Hrun) as (l & E & Ell & H); [fold s; lia|exact Hz|exact Hd|].
  fold s in H. fold m in H. exists l. split; [exact E|]. split; [exact Ell|]. intros k j Hk. destruct (H k j Hk) as [Hj [D1 D2]].
  rewrite Hl, !sums in D1. replace (Nat.min n m) with m in D1 by lia. replace (Nat.min (S j) m) with (S j) in D1 by lia.
  split; [exact Hj|]. split; [exact D1|]. destruct j as [|j]; [left; reflexivity|right].
  specialize (D2 j ltac:(lia)). rewrite Hl, !sums in D2. replace (Nat.min n m) with m in D2 by lia. replace (Nat.min (S j) m) with (S j) in D2 by lia. exact D2.
Qed.
Lemma a0_weights ipw index : index <> [] -> (forall x, (0 < x)%Qc -> (0 < ipw x)%Qc) -> (forall i, In i index -> i < m) ->
  batch_weight ipw false (pb_prio b) (map Z.of_nat index) = Ok (map (fun _ => ipw (1 / lowest (ps_seen s))%Qc) index)
  /\ batch_weight ipw true (pb_prio b) (map Z.of_nat index) = Ok (map (fun _ => 1%Qc) index).
Proof.
  intros Hne Hip Hi. destruct arr_ones as (Hl & Hm & Hv).
  destruct (C16_normalised_weights_lemma (fun _ => 1%Qc) ipw eps Ob A Inf R r0 radd last_frame o n ops b index one_pos Hip Heps Hn Hok Hrun Hne Hi) as (E & top & ws & Ht & Hp & E2 & -> & _).
  fold s in E, Ht, Hp, E2.
  assert (Er : map (fun i => ipw (nth i (ps_arr s) 0 / lowest (ps_seen s))%Qc) index = map (fun _ => ipw (1 / lowest (ps_seen s))%Qc) index).
  { apply map_ext_in. intros i Hin. rewrite Hv by (specialize (Hi i Hin); lia). replace (i <? m) with true by (symmetry; apply Nat.ltb_lt; apply Hi, Hin). reflexivity. }
  rewrite Er in *. split; [exact E|]. rewrite E2. f_equal. rewrite map_map.
  apply in_map_iff in Ht as (i0 & <- & Hi0). apply map_ext. intros _. unfold Qcdiv. apply Qcmult_inv_r.
  destruct (Hp _ (in_map (fun _ => ipw (1 / lowest (ps_seen s))%Qc) index i0 Hi0)) as [Hpos _]. intros Ez. unfold Qcdiv in Hpos. rewrite Ez in Hpos. exact (Qclt_irrefl_aux _ Hpos).
Qed.
End Alpha0.

(** C342.  With alpha 0, whatever was added, moved in from other buffers or given new weights, a draw
    takes every stored index for an equal part of the uniform draws. *)
Lemma C342_uniform_lemma : forall (Ob A Inf R : Type) (eps : Qc) (r0 : R) (radd : R -> R -> R) (last_frame : Ob -> Ob) (o : opts) (n : nat) (ops : list (pop Ob A Inf R)) (b : pbuf Ob A Inf R) rnd draw z,
  (0 < eps)%Qc -> 0 < n -> pops_ok (fun _ => 1%Qc) eps r0 radd last_frame o n (ps_init n) ops ->
  p_run (fun _ => 1%Qc) eps r0 radd last_frame o (pb_init r0 n) ops = Ok b ->
  0 < size (b_st (pb_buf b)) -> (0 < z)%Z -> (forall j, (0 <= draw j)%Qc /\ (draw j < 1)%Qc) ->
  exists l, pb_sample_indices o b rnd draw (Some z) = Ok l /\ length l = Z.to_nat z
    /\ forall k j, nth_error l k = Some j -> equal_part (size (b_st (pb_buf b))) (draw k) j.
Proof.
  intros Ob A Inf R eps r0 radd lf o n ops b rnd draw z He Hn Hok Hr Hs Hz Hd.
  exact (a0_draw eps r0 radd lf o n ops b He Hn Hok Hr rnd draw z Hs Hz Hd).
Qed.

(** C342.  Every draw is in exactly one of the equal parts, so a prioritized sample with alpha 0 is a
    sample of a plain buffer for some draws of integers. *)
Lemma C342_parts_lemma : forall m r, 0 < m -> (0 <= r)%Qc -> (r < 1)%Qc ->
  exists j, equal_part m r j /\ forall j', equal_part m r j' -> j' = j.
Proof.
  intros m r Hm H0 H1.
  assert (Hex : forall k, k <= m -> (r * frac m <= frac k)%Qc -> exists j, equal_part m r j).
  { induction k as [|k IH]; intros Hk Hr.
    - exists 0. split; [exact Hm|]. split; [|left; reflexivity]. rewrite frac_0 in Hr. rewrite frac_S, frac_0. clear - Hr. qclra.
    - destruct (Qcleb_spec (r * frac m)%Qc (frac k)) as [Hle|Hgt]; [apply IH; [lia|exact Hle]|].
      exists k. split; [lia|]. split; [exact Hr|]. right. exact Hgt. }
  destruct (Hex m (Nat.le_refl m)) as [j Hj].
  { pose proof (frac_nonneg m) as Hf. clear - H0 H1 Hf. qcnra. }
  exists j. split; [exact Hj|]. intros j' Hj'.
  assert (Hone : forall x y, equal_part m r x -> equal_part m r y -> x <= y).
  { intros x y (Hx & _ & [->|Hx2]) (Hy & Hy1 & _); [apply Nat.le_0_l|].
    destruct (Nat.le_gt_cases x y) as [Hle|Hgt]; [exact Hle|exfalso].
    assert (Hc : (frac (S y) <= frac x)%Qc).
    { replace x with (S y + (x - S y)) by lia. change (sq (S y) <= sq (S y + (x - S y)))%Qc. rewrite sq_plus. pose proof (sq_nonneg (x - S y)) as Hq. clear - Hq. qclra. }
    clear - Hx2 Hy1 Hc. qclra. }
  apply Nat.le_antisymm; apply Hone; assumption.
Qed.

(** C342.  With alpha 0 all importance weights are equal, and 1 if normalised. *)
Lemma C342_weights_lemma : forall (Ob A Inf R : Type) (eps : Qc) (ipw : Qc -> Qc) (r0 : R) (radd : R -> R -> R) (last_frame : Ob -> Ob) (o : opts) (n : nat) (ops : list (pop Ob A Inf R)) (b : pbuf Ob A Inf R) index,
  (0 < eps)%Qc -> 0 < n -> pops_ok (fun _ => 1%Qc) eps r0 radd last_frame o n (ps_init n) ops ->
  p_run (fun _ => 1%Qc) eps r0 radd last_frame o (pb_init r0 n) ops = Ok b ->
  index <> [] -> (forall x, (0 < x)%Qc -> (0 < ipw x)%Qc) -> (forall i, In i index -> i < size (b_st (pb_buf b))) ->
  (exists w, batch_weight ipw false (pb_prio b) (map Z.of_nat index) = Ok (map (fun _ => w) index))
  /\ batch_weight ipw true (pb_prio b) (map Z.of_nat index) = Ok (map (fun _ => 1%Qc) index).
Proof.
  intros Ob A Inf R eps ipw r0 radd lf o n ops b index He Hn Hok Hr Hne Hip Hi.
  destruct (a0_weights eps r0 radd lf o n ops b He Hn Hok Hr ipw index Hne Hip Hi) as [E1 E2]. split; [eexists; exact E1|exact E2].
Qed.
(** C342.  With beta 0 all importance weights are 1 for every alpha and whatever the priorities. *)
Lemma C342_beta_lemma : forall (p : prio) (norm : bool) (index : list Z) ws, batch_weight (fun _ => 1%Qc) norm p index = Ok ws -> ws = map (fun _ => 1%Qc) index.
Proof.
  intros p norm index ws H. unfold batch_weight in H. destruct (get_weight (fun _ => 1%Qc) p index) as [w|] eqn:E; [|discriminate]. cbn [bind] in H.
  assert (Ew : w = map (fun _ => 1%Qc) index).
  { clear H. unfold get_weight in E. revert w E. induction index as [|i index IH]; intros w E; cbn [mapM] in E; [injection E as <-; reflexivity|].
    destruct (st_getitem (p_tree p) i); [|discriminate]. cbn [bind] in E.
    match type of E with context [mapM ?f index] => destruct (mapM f index) as [r|] eqn:Er; [|discriminate] end. cbn [bind] in E. injection E as <-.
    cbn [map]. f_equal. apply IH. first [exact Er|reflexivity]. }
  destruct norm; [|injection H as <-; exact Ew]. destruct w as [|x t]; [discriminate|]. injection H as <-.
  assert (Hm : max_of x t = 1%Qc).
  { destruct index as [|i index]; [discriminate|]. injection Ew as -> ->. clear. induction index as [|i index IH]; [reflexivity|].
    cbn [map max_of fold_left]. unfold max_of in IH. replace (Qcmaxb 1 1) with 1%Qc; [exact IH|]. unfold Qcmaxb. destruct (Qcleb 1 1); reflexivity. }
  rewrite Hm. change ((x / 1)%Qc :: map (fun y => (y / 1)%Qc) t) with (map (fun y => (y / 1)%Qc) (x :: t)). rewrite Ew, map_map. apply map_ext. intros _. field. discriminate.
Qed.

(** ** HER without relabelling *)
Section NoHer.
Context {Ob0 G A Inf R : Type}.
Variable r0 : R.
Variable radd : R -> R -> R.
Variable last_frame : gobs Ob0 G -> gobs Ob0 G.
Variable rew_fn : G -> G -> R.
Notation her := (her Ob0 G A Inf R).
Notation slot := (slot (gobs Ob0 G) A Inf R).
Lemma mapM_In {X Y} (f : X -> res Y) : forall l r y, mapM f l = Ok r -> In y r -> exists x, In x l /\ f x = Ok y.
Proof.
  induction l as [|x l IH]; intros r y H Hy; cbn [mapM] in H; [injection H as <-; destruct Hy|].
  destruct (f x) as [z|] eqn:E; [|discriminate]. cbn [bind] in H. destruct (mapM f l) as [t|] eqn:Et; [|discriminate]. cbn [bind] in H. injection H as <-.
  destruct Hy as [<-|Hy]; [exists x; split; [left; reflexivity|exact E]|].
  destruct (IH t y eq_refl Hy) as (x' & Hx' & E'). exists x'. split; [right; exact Hx'|exact E'].
Qed.
Lemma upd_same (m : list (option slot)) i : upd m i (nth i m None) = m.
Proof.
  apply nth_error_ext. intros j. rewrite nth_error_upd. destruct (Nat.eqb_spec i j) as [->|]; cbn [andb]; [|reflexivity].
  destruct (Nat.ltb_spec j (length m)) as [H|H]; [|reflexivity]. symmetry. apply nth_error_nth'. exact H.
Qed.
Lemma write_same : forall (l : list (nat * option slot)) m, (forall c, In c l -> snd c = nth (fst c) m None) -> write_rows m l = m.
Proof.
  unfold write_rows. induction l as [|c l IH]; intros m H; [reflexivity|]. cbn [fold_left].
  rewrite (H c) by (left; reflexivity). rewrite upd_same. apply IH. intros c' Hc'. apply H. right. exact Hc'.
Qed.
Definition calm (h : her) : Prop := h_buf (restore_cache h) = h_buf h.
Lemma rewrite_calm o (h : her) index horizon offs hsel h' : (forall e, hsel e = false) -> h_alt h = [] ->
  rewrite_transitions rew_fn o h index horizon offs hsel = Ok h' -> h_buf h' = h_buf h /\ calm h'.
Proof.
  intros Hs Ha H. unfold rewrite_transitions in H. destruct (length index =? 0).
  { injection H as <-. split; [reflexivity|]. unfold calm, restore_cache. rewrite Ha. reflexivity. }
  destruct (negb (stack_num o =? 1)); [discriminate|]. destruct (b_meta (h_buf h)) as [m|] eqn:Em; [|discriminate].
  destruct (trajectories (h_buf h) (horizon - 1) (map Z.of_nat (chrono (b_st (h_buf h)) index))) as [traj|]; [|discriminate]. cbn [bind] in H.
  match type of H with (let* goals := ?g in _) = _ => destruct g as [goals|]; [|discriminate] end. cbn [bind] in H.
  match type of H with (let* cells := ?g in _) = _ => destruct g as [cells|] eqn:Ec; [|discriminate] end. cbn [bind] in H. injection H as <-.
  assert (Hc : forall c, In c (concat cells) -> fst (snd c) = nth (fst c) m None /\ snd (snd c) = nth (fst c) m None).
  { intros c Hc. apply in_concat in Hc as (row & Hrow & Hc). destruct (mapM_In _ _ _ _ Ec Hrow) as (r & _ & Er).
    destruct (mapM_In _ _ _ _ Er Hc) as (e & _ & Ee).
    match type of Ee with (let* ni := ?g in _) = _ => destruct g as [ni|]; [|discriminate] end. cbn [bind] in Ee. injection Ee as <-.
    cbn [fst snd]. split; [reflexivity|]. rewrite Hs. reflexivity. }
  assert (E1 : write_rows m (map (fun c => (fst c, snd (snd c))) (concat cells)) = m).
  { apply write_same. intros c Hin. apply in_map_iff in Hin as (c0 & <- & Hin). cbn [fst snd]. apply Hc, Hin. }
  assert (E2 : write_rows m (map (fun c => (fst c, fst (snd c))) (concat cells)) = m).
  { apply write_same. intros c Hin. apply in_map_iff in Hin as (c0 & <- & Hin). cbn [fst snd]. apply Hc, Hin. }
  rewrite E1. split; [destruct (h_buf h); cbn in Em |- *; rewrite Em; reflexivity|].
  unfold calm, restore_cache. cbn [h_alt h_buf b_meta b_st option_map]. destruct (map (fun c => (fst c, fst (snd c))) (concat cells)) as [|a l]; [reflexivity|]. cbn [h_buf]. rewrite E2. reflexivity.
Qed.
Lemma restored_alt (h : her) : h_alt (restore_cache h) = [].
Proof. unfold restore_cache. destruct (h_alt h) eqn:E; [exact E|reflexivity]. Qed.
Lemma calm_nil b : calm (mkHer b []).
Proof. reflexivity. Qed.
Lemma run_calm o : forall ops (h h' : her) outs, calm h -> Forall no_relabel ops -> h_run r0 radd last_frame rew_fn o h ops = Ok (h', outs) -> calm h'.
Proof.
  induction ops as [|op ops IH]; intros h h' outs Hc Hok H; cbn [h_run] in H; [injection H as <- _; exact Hc|].
  inversion Hok as [|? ? Hop Hok']; subst.
  destruct op as [t|keep|src|rnd bs hz offs hsel].
  - unfold h_add in H. rewrite restored_alt in H. destruct (add r0 radd last_frame o (h_buf (restore_cache h)) t) as [x|]; [|discriminate]. cbn [bind fst snd] in H.
    match type of H with (let* y := ?g in _) = _ => destruct g as [[h1 l1]|] eqn:E; [|discriminate] end. cbn [bind fst snd] in H. injection H as <- _.
    eapply IH; [|exact Hok'|exact E]. reflexivity.
  - unfold h_reset in H. rewrite restored_alt in H.
    match type of H with (let* y := ?g in _) = _ => destruct g as [[h1 l1]|] eqn:E; [|discriminate] end. cbn [bind fst snd] in H. injection H as <- _.
    eapply IH; [|exact Hok'|exact E]. reflexivity.
  - unfold h_update in H. rewrite restored_alt in H. destruct (update (h_buf (restore_cache h)) src) as [x|]; [|discriminate]. cbn [bind fst snd] in H.
    match type of H with (let* y := ?g in _) = _ => destruct g as [[h1 l1]|] eqn:E; [|discriminate] end. cbn [bind fst snd] in H. injection H as <- _.
    eapply IH; [|exact Hok'|exact E]. reflexivity.
  - unfold h_sample in H. destruct (sample_indices o (h_buf (restore_cache h)) rnd bs) as [idx|]; [|discriminate]. cbn [bind] in H.
    destruct (rewrite_transitions rew_fn o (restore_cache h) idx hz offs hsel) as [h2|] eqn:E2; [|discriminate]. cbn [bind fst snd] in H.
    match type of H with (let* y := ?g in _) = _ => destruct g as [[h1 l1]|] eqn:E; [|discriminate] end. cbn [bind fst snd] in H. injection H as <- _.
    eapply IH; [|exact Hok'|exact E]. eapply rewrite_calm; [exact Hop|apply restored_alt|exact E2].
Qed.
End NoHer.

(** C343.  If no episode is chosen for relabelling (future_k = 1), a HER buffer holds after every call, also
    right after a sampling, what a plain buffer holds, and returns the same. *)
Lemma C343_her_lemma : forall (Ob0 G A Inf R : Type) (r0 : R) (radd : R -> R -> R) (last_frame : gobs Ob0 G -> gobs Ob0 G) (rew_fn : G -> G -> R) (o : opts) (n : nat) (ops : list (hop Ob0 G A Inf R)),
  stack_num o = 1 -> 0 < n -> Forall (hop_ok r0 radd last_frame o) ops -> Forall no_relabel ops ->
  rmap (fun x => (h_buf (fst x), snd x)) (h_run r0 radd last_frame rew_fn o (her_init r0 n) ops) = plain_run r0 radd last_frame o (buf_init r0 n) ops.
Proof.
  intros Ob0 G A Inf R r0 radd lf rew_fn o n ops Ho Hn Hok Hno.
  pose proof (run_sim r0 radd lf rew_fn o n Ho Hn ops (buf_init r0 n) (her_init r0 n) [] (reach_init _ _ _ _ _) (hrel_refl _) Hok) as H.
  destruct (plain_run r0 radd lf o (buf_init r0 n) ops) as [[b' outs]|e]; [|rewrite H; reflexivity].
  destruct H as (h' & E & (Hh & _) & _). rewrite E. cbn [rmap fst snd]. do 2 f_equal.
  pose proof (run_calm r0 radd lf rew_fn o ops (her_init r0 n) h' outs (calm_nil _) Hno E) as Hc. unfold calm in Hc. rewrite Hh in Hc. cbn [h_buf] in Hc. symmetry. exact Hc.
Qed.

(** ** One agent *)
Lemma index_all (a : nat) k : agent_index (repeat a k) a = seq 0 k.
Proof.
  unfold agent_index. rewrite repeat_length. rewrite (filter_ext (fun i => nth i (repeat a k) a =? a) (fun _ => true)).
  - generalize (seq 0 k). induction l as [|x l IH]; [reflexivity|]. cbn. rewrite IH. reflexivity.
  - intros i. replace (nth i (repeat a k) a) with a; [apply Nat.eqb_refl|]. clear. revert i. induction k as [|k IH]; intros [|i]; cbn; auto.
Qed.
Lemma take_seq {X} : forall (l p : list X), take (p ++ l) (seq (length p) (length l)) = Ok l.
Proof.
  unfold take. induction l as [|x l IH]; intros p; [reflexivity|]. cbn [length seq mapM].
  rewrite nth_error_app2 by lia. rewrite Nat.sub_diag. cbn [nth_error bind].
  specialize (IH (p ++ [x])). rewrite <- app_assoc, app_length in IH. cbn [app length] in IH. rewrite Nat.add_1_r in IH. rewrite IH. reflexivity.
Qed.
Lemma take_all {X} (l : list X) k : length l = k -> take l (seq 0 k) = Ok l.
Proof. intros <-. exact (take_seq l []). Qed.
Lemma put_seq {X} : forall (vals old p : list X), length old = length vals ->
  fold_left (fun l iv => upd l (fst iv) (snd iv)) (combine (seq (length p) (length vals)) vals) (p ++ old) = p ++ vals.
Proof.
  induction vals as [|v vals IH]; intros old p H; [destruct old; [reflexivity|discriminate]|].
  destruct old as [|x old]; [discriminate|]. cbn [length seq combine fold_left fst snd].
  replace (upd (p ++ x :: old) (length p) v) with ((p ++ [v]) ++ old).
  - specialize (IH old (p ++ [v])). rewrite app_length in IH. cbn [length] in IH. rewrite Nat.add_1_r in IH. rewrite IH by (cbn in H; lia). rewrite <- app_assoc. reflexivity.
  - clear. induction p as [|y p IH]; [reflexivity|]. cbn. f_equal. exact IH.
Qed.
Lemma put_all {X} (old vals : list X) k : length old = k -> length vals = k -> put old (seq 0 k) vals = Ok vals.
Proof.
  intros Ho Hv. unfold put.
  replace (forallb (fun i => i <? length old) (seq 0 k)) with true.
  2: { symmetry. apply forallb_forall. intros i Hi. apply in_seq in Hi. apply Nat.ltb_lt. lia. }
  cbn [negb].
  assert (Em : match vals with [v] => map (fun _ => v) (seq 0 k) | _ => vals end = vals).
  { destruct vals as [|v [|w vals]]; try reflexivity. cbn in Hv. rewrite <- Hv. reflexivity. }
  rewrite Em, seq_length. replace (length vals =? k) with true by (symmetry; apply Nat.eqb_eq; lia). f_equal.
  rewrite <- Hv. exact (put_seq vals old [] ltac:(lia)).
Qed.

(** C344.  The manager of one agent acts and explores as the agent's policy, with the same errors. *)
Lemma C344_act_lemma : forall (Row Act St : Type) (policy : nat -> option (option St) -> list Row -> res (list Act * option St))
  (noise : nat -> list Act -> list Row -> res (list Act)) (a : nat) (rows : list Row) state (act : list Act),
  rows <> [] -> length act = length rows ->
  (forall out, policy a (option_map (fun st => st a) state) rows = Ok out -> length (fst out) = length rows) ->
  (forall new, noise a act rows = Ok new -> length new = length rows) ->
  forward policy [a] (repeat a (length rows)) rows state
    = rmap (fun out => (fst out, [(a, snd out)])) (policy a (option_map (fun st => st a) state) rows)
  /\ exploration noise [a] (repeat a (length rows)) rows act = noise a act rows.
Proof.
  intros Row Act St policy noise a rows state act Hne Hl Hp Hn.
  assert (Hk : length rows =? 0 = false) by (apply Nat.eqb_neq; destruct rows; [contradiction|discriminate]). split.
  - unfold forward. cbn [mapM]. unfold forward_one. rewrite index_all, seq_length, Hk. rewrite take_all by reflexivity. cbn [bind].
    destruct (policy a (option_map (fun st => st a) state) rows) as [[acts s]|e] eqn:E; [|reflexivity]. specialize (Hp _ eq_refl). cbn [fst] in Hp.
    cbn [bind fst snd rmap]. unfold acts_of. cbn [flat_map fst snd foldM]. rewrite app_nil_r. rewrite put_all by assumption. reflexivity.
  - unfold exploration. cbn [foldM]. rewrite index_all, seq_length, Hk. rewrite !take_all by auto. cbn [bind].
    destruct (noise a act rows) as [new|e] eqn:E; [|reflexivity]. cbn [bind]. rewrite put_all by auto. reflexivity.
Qed.
(** C344.  It processes and learns as the agent's policy, with the same errors, and puts the rewards back. *)
Lemma C344_learn_lemma : forall (Row R X Stats : Type) (agent_idx : nat -> nat) (pf : nat -> list Row -> list R -> list nat -> list R -> res X) (learn_fn : nat -> X -> res Stats)
  (a : nat) (rows : list Row) (rews : list R) (indice : list nat) (save : list R),
  rows <> [] -> length rews = length rows -> length indice = length rows -> agent_idx a = 0 ->
  let run := process agent_idx pf [a] (repeat a (length rows)) rows (map (fun r => [r]) rews) indice (map (fun r => [r]) save) in
  snd run = rmap (fun x => [(a, Some x)]) (pf a rows rews indice save)
  /\ (let* l := snd run in ma_learn learn_fn l) = rmap (fun s => [(a, s)]) (let* x := pf a rows rews indice save in learn_fn a x)
  /\ (is_ok (snd run) = true -> fst run = RFull (map (fun r => [r]) save)).
Proof.
  intros Row R X Stats agent_idx pf learn_fn a rows rews indice save Hne Hr Hi Ha run.
  assert (Hk : length rows =? 0 = false) by (apply Nat.eqb_neq; destruct rows; [contradiction|discriminate]).
  assert (Hcol : forall l : list R, column 0 (map (fun r => [r]) l) = Ok l).
  { unfold column. induction l as [|x l IH]; [reflexivity|]. cbn [map mapM nth_error bind] in IH |- *. rewrite IH. reflexivity. }
  assert (E : run = match pf a rows rews indice save with Ok x => (RFull (map (fun r => [r]) save), Ok [(a, Some x)]) | Err e => (RCol save, Err e) end).
  { unfold run, process. cbn [process_loop]. unfold process_one. rewrite index_all, seq_length, Hk.
    rewrite !take_all by (rewrite ?map_length; auto). cbn [bind]. rewrite Ha, !Hcol. cbn [bind]. destruct (pf a rows rews indice save); reflexivity. }
  rewrite E. destruct (pf a rows rews indice save) as [x|e]; cbn [fst snd rmap bind is_ok]; [|repeat split; discriminate].
  split; [reflexivity|]. split; [|reflexivity]. unfold ma_learn. cbn [mapM fst snd]. destruct (learn_fn a x); reflexivity.
Qed.
