(** * Proofs about forward passes *)
From Verif Require Import Py PyLemmas Num PolicyModel PolicyProofs DqnModel DqnProofs PsrlModel FwdModel FwdSpec.
Open Scope nat_scope.

(** ** C255 *)
(** C255. With [deterministic_eval] and outside a training step the action is the mode of the
    distribution, whatever the random draw; in all other cases it is a sample.  The other entries of
    the result are the actor's output, its hidden state and the distribution of that output. *)
Lemma C255_forward_lemma : forall (Ob H L D A G : Type) (actor : Ob -> H -> L * H) (dist_fn : L -> D) (mode : D -> A) (sample : D -> G -> A)
  (det within : bool) (o : Ob) (h : H) (g : G),
  let r := dist_forward actor dist_fn mode sample det within o h g in
  (out_logits r, out_state r) = actor o h
  /\ out_dist r = dist_fn (out_logits r)
  /\ (det = true -> within = false -> out_act r = mode (out_dist r) /\ forall g', dist_forward actor dist_fn mode sample det within o h g' = r)
  /\ (det = false \/ within = true -> out_act r = sample (out_dist r) g).
Proof.
  intros. subst r. unfold dist_forward. destruct (actor o h) as [l h'] eqn:E. cbn [out_logits out_state out_dist out_act].
  split; [reflexivity|]. split; [reflexivity|]. split.
  - intros -> ->. cbn. split; reflexivity.
  - intros [-> | ->]; [reflexivity|]. destruct det; reflexivity.
Qed.

(** C255. An update does not depend on [deterministic_eval]: all that [process_fn] and [learn]
    compute with [forward] is computed with samples. *)
Lemma C255_update_lemma : forall (Ob H L D A G X B St : Type) (actor : Ob -> H -> L * H) (dist_fn : L -> D) (mode : D -> A) (sample : D -> G -> A)
  (process_fn : (Ob -> H -> G -> fout H L D A) -> B -> list nat -> blk X B) (learn : (Ob -> H -> G -> fout H L D A) -> B -> blk X St)
  sample_fn post lr size has_buffer has_sched (det det' : bool) (s : pstate X),
  (forall n s, p_within (fst (sample_fn n s)) = p_within s) ->
  (forall f b i s, p_within (fst (process_fn f b i s)) = p_within s) ->
  dist_update actor dist_fn mode sample process_fn learn det sample_fn post lr size has_buffer has_sched s
  = dist_update actor dist_fn mode sample process_fn learn det' sample_fn post lr size has_buffer has_sched s.
Proof.
  intros Ob H L D A G X B St actor dist_fn mode sample process_fn learn sample_fn post lr size hb hs det det' s Hs Hp.
  assert (E : dist_forward actor dist_fn mode sample det true = dist_forward actor dist_fn mode sample det' true)
    by (destruct det, det'; reflexivity).
  unfold dist_update, p_update. destruct (p_within s) eqn:Ew; cbn [negb]; [|reflexivity].
  destruct hb; cbn [negb]; [|reflexivity].
  pose proof (Hs size s) as H1. destruct (sample_fn size s) as [s1 [[b i]|e]]; [|reflexivity]. cbn [fst] in H1.
  assert (W1 : p_within (set_updating s1 true) = true) by (cbn; congruence).
  rewrite W1, E.
  pose proof (Hp (dist_forward actor dist_fn mode sample det' true) b i (set_updating s1 true)) as H2.
  destruct (process_fn _ b i (set_updating s1 true)) as [s2 [b'|e]]; [|reflexivity]. cbn [fst] in H2.
  unfold with_train_mode. cbn [p_within set_mod]. rewrite H2, W1, E. reflexivity.
Qed.

(** ** C256 *)
Lemma tlog_ok lg x : (0 < x)%Qc -> tlog lg x = Ok (lg x).
Proof. intro Hx. unfold tlog. destruct (Qcltb_spec 0 x); [reflexivity|exfalso; qclra]. Qed.
Lemma one_minus_sq a : (-(1) <= a)%Qc -> (a <= 1)%Qc -> (0 <= 1 - a * a)%Qc.
Proof. intros. qcnra. Qed.

Lemma corr_row lg tanh eps (row : list Qc) : (forall x, -(1) <= tanh x /\ tanh x <= 1)%Qc -> (0 < eps)%Qc ->
  mapM (fun a => tlog lg (1 - a * a + eps)%Qc) (map tanh row) = Ok (map (fun x => lg (1 - tanh x * tanh x + eps)%Qc) row).
Proof.
  intros Ht He. induction row as [|x row IH]; [reflexivity|]. cbn [map mapM].
  rewrite tlog_ok. 2:{ destruct (Ht x) as [A B]. pose proof (one_minus_sq _ A B). qclra. }
  cbn [bind]. rewrite IH. reflexivity.
Qed.

Section C256.
Context {Ob H G : Type}.
Variable actor : Ob -> H -> gauss * H.
Variable rsample : gauss -> G -> list (list Qc).
Variable logp : gauss -> list (list Qc) -> list Qc.
Variable tanh lg : Qc -> Qc.
Variable eps : Qc.
Hypothesis Ht : (forall x, -(1) <= tanh x /\ tanh x <= 1)%Qc.
Hypothesis He : (0 < eps)%Qc.

Lemma sac_log_prob lp raw : correct_log_prob lg lp (map (map tanh) raw) eps
  = Ok (map (fun x : Qc * list Qc => (fst x - qsum (map (fun a => lg (1 - tanh a * tanh a + eps)) (snd x)))%Qc) (combine lp raw)).
Proof.
  unfold correct_log_prob. revert raw. induction lp as [|p lp IH]; intros [|row raw]; try reflexivity.
  cbn [map combine mapM fst snd]. rewrite (corr_row lg tanh eps row Ht He). cbn [bind]. rewrite IH. reflexivity.
Qed.
Lemma redq_log_prob lp raw :
  (let* corr := mapM (fun row => let* c := mapM (fun a => tlog lg ((1 - a * a) + eps)%Qc) row in Ok (qsum c)) (map (map tanh) raw) in
   Ok (map (fun x : Qc * Qc => (fst x - snd x)%Qc) (combine lp corr)))
  = Ok (map (fun x : Qc * list Qc => (fst x - qsum (map (fun a => lg (1 - tanh a * tanh a + eps)) (snd x)))%Qc) (combine lp raw)).
Proof.
  assert (E : mapM (fun row => let* c := mapM (fun a => tlog lg ((1 - a * a) + eps)%Qc) row in Ok (qsum c)) (map (map tanh) raw)
              = Ok (map (fun row => qsum (map (fun a => lg (1 - tanh a * tanh a + eps)) row)) raw)).
  { induction raw as [|row raw IH]; [reflexivity|]. cbn [map mapM]. rewrite (corr_row lg tanh eps row Ht He). cbn [bind]. rewrite IH. reflexivity. }
  rewrite E. cbn [bind]. f_equal. clear E. revert raw. induction lp as [|p lp IH]; intros [|row raw]; try reflexivity.
  cbn [map combine fst snd]. rewrite IH. reflexivity.
Qed.
End C256.

(** C256. The action of SAC is the hyperbolic tangent of one draw (or of the location), so its
    entries lie in [-1, 1]; the log probability is that of the same draw minus the sum of
    log(1 - a^2 + eps) over the entries [a] of that row of the returned action, and every logarithm
    is taken of a number in [eps, 1 + eps].  REDQ computes the same result. *)
Lemma C256_squashed_lemma : forall (Ob H G : Type) (actor : Ob -> H -> gauss * H) (rsample : gauss -> G -> list (list Qc))
  (logp : gauss -> list (list Qc) -> list Qc) (tanh lg : Qc -> Qc) eps det within (o : Ob) (h : H) (g : G),
  (forall x, -(1) <= tanh x /\ tanh x <= 1)%Qc -> (0 < eps)%Qc ->
  exists r raw, sac_forward actor rsample logp tanh lg eps det within o h g = Ok r
  /\ redq_forward actor rsample logp tanh lg eps det within o h g = Ok r
  /\ (so_logits r, so_state r) = actor o h
  /\ raw = (if det && negb within then fst (so_logits r) else rsample (so_logits r) g)
  /\ so_act r = map (map tanh) raw
  /\ (forall row a, In row (so_act r) -> In a row -> -(1) <= a /\ a <= 1 /\ eps <= 1 - a * a + eps /\ 1 - a * a + eps <= 1 + eps)%Qc
  /\ (length (logp (so_logits r) raw) = length raw -> length (so_log_prob r) = length raw /\
      forall k p row, nth_error (logp (so_logits r) raw) k = Some p -> nth_error (so_act r) k = Some row ->
        nth_error (so_log_prob r) k = Some (p - qsum (map (fun a => lg (1 - a * a + eps)) row))%Qc).
Proof.
  intros Ob H G actor rsample logp tanh lg eps det within o h g Ht He.
  unfold sac_forward, redq_forward. destruct (actor o h) as [d h'] eqn:E.
  set (raw := if det && negb within then fst d else rsample d g).
  rewrite (sac_log_prob tanh lg eps Ht He).
  pose proof (redq_log_prob tanh lg eps Ht He (logp d raw) raw) as E2.
  exists (mkSout d (map (map tanh) raw) h'
     (map (fun x : Qc * list Qc => (fst x - qsum (map (fun a => lg (1 - tanh a * tanh a + eps)) (snd x)))%Qc) (combine (logp d raw) raw))), raw.
  split; [reflexivity|]. split.
  { destruct (mapM (fun row => let* c := mapM (fun a => tlog lg ((1 - a * a) + eps)%Qc) row in Ok (qsum c)) (map (map tanh) raw)); [|discriminate E2].
    cbn [bind] in E2 |- *. injection E2 as E2. rewrite E2. reflexivity. }
  cbn [so_logits so_act so_state so_log_prob].
  split; [reflexivity|]. split; [reflexivity|]. split; [reflexivity|]. split.
  - intros row a Hr Ha. apply in_map_iff in Hr as (r0 & <- & _). apply in_map_iff in Ha as (x & <- & _).
    destruct (Ht x) as [A B]. pose proof (one_minus_sq _ A B). pose proof (Qcle_refl eps).
    split; [exact A|]. split; [exact B|]. split; [qclra|].
    assert (0 <= tanh x * tanh x)%Qc by qcnra. qclra.
  - intro Hl. split; [rewrite map_length, combine_length; lia|].
    intros k p row Hp Hr. rewrite nth_error_map in Hr. destruct (nth_error raw k) as [r0|] eqn:Er; [|discriminate Hr].
    cbn in Hr. injection Hr as <-. rewrite nth_error_map.
    rewrite DqnProofs.nth_error_combine, Hp, Er. cbn [option_map fst snd]. rewrite map_map. reflexivity.
Qed.

(** ** C257 *)
Lemma index_length s i : index_of s i -> length i = length s.
Proof. induction 1; cbn; congruence. Qed.
Lemma in_indices s : forall i, In i (indices s) <-> index_of s i.
Proof.
  induction s as [|d s IH]; intro i; cbn [indices].
  - split; [intros [<-|[]]; constructor|]. intro H. inversion H. left. reflexivity.
  - rewrite in_flat_map. split.
    + intros (x & Hx & Hi). apply in_seq in Hx. apply in_map_iff in Hi as (j & <- & Hj). constructor; [lia|]. apply IH. exact Hj.
    + intro H. inversion H as [|d' s' x j Hx Hj]; subst. exists x. split; [apply in_seq; lia|]. apply in_map. apply IH. exact Hj.
Qed.
Lemma indices_pos s : Forall (fun d => 2 <= d) s -> length (indices s) <> 0.
Proof.
  intro Hs. assert (exists i, index_of s i) as [i Hi].
  { induction Hs as [|d s Hd Hs [i Hi]]; [exists []; constructor|]. exists (0 :: i). constructor; [lia|exact Hi]. }
  apply in_indices in Hi. destruct (indices s); [destruct Hi|discriminate].
Qed.
Lemma squeeze_id s : Forall (fun d => 2 <= d) s -> squeeze_sh s = s.
Proof. unfold squeeze_sh. induction 1 as [|d s Hd Hs IH]; [reflexivity|]. cbn [filter]. replace (d =? 1) with false by lia. cbn [negb]. rewrite IH. reflexivity. Qed.
Lemma unsqueeze_id s : Forall (fun d => 2 <= d) s -> forall i, length i = length s -> unsqueeze s i = i.
Proof.
  induction 1 as [|d s Hd Hs IH]; intros [|x i] Hi; try discriminate Hi; [reflexivity|]. cbn [unsqueeze].
  replace (d =? 1) with false by lia. rewrite IH; [reflexivity|]. cbn in Hi. congruence.
Qed.
Lemma bshape_rev_same s : bshape_rev s s = Ok s.
Proof. induction s as [|d s IH]; [reflexivity|]. cbn [bshape_rev]. rewrite IH. cbn [bind]. rewrite Nat.eqb_refl. reflexivity. Qed.
Lemma bshape_same s : bshape s s = Ok s.
Proof. unfold bshape. rewrite bshape_rev_same. cbn [bind]. rewrite rev_involutive. reflexivity. Qed.
Lemma bindex_id s i : Forall (fun d => 2 <= d) s -> length i = length s -> bindex s i = i.
Proof.
  intros Hs Hi. unfold bindex. rewrite Hi, Nat.sub_diag. cbn [skipn]. revert i Hi.
  induction Hs as [|d s Hd Hs IH]; intros [|x i] Hi; try discriminate Hi; [reflexivity|]. cbn [combine map fst snd].
  replace (d =? 1) with false by lia. rewrite IH; [reflexivity|]. cbn in Hi. congruence.
Qed.
Lemma bop_same f a b s : sh a = s -> sh b = s -> bop f a b = Ok (mkArr s (fun i => f (ent a (bindex s i)) (ent b (bindex s i)))).
Proof. intros Ha Hb. unfold bop. rewrite Ha, Hb, bshape_same. reflexivity. Qed.
Lemma bop_sh f a b s : bshape (sh a) (sh b) = Ok s -> bop f a b = Ok (mkArr s (fun i => f (ent a (bindex (sh a) i)) (ent b (bindex (sh b) i)))).
Proof. intro E. unfold bop. rewrite E. reflexivity. Qed.
Lemma bound1_bounded tanh m x : bound1 tanh m x = bounded tanh m x.
Proof.
  destruct m; try reflexivity. cbn [bound1 bounded]. destruct (Qcltb_spec x (-(1))%Qc).
  - apply clip1_lo. qclra.
  - destruct (Qcltb_spec 1%Qc x); [apply clip1_hi; qclra|apply clip1_id; qclra].
Qed.
Lemma bound1_range tanh m x : (forall x, -(1) <= tanh x /\ tanh x <= 1)%Qc -> m <> BNone -> (-(1) <= bound1 tanh m x /\ bound1 tanh m x <= 1)%Qc.
Proof. intros Ht Hm. destruct m; [apply clip1_range|apply Ht|congruence]. Qed.

Lemma leb_true a b : (a <= b)%Qc -> Qcleb a b = true.
Proof. intro Hab. destruct (Qcleb_spec a b); [reflexivity|exfalso; qclra]. Qed.

(** C257. For an observation with at least one axis and an action shape without axes of length 0
    or 1, [compute_action] returns an array of the action's shape whose entries are the entries of
    the action of [forward], bounded and scaled into the action space as documented. *)
Lemma C257_box_partial_lemma : forall tanh fwd low high m scaling obs y s,
  (forall x, -(1) <= tanh x /\ tanh x <= 1)%Qc -> sh obs <> [] ->
  fwd (mkArr (1 :: sh obs) (fun i => ent obs (tl i))) = Ok y -> sh y = 1 :: s -> Forall (fun d => 2 <= d) s ->
  sh low = s -> sh high = s ->
  (scaling = true -> m = BNone -> forall i, index_of s i -> (-(1) <= ent y (0%nat :: i) /\ ent y (0%nat :: i) <= 1)%Qc) ->
  exists a, compute_action tanh fwd (ABox low high) m scaling obs = Ok (CArr a) /\ sh a = s
    /\ forall i, index_of s i -> ent a i = into_range scaling (ent low i) (ent high i) (bounded tanh m (ent y (0 :: i))).
Proof.
  intros tanh fwd low high m scaling obs y s Ht Ho Hf Hy Hs Hl Hh Hr.
  unfold compute_action. destruct (sh obs) as [|d0 so] eqn:Eo; [congruence|]. rewrite Hf. cbn [bind].
  assert (Hq : sh (squeeze y) = s) by (cbn [squeeze sh]; rewrite Hy; unfold squeeze_sh; cbn [filter Nat.eqb negb]; apply squeeze_id; exact Hs).
  assert (Hqe : forall i, length i = length s -> ent (squeeze y) i = ent y (0 :: i)).
  { intros i Hi. cbn [squeeze ent]. rewrite Hy. cbn [unsqueeze Nat.eqb]. rewrite unsqueeze_id; [reflexivity|exact Hs|exact Hi]. }
  unfold map_action_arr. destruct scaling; cbn [into_range].
  - cbn [map_arr sh]. rewrite Hq. rewrite (proj2 (Nat.eqb_neq _ _) (indices_pos s Hs)).
    replace (forallb _ (indices s)) with true.
    2:{ symmetry. apply forallb_forall. intros i Hi. apply in_indices in Hi. pose proof (index_length _ _ Hi) as Li. cbn [ent map_arr].
        rewrite (Hqe i Li). assert (K : (-(1) <= bound1 tanh m (ent y (0%nat :: i)) /\ bound1 tanh m (ent y (0%nat :: i)) <= 1)%Qc).
        { destruct m; [apply bound1_range; [exact Ht|congruence]|apply bound1_range; [exact Ht|congruence]|cbn [bound1]; apply Hr; auto]. }
        destruct K as [K1 K2]. rewrite (leb_true _ _ K1), (leb_true _ _ K2). reflexivity. }
    cbn [negb]. rewrite (bop_same _ high low s Hh Hl). cbn [bind].
    rewrite (bop_same _ (mkArr s _) (map_arr (bound1 tanh m) (squeeze y)) s eq_refl Hq). cbn [bind].
    rewrite (bop_same _ low (mkArr s _) s Hl eq_refl). cbn [bind]. eexists. split; [reflexivity|]. split; [reflexivity|].
    intros i Hi. pose proof (index_length _ _ Hi) as Li. cbn [ent map_arr].
    rewrite !(bindex_id s i Hs Li), (Hqe i Li), bound1_bounded. unfold into_range. reflexivity.
  - cbn [bind]. eexists. split; [reflexivity|]. split; [exact Hq|].
    intros i Hi. pose proof (index_length _ _ Hi) as Li. cbn [ent map_arr]. rewrite (Hqe i Li), bound1_bounded. reflexivity.
Qed.

(** C257. A discrete action is returned as the integer that [forward] chose. *)
Lemma C257_discrete_lemma : forall tanh fwd m scaling obs y z, sh obs <> [] ->
  fwd (mkArr (1 :: sh obs) (fun i => ent obs (tl i))) = Ok y -> sh y = [1] -> ent y [0] = Q2Qc (inject_Z z) ->
  compute_action tanh fwd ADiscrete m scaling obs = Ok (CInt z).
Proof.
  intros tanh fwd m scaling obs y z Ho Hf Hy Hz. unfold compute_action. destruct (sh obs) as [|d0 so] eqn:Eo; [congruence|].
  rewrite Hf. cbn [bind map_action_arr]. cbn [squeeze sh ent]. rewrite Hy. unfold squeeze_sh. cbn [filter Nat.eqb negb indices].
  cbn [unsqueeze Nat.eqb]. rewrite Hz. unfold trunc. f_equal. f_equal.
  change (this (Q2Qc (inject_Z z))) with (Qred (inject_Z z)).
  assert (E : Qred (inject_Z z) = inject_Z z).
  { unfold Qred, inject_Z. pose proof (Z.ggcd_gcd z 1) as E1. pose proof (Z.ggcd_correct_divisors z 1) as E2.
    destruct (Z.ggcd z 1) as [g [aa bb]]. cbn [fst snd] in *. rewrite Z.gcd_1_r in E1. subst g. destruct E2 as [-> E3].
    rewrite Z.mul_1_l in *. subst bb. reflexivity. }
  rewrite E. cbn [Qnum Qden inject_Z]. apply Z.quot_1_r.
Qed.

(** C257. Observations without axes (the states of toy-text environments, dicts) are not accepted
    by any policy. *)
Lemma C257_scalar_observation_refuted_lemma : forall tanh fwd sp m scaling obs, sh obs = [] ->
  compute_action tanh fwd sp m scaling obs = Err IndexError.
Proof. intros tanh fwd sp m scaling obs Ho. unfold compute_action. rewrite Ho. reflexivity. Qed.

(** C257. Axes of length 1 are lost: without scaling an action of shape (1,) is returned without
    axes, and with scaling an action of shape (n, 1) becomes a matrix of shape (n, n). *)
Lemma C257_shape_refuted_lemma : forall tanh fwd low high m obs y n,
  (forall x, -(1) <= tanh x /\ tanh x <= 1)%Qc -> sh obs <> [] ->
  fwd (mkArr (1 :: sh obs) (fun i => ent obs (tl i))) = Ok y ->
  (sh y = [1; 1] -> exists a, compute_action tanh fwd (ABox low high) m false obs = Ok (CArr a) /\ sh a = [])
  /\ (2 <= n -> sh y = [1; n; 1] -> sh low = [n; 1] -> sh high = [n; 1] -> m <> BNone ->
      exists a, compute_action tanh fwd (ABox low high) m true obs = Ok (CArr a) /\ sh a = [n; n]).
Proof.
  intros tanh fwd low high m obs y n Ht Ho Hf. unfold compute_action. destruct (sh obs) as [|d0 so] eqn:Eo; [congruence|].
  rewrite Hf. cbn [bind]. split.
  - intro Hy. cbn [map_action_arr bind]. eexists. split; [reflexivity|]. cbn [map_arr sh squeeze]. rewrite Hy. reflexivity.
  - intros Hn Hy Hl Hh Hm. unfold map_action_arr.
    assert (Hq : sh (map_arr (bound1 tanh m) (squeeze y)) = [n]).
    { cbn [map_arr squeeze sh]. rewrite Hy. unfold squeeze_sh. cbn [filter Nat.eqb negb]. replace (n =? 1) with false by lia. reflexivity. }
    rewrite Hq. rewrite (proj2 (Nat.eqb_neq _ _) (indices_pos [n] (Forall_cons n Hn (Forall_nil _)))).
    replace (forallb _ (indices [n])) with true.
    2:{ symmetry. apply forallb_forall. intros i _. cbn [ent map_arr].
        destruct (bound1_range tanh m (ent (squeeze y) i) Ht Hm) as [K1 K2]. rewrite (leb_true _ _ K1), (leb_true _ _ K2). reflexivity. }
    cbn [negb]. rewrite (bop_same _ high low _ Hh Hl). cbn [bind].
    assert (E1 : bshape [n; 1] [n] = Ok [n; n]).
    { unfold bshape. cbn [rev app bshape_rev bind]. replace (1 =? n) with false by lia. cbn [Nat.eqb bind rev app]. reflexivity. }
    assert (E2 : bshape [n; 1] [n; n] = Ok [n; n]).
    { unfold bshape. cbn [rev app bshape_rev bind]. rewrite Nat.eqb_refl. cbn [bind]. replace (1 =? n) with false by lia. cbn [Nat.eqb bind rev app]. reflexivity. }
    set (act := map_arr (bound1 tanh m) (squeeze y)) in *.
    rewrite (bop_sh _ (mkArr [n; 1] _) act [n; n]) by (rewrite Hq; exact E1). cbn [bind].
    rewrite (bop_sh _ low (mkArr [n; n] _) [n; n]) by (rewrite Hl; exact E2). cbn [bind]. eexists. split; reflexivity.
Qed.

Lemma row_seq (l : list Qc) : l = map (fun k => nth k l 0%Qc) (seq 0 (length l)).
Proof.
  apply nth_error_ext. intro j. rewrite nth_error_map_seq. destruct (Nat.ltb_spec j (length l)) as [Hj|Hj].
  - apply nth_error_nth'. exact Hj.
  - apply nth_error_None. exact Hj.
Qed.
(** C257. For actions of one axis [compute_action] does what the collector does with the action of
    a batch of one row: the same entries, or the same exception. *)
Lemma C257_as_collected_lemma : forall tanh fwd low high m scaling obs row,
  sh obs <> [] -> 2 <= length row -> length low = length row -> length high = length row ->
  fwd (mkArr (1 :: sh obs) (fun i => ent obs (tl i))) = Ok (mkArr [1; length row] (fun i => nth (nth 1 i 0) row 0%Qc)) ->
  match compute_action tanh fwd (ABox (arr1 low) (arr1 high)) m scaling obs with
  | Ok (CArr a) => sh a = [length row] /\ map_action tanh true m scaling low high [row] = Ok [map (fun j => ent a [j]) (seq 0 (length row))]
  | Ok (CInt _) => False
  | Err e => map_action tanh true m scaling low high [row] = Err e
  end.
Proof.
  intros tanh fwd low high m scaling obs row Ho Hn Hl Hh Hf.
  unfold compute_action. destruct (sh obs) as [|d0 so] eqn:Eo; [congruence|]. rewrite Hf. cbn [bind].
  set (n := length row) in *. assert (Hs : Forall (fun d => 2 <= d) [n]) by (constructor; [exact Hn|constructor]).
  set (y := mkArr [1; n] (fun i => nth (nth 1 i 0) row 0%Qc)).
  assert (Hq : squeeze y = mkArr [n] (fun i => ent y (unsqueeze [1; n] i))).
  { unfold squeeze. cbn [y sh]. f_equal. unfold squeeze_sh. cbn [filter Nat.eqb negb]. replace (n =? 1) with false by lia. reflexivity. }
  assert (He : forall j, ent y (unsqueeze [1; n] [j]) = nth j row 0%Qc).
  { intro j. cbn [unsqueeze Nat.eqb]. replace (n =? 1) with false by lia. reflexivity. }
  assert (Hrow : map (fun j => nth j row 0%Qc) (seq 0 n) = row) by (symmetry; apply row_seq).
  unfold map_action_arr, map_action. cbn [negb map]. rewrite Hq. destruct scaling.
  - cbn [map_arr sh]. rewrite (proj2 (Nat.eqb_neq _ _) (indices_pos [n] Hs)).
    cbn [concat]. rewrite app_nil_r, map_length. fold n. replace (n =? 0) with false by lia.
    assert (EF : forallb (fun i => Qcleb (-(1))%Qc (ent (map_arr (bound1 tanh m) (mkArr [n] (fun i => ent y (unsqueeze [1; n] i)))) i)
                          && Qcleb (ent (map_arr (bound1 tanh m) (mkArr [n] (fun i => ent y (unsqueeze [1; n] i)))) i) 1%Qc) (indices [n])
                 = forallb (forallb (fun a => Qcleb (-(1))%Qc a && Qcleb a 1%Qc)) [map (bound1 tanh m) row]).
    { cbn [forallb]. rewrite andb_true_r. rewrite <- Hrow at 1. cbn [indices map].
      generalize (seq 0 n). intro l. induction l as [|j l IH]; [reflexivity|]. cbn [flat_map map app forallb].
      rewrite IH. cbn [ent map_arr]. rewrite He. reflexivity. }
    cbn [map_arr] in EF. rewrite EF. destruct (forallb (forallb _) [map (bound1 tanh m) row]); cbn [negb]; [|reflexivity].
    assert (El : sh (arr1 low) = [n]) by (cbn; rewrite Hl; reflexivity).
    assert (Eh : sh (arr1 high) = [n]) by (cbn; rewrite Hh; reflexivity).
    rewrite (bop_same _ _ _ _ Eh El). cbn [bind].
    rewrite (bop_same _ (mkArr [n] _) (map_arr _ (mkArr [n] _)) [n] eq_refl eq_refl). cbn [bind].
    rewrite (bop_same _ _ (mkArr [n] _) [n] El eq_refl). cbn [bind sh]. split; [reflexivity|].
    cbn [mapM]. destruct (map2r_ok pair low high) as (lh & Elh & Llh & Nlh); [congruence|]. rewrite Elh. cbn [bind].
    destruct (map2r_ok (fun l a => scale1 (fst l) (snd l) a) lh (map (bound1 tanh m) row)) as (rr & Err & Lrr & Nrr); [rewrite map_length; fold n; congruence|].
    rewrite Err. cbn [bind]. f_equal. f_equal. apply nth_error_ext. intro j.
    rewrite Nrr, Nlh, !nth_error_map.
    destruct (Nat.ltb_spec j n) as [Hj|Hj].
    + rewrite (nth_error_nth' low 0%Qc) by lia. rewrite (nth_error_nth' high 0%Qc) by lia. rewrite (nth_error_nth' row 0%Qc) by (fold n; lia).
      rewrite (nth_error_nth' (seq 0 n) 0) by (rewrite seq_length; lia). rewrite seq_nth by lia. cbn [option_map fst snd Nat.add ent].
      rewrite !(bindex_id [n] [j] Hs eq_refl). cbn [map_arr ent]. rewrite ?(bindex_id [n] [j] Hs eq_refl), He. cbn [arr1 ent hd]. reflexivity.
    + assert (Z1 : nth_error low j = None) by (apply nth_error_None; lia). assert (Z2 : nth_error (seq 0 n) j = None) by (apply nth_error_None; rewrite seq_length; lia).
      rewrite Z1, Z2. reflexivity.
  - cbn [map_arr sh]. split; [reflexivity|]. f_equal. f_equal. rewrite <- Hrow at 1. rewrite map_map. apply map_ext. intro j.
    cbn [ent map_arr]. rewrite He. reflexivity.
Qed.

(** ** C258 *)
Lemma executed_clip tanh low high len draws : len <> 0 ->
  random_executed tanh low high len draws = Ok (map (fun k => map clip1 (draws k)) (seq 0 len)).
Proof.
  intro Hl. unfold random_executed, random_box. rewrite (proj2 (Nat.eqb_neq _ _) Hl). cbn [bind]. unfold map_action. cbn [negb].
  rewrite map_map. reflexivity.
Qed.
Lemma map_id_in {X} (f : X -> X) l : (forall x, In x l -> f x = x) -> map f l = l.
Proof. induction l as [|x l IH]; intro H; [reflexivity|]. cbn [map]. rewrite H by (left; reflexivity). rewrite IH; [reflexivity|]. intros y Hy. apply H. right. exact Hy. Qed.

(** C258. In a box inside [-1, 1] the random policy's actions are executed as drawn; in a discrete
    space that starts at 0 they are actions of the space, one for every observation. *)
Lemma C258_random_partial_lemma :
  (forall tanh low high len draws, len <> 0 ->
     (forall j l, nth_error low j = Some l -> (-(1) <= l)%Qc) -> (forall j h, nth_error high j = Some h -> (h <= 1)%Qc) ->
     (forall k j x, k < len -> nth_error (draws k) j = Some x -> exists l h, nth_error low j = Some l /\ nth_error high j = Some h /\ (l <= x)%Qc /\ (x <= h)%Qc) ->
     random_executed tanh low high len draws = Ok (map draws (seq 0 len)))
  /\ (forall n len draws, (forall k, k < len -> (0 <= draws k < n)%Z) ->
     length (random_discrete len draws) = len /\ forall a, In a (random_discrete len draws) -> (0 <= a < 0 + n)%Z).
Proof.
  split.
  - intros tanh low high len draws Hl Hlo Hhi Hd. rewrite (executed_clip tanh low high len draws Hl). f_equal. apply map_ext_in.
    intros k Hk. apply in_seq in Hk. apply map_id_in. intros x Hx. apply In_nth_error in Hx as [j Hj].
    destruct (Hd k j x ltac:(lia) Hj) as (l & h & H1 & H2 & H3 & H4).
    pose proof (Hlo j l H1). pose proof (Hhi j h H2). apply clip1_id; qclra.
  - intros n len draws Hd. unfold random_discrete. split; [rewrite map_length, seq_length; reflexivity|].
    intros a Ha. apply in_map_iff in Ha as (k & <- & Hk). apply in_seq in Hk. specialize (Hd k ltac:(lia)). lia.
Qed.

(** C258. In any other box the executed actions are not those drawn: they lie in [-1, 1] whatever
    the space is, an entry above 1 is executed as 1, and in a box whose lower bound is above 1 no
    executed action is in the box. *)
Lemma C258_clipped_refuted_lemma : forall tanh low high len draws act, random_executed tanh low high len draws = Ok act ->
  forall k j x y, k < len -> nth_error (draws k) j = Some x -> (exists row, nth_error act k = Some row /\ nth_error row j = Some y) ->
  (-(1) <= y)%Qc /\ (y <= 1)%Qc /\ ((1 < x)%Qc -> y = 1%Qc) /\ (forall l, nth_error low j = Some l -> (1 < l)%Qc -> ~ (l <= y)%Qc).
Proof.
  intros tanh low high len draws act E k j x y Hk Hx (row & Hr & Hy).
  rewrite executed_clip in E by lia. injection E as <-.
  rewrite nth_error_map_seq in Hr. replace (k <? len) with true in Hr by lia. injection Hr as <-.
  rewrite nth_error_map, Hx in Hy. cbn in Hy. injection Hy as <-.
  destruct (clip1_range x) as [A B]. split; [exact A|]. split; [exact B|]. split.
  - intro. apply clip1_hi. qclra.
  - intros l _ Hl Hc. qclra.
Qed.

(** C258. In a discrete space that starts at a positive number, action 0, which is always among the
    possible draws, is not an action of the space. *)
Lemma C258_start_refuted_lemma : forall n start, (0 < n)%Z -> (0 < start)%Z ->
  exists draws, (forall k, (0 <= draws k < n)%Z) /\ forall len a, In a (random_discrete len draws) -> ~ (start <= a < start + n)%Z.
Proof.
  intros n start Hn Hs. exists (fun _ => 0%Z). split; [intro; lia|]. intros len a Ha. unfold random_discrete in Ha.
  apply in_map_iff in Ha as (k & <- & _). lia.
Qed.

(** ** C259 *)
Section C259.
Context {Ob W H : Type}.
Variable net : W -> Ob -> H -> list (list Qc) * H.

Lemma forward_inv (p : dpol W) m (o : dobs Ob) (h : H) x : dqn_forward net p m o h = Ok x ->
  exists w q, (match m with DModel => Some (dp_model p) | DModelOld => dp_old p end) = Some w
  /\ (do_logits (snd x), do_state (snd x)) = net w (inner_obs o) h
  /\ compute_q_value (do_logits (snd x)) (obs_mask o) = Ok q /\ do_act (snd x) = map argmax q
  /\ fst x = mkDpol (dp_model p) (dp_old p) (Some (match dp_max p with Some n => n | None => width q end)).
Proof.
  unfold dqn_forward. intro E.
  set (w := match m with DModel => Some (dp_model p) | DModelOld => dp_old p end).
  assert (Ew : (match m with DModel => Ok (dp_model p) | DModelOld => match dp_old p with Some w => Ok w | None => Err AttributeError end end)
               = match w with Some w => Ok w | None => Err AttributeError end) by (destruct m; reflexivity).
  rewrite Ew in E. destruct w as [w0|]; [|discriminate E]. cbn [bind] in E.
  destruct (net w0 (inner_obs o) h) as [lg hd] eqn:En. destruct (compute_q_value lg (obs_mask o)) as [q|] eqn:Eq; [|discriminate E].
  cbn [bind] in E. injection E as <-. exists w0, q. cbn [fst snd do_logits do_act do_state].
  split; [reflexivity|]. split; [congruence|]. split; [exact Eq|]. split; [reflexivity|].
  destruct p as [a b [n|]]; reflexivity.
Qed.
End C259.

Lemma width_combine (logits : list (list Qc)) mask : length logits = length mask ->
  (forall i row mrow, nth_error logits i = Some row -> nth_error mask i = Some mrow -> length row = length mrow) ->
  forall q, compute_q_value logits (Some mask) = Ok q -> width q = width logits.
Proof.
  intros Hl Hr q E. unfold compute_q_value in E. destruct (tmin (concat logits)); [|discriminate E]. cbn [bind] in E.
  destruct (tmax (concat logits)); [|discriminate E]. cbn [bind] in E. injection E as <-.
  destruct logits as [|r l], mask as [|m mask]; try discriminate Hl; [reflexivity|]. cbn [combine map width fst snd].
  rewrite map_length, combine_length. specialize (Hr 0 r m eq_refl eq_refl). lia.
Qed.

(** C259. Every call of [forward] evaluates the network named by [model] at the observation without
    its wrapping and returns its raw output, its hidden state and the greedy actions of the masked
    values; no call changes the networks. *)
Lemma C259_calls_lemma : forall (Ob W H : Type) (net : W -> Ob -> H -> list (list Qc) * H) l (p p' : dpol W) outs,
  dqn_calls net p l = Ok (p', outs) ->
  dp_model p' = dp_model p /\ dp_old p' = dp_old p /\ length outs = length l
  /\ forall k m o h out, nth_error l k = Some (m, o, h) -> nth_error outs k = Some out ->
       exists w, (match m with DModel => Some (dp_model p) | DModelOld => dp_old p end) = Some w
       /\ (do_logits out, do_state out) = net w (inner_obs o) h
       /\ greedy (do_logits out) (obs_mask o) = Ok (do_act out).
Proof.
  intros Ob W H net l. induction l as [|[[m o] h] l IH]; intros p p' outs E.
  - cbn in E. injection E as <- <-. split; [reflexivity|]. split; [reflexivity|]. split; [reflexivity|]. intros [|k]; intros; discriminate.
  - cbn [dqn_calls] in E. destruct (dqn_forward net p m o h) as [x|] eqn:Ef; [|discriminate E]. cbn [bind] in E.
    destruct (dqn_calls net (fst x) l) as [y|] eqn:Ec; [|discriminate E]. cbn [bind] in E. injection E as <- <-.
    destruct (forward_inv net p m o h x Ef) as (w & q & H1 & H2 & H3 & H4 & H5).
    destruct y as [p1 o1]. destruct (IH _ _ _ Ec) as (I1 & I2 & I3 & I4). rewrite H5 in I1, I2, I4. cbn [dp_model dp_old fst snd] in *.
    split; [exact I1|]. split; [exact I2|]. split; [cbn; congruence|].
    intros [|k] m0 o0 h0 out Hl Ho; cbn [nth_error] in Hl, Ho.
    + injection Hl as <- <- <-. injection Ho as <-. exists w. split; [exact H1|]. split; [exact H2|].
      unfold greedy. rewrite H3. cbn [bind]. congruence.
    + eapply I4; eassumption.
Qed.

(** C259. [max_action_num] is the number of actions of the first output, stays what it is ever
    after, and with it [exploration_noise] accepts any actions; before the first call it raises. *)
Lemma C259_max_action_num_lemma : forall (Ob W H : Type) (net : W -> Ob -> H -> list (list Qc) * H) l (p p' : dpol W) outs,
  dqn_calls net p l = Ok (p', outs) ->
  (forall m o h mask, In (m, o, h) l -> obs_mask o = Some mask -> forall w, let logits := fst (net w (inner_obs o) h) in
     length logits = length mask /\ forall i row mrow, nth_error logits i = Some row -> nth_error mask i = Some mrow -> length row = length mrow) ->
  (forall n, dp_max p = Some n -> dp_max p' = Some n)
  /\ (dp_max p = None -> dp_max p' = match outs with [] => None | out :: _ => Some (width (do_logits out)) end)
  /\ (forall eps u q mask act, l <> [] -> exists act', exploration_noise false eps (dp_max p') u q mask act = Ok act')
  /\ (forall eps u q mask act, dp_max p = None -> l = [] -> exploration_noise false eps (dp_max p') u q mask act = Err AssertionError).
Proof.
  intros Ob W H net l p p' outs E Hm.
  assert (Keep : forall l p p' outs n, dqn_calls net p l = Ok (p', outs) -> dp_max p = Some n -> dp_max p' = Some n).
  { clear. intro l. induction l as [|[[m o] h] l IH]; intros p p' outs n E Hn.
    - cbn in E. injection E as <- <-. exact Hn.
    - cbn [dqn_calls] in E. destruct (dqn_forward net p m o h) as [x|] eqn:Ef; [|discriminate E]. cbn [bind] in E.
      destruct (dqn_calls net (fst x) l) as [[p1 o1]|] eqn:Ec; [|discriminate E]. cbn [bind fst snd] in E. injection E as <- <-.
      destruct (forward_inv net p m o h x Ef) as (w & q & H1 & H2 & H3 & H4 & H5).
      apply (IH _ _ _ n Ec). rewrite H5. cbn. rewrite Hn. reflexivity. }
  assert (First : dp_max p = None -> dp_max p' = match outs with [] => None | out :: _ => Some (width (do_logits out)) end).
  { intro Hn. destruct l as [|[[m o] h] l].
    - cbn in E. injection E as <- <-. exact Hn.
    - cbn [dqn_calls] in E. destruct (dqn_forward net p m o h) as [x|] eqn:Ef; [|discriminate E]. cbn [bind] in E.
      destruct (dqn_calls net (fst x) l) as [[p1 o1]|] eqn:Ec; [|discriminate E]. cbn [bind fst snd] in E. injection E as <- <-.
      destruct (forward_inv net p m o h x Ef) as (w & q & H1 & H2 & H3 & H4 & H5).
      apply (Keep _ _ _ _ _ Ec). rewrite H5. cbn [dp_max]. rewrite Hn. f_equal.
      destruct (obs_mask o) as [mask|] eqn:Eo.
      + destruct (Hm m o h mask (or_introl eq_refl) Eo w) as [K1 K2]. rewrite <- H2 in K1, K2. cbn [fst] in K1, K2.
        apply (width_combine _ mask K1 K2 q H3).
      + cbn in H3. injection H3 as <-. reflexivity. }
  split; [intros n Hn; exact (Keep _ _ _ _ _ E Hn)|]. split; [exact First|]. split.
  - intros eps u q mask act Hl. assert (K : exists n, dp_max p' = Some n).
    { destruct (dp_max p) as [n|] eqn:Ep; [exists n; exact (Keep _ _ _ _ _ E Ep)|]. rewrite (First eq_refl).
      destruct (C259_calls_lemma Ob W H net l p p' outs E) as (_ & _ & Ln & _). destruct outs as [|out outs]; [destruct l; [congruence|discriminate Ln]|].
      eexists. reflexivity. }
    destruct K as [n ->]. unfold exploration_noise. eexists. reflexivity.
  - intros eps u q mask act Hn ->. cbn in E. injection E as <- <-. rewrite Hn. reflexivity.
Qed.

(** ** C260 *)
Section C260.
Context {M V R : Type}.
Variable solve : M -> V -> nat -> res (list nat * V).
Variable observe : M -> R -> M.

Lemma call_shape (s : pm M V) o : exists pi v, fst (psrl_call solve s o) = mkPm (pm_post s) pi v true (pm_solved s + if pm_updated s then 0 else 1)
  /\ (pm_updated s = true -> pi = pm_policy s /\ v = pm_value s).
Proof.
  unfold psrl_call, solve_policy. destruct s as [m pi v [|] k]; cbn [pm_updated pm_post pm_policy pm_value pm_solved].
  - exists pi, v. rewrite Nat.add_0_r. split; [destruct pi; reflexivity|]. auto.
  - rewrite Nat.add_1_r. destruct (solve m v k) as [[pi' v']|e]; cbn [fst pm_policy]; eexists _, _; (split; [reflexivity|discriminate]).
Qed.
Lemma run_cons_act (s : pm M V) o l : psrl_run solve observe s (PAct o :: l)
  = (fst (psrl_run solve observe (fst (psrl_call solve s o)) l), snd (psrl_call solve s o) :: snd (psrl_run solve observe (fst (psrl_call solve s o)) l)).
Proof. cbn [psrl_run]. destruct (psrl_call solve s o) as [s1 r]. cbn [fst snd]. destruct (psrl_run solve observe s1 l). reflexivity. Qed.
Lemma run_cons_learn (s : pm M V) r l : psrl_run solve observe s (PLearn r :: l) = psrl_run solve observe (psrl_observe observe s r) l.
Proof. reflexivity. Qed.
Lemma run_app (l1 : list (pop R)) : forall (s : pm M V) l2, psrl_run solve observe s (l1 ++ l2)
  = (fst (psrl_run solve observe (fst (psrl_run solve observe s l1)) l2), snd (psrl_run solve observe s l1) ++ snd (psrl_run solve observe (fst (psrl_run solve observe s l1)) l2)).
Proof.
  induction l1 as [|[o|r] l1 IH]; intros s l2.
  - cbn [app psrl_run fst snd]. destruct (psrl_run solve observe s l2). reflexivity.
  - rewrite <- app_comm_cons, !run_cons_act, IH. cbn [fst snd]. reflexivity.
  - cbn [app psrl_run]. apply IH.
Qed.
Lemma run_post (l : list (pop R)) : forall s : pm M V, pm_post (fst (psrl_run solve observe s l)) = fold_left observe (learned l) (pm_post s)
  /\ pm_solved (fst (psrl_run solve observe s l)) = pm_solved s + runs (negb (pm_updated s)) l.
Proof.
  induction l as [|[o|r] l IH]; intro s.
  - cbn. split; [reflexivity|lia].
  - rewrite run_cons_act. cbn [fst learned runs]. destruct (call_shape s o) as (pi & v & E & _). rewrite E.
    destruct (IH (mkPm (pm_post s) pi v true (pm_solved s + (if pm_updated s then 0 else 1)))) as [A B].
    rewrite A, B. cbn [pm_post pm_solved pm_updated negb]. split; [reflexivity|]. destruct (pm_updated s); cbn [negb]; lia.
  - cbn [psrl_run learned runs fold_left]. destruct (IH (psrl_observe observe s r)) as [A B]. rewrite A, B. split; reflexivity.
Qed.
Lemma acts_fixed (os : list (list nat)) : forall s : pm M V, pm_updated s = true -> forall pi, pm_policy s = Some pi ->
  psrl_run solve observe s (map PAct os) = (s, map (fun o => mapM (fun x => match nth_error pi x with Some a => Ok a | None => Err IndexError end) o) os).
Proof.
  induction os as [|o os IH]; intros s Hu pi Hp; [reflexivity|]. cbn [map]. rewrite run_cons_act.
  assert (E : psrl_call solve s o = (s, mapM (fun x => match nth_error pi x with Some a => Ok a | None => Err IndexError end) o)).
  { unfold psrl_call. rewrite Hu, Hp. reflexivity. }
  rewrite E. cbn [fst snd]. rewrite (IH s Hu pi Hp). reflexivity.
Qed.
End C260.

(** C260. After any history, the calls of [forward] that follow a call of [learn] all use one policy:
    the solution for the posterior of exactly the data learned so far. *)
Lemma C260_current_partial_lemma : forall (M V R : Type) (solve : M -> V -> nat -> res (list nat * V)) (observe : M -> R -> M)
  (m0 : M) (v0 : V) l r o os,
  let s := fst (psrl_run solve observe (mkPm m0 None v0 false 0) l) in
  forall pi v, solve (fold_left observe (learned l ++ [r]) m0) (pm_value s) (pm_solved s) = Ok (pi, v) ->
  snd (psrl_run solve observe (mkPm m0 None v0 false 0) (l ++ PLearn r :: map PAct (o :: os)))
  = snd (psrl_run solve observe (mkPm m0 None v0 false 0) l)
    ++ map (fun o => mapM (fun x => match nth_error pi x with Some a => Ok a | None => Err IndexError end) o) (o :: os).
Proof.
  intros M V R solve observe m0 v0 l r o os s pi v E. rewrite run_app. cbn [snd]. f_equal. fold s.
  rewrite run_cons_learn. cbn [map]. rewrite run_cons_act.
  destruct (run_post solve observe l (mkPm m0 None v0 false 0)) as [A _]. fold s in A. cbn [pm_post] in A.
  rewrite fold_left_app in E. cbn [fold_left] in E. rewrite <- A in E.
  assert (E1 : psrl_call solve (psrl_observe observe s r) o
     = (mkPm (observe (pm_post s) r) (Some pi) v true (S (pm_solved s)), mapM (fun x => match nth_error pi x with Some a => Ok a | None => Err IndexError end) o)).
  { unfold psrl_call, psrl_observe, solve_policy. cbn [pm_updated pm_post pm_value pm_solved pm_policy]. rewrite E. reflexivity. }
  rewrite E1. cbn [fst snd]. rewrite (acts_fixed solve observe os (mkPm (observe (pm_post s) r) (Some pi) v true (S (pm_solved s))) eq_refl pi eq_refl). reflexivity.
Qed.

(** C260. The model is solved once for every run of calls without learning in between. *)
Lemma C260_solved_once_lemma : forall (M V R : Type) (solve : M -> V -> nat -> res (list nat * V)) (observe : M -> R -> M)
  (m0 : M) (v0 : V) l, pm_solved (fst (psrl_run solve observe (mkPm m0 None v0 false 0) l)) = runs true l.
Proof. intros. destruct (run_post solve observe l (mkPm m0 None v0 false 0)) as [_ B]. rewrite B. reflexivity. Qed.

(** C260. If solving raises, the next call does not try again: it acts by the policy of the data
    before, or raises AttributeError if there is none. *)
Lemma C260_stale_refuted_lemma : forall (M V R : Type) (solve : M -> V -> nat -> res (list nat * V)) (observe : M -> R -> M)
  (m : M) pi (v : V) b k r e o o',
  solve (observe m r) v k = Err e ->
  snd (psrl_run solve observe (mkPm m pi v b k) [PLearn r; PAct o; PAct o'])
  = [Err e; match pi with
            | Some pi => mapM (fun x => match nth_error pi x with Some a => Ok a | None => Err IndexError end) o'
            | None => Err AttributeError
            end].
Proof.
  intros M V R solve observe m pi v b k r e o o' E. rewrite run_cons_learn, run_cons_act.
  assert (E1 : psrl_call solve (psrl_observe observe (mkPm m pi v b k) r) o = (mkPm (observe m r) pi v true (S k), Err e)).
  { unfold psrl_call, psrl_observe, solve_policy. cbn [pm_updated pm_post pm_policy pm_value pm_solved]. rewrite E. reflexivity. }
  rewrite E1. cbn [fst snd]. rewrite run_cons_act. unfold psrl_call. cbn [pm_updated pm_policy]. destruct pi; reflexivity.
Qed.

(** C257. Broadcasting: an axis of length 1 of one operand, or a missing leading axis, is repeated along the axis of the other. *)
Lemma C257_broadcast_lemma : forall (f : Qc -> Qc -> Qc) (a b : arr) (m n : nat), 2 <= m -> 2 <= n ->
  (sh a = [1; n] \/ sh a = [m; 1] \/ sh a = [1; 1] \/ sh a = [m; n] \/ sh a = [n] \/ sh a = [1] \/ sh a = []) -> sh b = [m; n] ->
  exists r, bop f a b = Ok r /\ sh r = [m; n] /\ forall i j,
    ent r [i; j] = f (match sh a with
                      | [x; y] => ent a [if x =? 1 then 0 else i; if y =? 1 then 0 else j]
                      | [y] => ent a [if y =? 1 then 0 else j]
                      | _ => ent a [] end) (ent b [i; j]).
Proof.
  intros f a b m n Hm Hn Ha Hb. unfold bop, bshape. rewrite Hb.
  assert (Em : (m =? 1) = false) by lia. assert (En : (n =? 1) = false) by lia.
  assert (Em' : (1 =? m) = false) by lia. assert (En' : (1 =? n) = false) by lia.
  destruct Ha as [Ha|[Ha|[Ha|[Ha|[Ha|[Ha|Ha]]]]]]; rewrite Ha; cbn [rev app bshape_rev bind]; rewrite ?Nat.eqb_refl, ?Em, ?En, ?Em', ?En'; cbn [bind rev app Nat.eqb];
    (eexists; split; [reflexivity|]; split; [reflexivity|]; intros i j; unfold bindex; cbn [ent length Nat.sub skipn combine map fst snd Nat.eqb];
     rewrite ?Em, ?En; reflexivity).
Qed.
(** C258. Other action spaces are refused when the policy is made. *)
Lemma C258_spaces_lemma : forall sp : rspace, random_init sp = match sp with OtherSpace => Err NotImplementedError | sp => Ok sp end.
Proof. intros [| |]; reflexivity. Qed.
(** C259. The network sees the entry [obs] of an observation that has one, whatever else is in it, and otherwise the observation. *)
Lemma C259_observation_lemma : forall (Ob W H : Type) (net net' : W -> Ob -> H -> list (list Qc) * H) (p : dpol W) m obs whole mask h,
  (forall w, net w obs h = net' w obs h) ->
  dqn_forward net p m (DBatch (Some obs) whole mask) h = dqn_forward net' p m (DBatch (Some obs) whole mask) h
  /\ dqn_forward net p m (DPlain obs) h = dqn_forward net' p m (DPlain obs) h
  /\ dqn_forward net p m (DBatch None obs mask) h = dqn_forward net' p m (DBatch None obs mask) h.
Proof.
  intros Ob W H net net' p m obs whole mask h E. unfold dqn_forward. cbn [inner_obs].
  destruct m; [|destruct (dp_old p)]; cbn [bind]; rewrite ?E; auto.
Qed.
