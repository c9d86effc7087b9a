(** * Proofs: order-preserving changes of values, and changes of unit and origin *)
From Verif Require Import Py PyLemmas Num ReturnsModel DqnModel DqnProofs StatModel StatProofs EvalProofs TatSpec TatProofs QuantModel ActorModel OnpolModel AffSpec.
Open Scope nat_scope.

Lemma inc_ltb f x y : increasing f -> Qcltb (f x) (f y) = Qcltb x y.
Proof.
  intros Hf. destruct (Qcltb_spec x y) as [H|H], (Qcltb_spec (f x) (f y)) as [H'|H']; try reflexivity; exfalso.
  - apply Hf in H. qclra.
  - destruct (Qcle_lt_or_eq _ _ H) as [H2|H2]; [apply Hf in H2; qclra|subst; qclra].
Qed.
Lemma inc_leb f x y : increasing f -> Qcleb (f x) (f y) = Qcleb x y.
Proof. intros Hf. pose proof (inc_ltb f y x Hf) as H. unfold Qcltb in H. unfold Qcleb. destruct (Qle_bool (f x) (f y)), (Qle_bool x y); cbn in H; congruence. Qed.

(** [argmax] looks at the order only. *)
Lemma argmax_from_order {X} (f g : X -> Qc) l : forall x bi i,
  (forall a b, In a (x :: l) -> In b (x :: l) -> Qcltb (f a) (f b) = Qcltb (g a) (g b)) ->
  argmax_from (f x) bi i (map f l) = argmax_from (g x) bi i (map g l).
Proof.
  induction l as [|y l IH]; intros x bi i H; cbn [map argmax_from]; [reflexivity|].
  rewrite (H x y) by (cbn; auto). destruct (Qcltb (g x) (g y)); apply IH; intros a b Ha Hb; apply H; cbn in *; tauto.
Qed.
Lemma argmax_order {X} (f g : X -> Qc) l : (forall a b, In a l -> In b l -> Qcltb (f a) (f b) = Qcltb (g a) (g b)) ->
  argmax (map f l) = argmax (map g l).
Proof. destruct l as [|x l]; intros H; [reflexivity|]. cbn [map argmax]. apply argmax_from_order, H. Qed.

Lemma tmax_map f l : increasing f -> tmax (map f l) = rmap f (tmax l).
Proof.
  intros Hf. destruct l as [|x l]; [reflexivity|]. cbn [map tmax rmap]. f_equal. revert x. induction l as [|y l IH]; intros x; [reflexivity|].
  cbn [map fold_left]. rewrite <- IH. f_equal. unfold Qcmaxb. rewrite (inc_leb f x y Hf). destruct (Qcleb x y); reflexivity.
Qed.
Lemma tmin_map f l : increasing f -> tmin (map f l) = rmap f (tmin l).
Proof.
  intros Hf. destruct l as [|x l]; [reflexivity|]. cbn [map tmin rmap]. f_equal. revert x. induction l as [|y l IH]; intros x; [reflexivity|].
  cbn [map fold_left]. rewrite <- IH. f_equal. unfold Qcminb. rewrite (inc_leb f x y Hf). destruct (Qcleb x y); reflexivity.
Qed.

(** A masked row. *)
Lemma masked_order (p p' : Qc) (f : Qc -> Qc) (lo hi : Qc) (l : list (Qc * bool)) : increasing f ->
  (forall x, In x l -> (lo <= fst x)%Qc /\ (fst x <= hi)%Qc) ->
  p = (lo - hi - 1)%Qc -> p' = (f lo - f hi - 1)%Qc ->
  argmax (map (fun xm => (f (fst xm) + (1 - b2q (snd xm)) * p')%Qc) l)
  = argmax (map (fun xm => (fst xm + (1 - b2q (snd xm)) * p)%Qc) l).
Proof.
  intros Hf Hb Ep Ep'. apply argmax_order. intros [x m] [y m'] Hx Hy. cbn [fst snd].
  assert (Hfb : forall z, In z l -> (f lo <= f (fst z))%Qc /\ (f (fst z) <= f hi)%Qc).
  { intros z Hz. destruct (Hb z Hz) as [H1 H2]. 
    split; [destruct (Qcle_lt_or_eq _ _ H1) as [E|E]|destruct (Qcle_lt_or_eq _ _ H2) as [E|E]];
      [apply Hf in E; clear - E; qclra|rewrite E; clear; qclra|apply Hf in E; clear - E; qclra|rewrite E; clear; qclra]. }
  destruct (Hb _ Hx) as [X1 X2], (Hb _ Hy) as [Y1 Y2], (Hfb _ Hx) as [FX1 FX2], (Hfb _ Hy) as [FY1 FY2]. cbn [fst] in *.
  pose proof (inc_ltb f x y Hf) as Hlt. clear Hb Hfb Hx Hy.
  destruct m, m'; cbn [b2q];
    repeat match goal with |- context [Qcltb ?a ?b] => destruct (Qcltb_spec a b) end; try reflexivity; exfalso;
    destruct (Qcltb_spec x y), (Qcltb_spec (f x) (f y)); try discriminate Hlt; subst p p'; clear - X1 X2 Y1 Y2 FX1 FX2 FY1 FY2 H H0 H1 H2; qclra.
Qed.

(** C350.  The greedy actions, masked or not, and the actions of the random policy do not change if all values are
    changed by one strictly increasing function. *)
Lemma C350_greedy_lemma : forall (f : Qc -> Qc) (logits : list (list Qc)) (mask : option (list (list bool))), increasing f ->
  greedy (map (map f) logits) mask = greedy logits mask.
Proof.
  intros f logits mask Hf. unfold greedy, compute_q_value. destruct mask as [mask|]; cbn [bind].
  - rewrite <- concat_map, tmin_map, tmax_map by exact Hf.
    destruct (concat logits) as [|c0 cs] eqn:Ec; [reflexivity|].
    destruct (tmin_ok (c0 :: cs) ltac:(discriminate)) as (lo & -> & Hlo). destruct (tmax_ok (c0 :: cs) ltac:(discriminate)) as (hi & -> & Hhi).
    cbn [rmap bind]. f_equal. rewrite <- Ec in Hlo, Hhi. clear Ec c0 cs. revert mask Hlo Hhi. induction logits as [|row logits IH]; intros [|m mask] Hlo Hhi; try reflexivity.
    cbn [map combine fst snd]. f_equal.
    + clear IH. rewrite <- (masked_order (lo - hi - 1)%Qc (f lo - f hi - 1)%Qc f lo hi (combine row m) Hf); [|intros [x b] Hx; cbn [fst]; apply in_combine_l in Hx; split; [apply Hlo|apply Hhi]; cbn [concat]; apply in_or_app; left; exact Hx|reflexivity|reflexivity].
      f_equal. clear. revert m. induction row as [|x row IH]; intros [|b m]; try reflexivity. cbn [map combine fst snd]. f_equal. apply IH.
    + apply IH; intros x Hx; [apply Hlo|apply Hhi]; cbn [concat]; apply in_or_app; right; exact Hx.
  - f_equal. rewrite map_map. apply map_ext. intros row. rewrite <- (map_id row) at 2. apply argmax_order. intros a b _ _. apply inc_ltb, Hf.
Qed.
(** C350.  The random policy as well. *)
Lemma C350_random_lemma : forall (f : Qc -> Qc) (logits : list (list Qc)) (mask : list (list bool)), increasing f ->
  random_forward (map (map f) logits) mask = random_forward logits mask.
Proof.
  intros f logits mask Hf. unfold random_forward. revert mask. induction logits as [|row logits IH]; intros [|m mask]; try reflexivity.
  cbn [map combine fst snd]. f_equal; [|apply IH]. clear IH.
  replace (map (fun xm : Qc * bool => if snd xm then Some (fst xm) else None) (combine (map f row) m))
    with (map (option_map f) (map (fun xm : Qc * bool => if snd xm then Some (fst xm) else None) (combine row m))).
  2:{ revert m. induction row as [|x row IH]; intros [|b m]; try reflexivity. cbn [map combine fst snd]. f_equal; [destruct b; reflexivity|apply IH]. }
  set (l := map _ (combine row m)). clearbody l. clear row m.
  assert (G : forall l best bi i, argmaxo_from (option_map f best) bi i (map (option_map f) l) = argmaxo_from best bi i l).
  { clear l. induction l as [|x l IH]; intros best bi i; [reflexivity|]. cbn [map argmaxo_from].
    replace (neg_inf_lt (option_map f best) (option_map f x)) with (neg_inf_lt best x) by (destruct best, x; cbn; try reflexivity; symmetry; apply inc_ltb, Hf).
    destruct (neg_inf_lt best x); apply IH. }
  destruct l as [|x l]; [reflexivity|]. apply (G l x 0 1).
Qed.
(** C350.  The targets of DQN change by the same function; with double DQN and a target network the two networks
    may be changed by different functions, and the targets follow the target network. *)
Lemma C350_target_lemma : forall (f g : Qc -> Qc) (q_new q_old : list (list Qc)) (mask : option (list (list bool))),
  increasing f ->
  (forall use_target is_double, target_q use_target is_double (map (map f) q_new) (map (map f) q_old) mask
     = rmap (map f) (target_q use_target is_double q_new q_old mask))
  /\ target_q true true (map (map f) q_new) (map (map g) q_old) mask = rmap (map g) (target_q true true q_new q_old mask).
Proof.
  intros f g q_new q_old mask Hf.
  assert (G : forall (h : Qc -> Qc) (tq : list (list Qc)) act,
    mapM (fun x => match nth_error (fst x) (snd x) with Some v => Ok v | None => Err IndexError end) (combine (map (map h) tq) act)
    = rmap (map h) (mapM (fun x => match nth_error (fst x) (snd x) with Some v => Ok v | None => Err IndexError end) (combine tq act))).
  { intros h tq. induction tq as [|r tq IH]; intros [|k act]; try reflexivity. cbn [map combine mapM fst snd]. rewrite nth_error_map.
    destruct (nth_error r k) as [v|]; [|reflexivity]. cbn [option_map bind]. rewrite IH. destruct (mapM _ _); reflexivity. }
  unfold target_q. rewrite C350_greedy_lemma by exact Hf. split.
  - intros ut d. destruct (greedy q_new mask) as [act|e]; [|reflexivity]. cbn [bind].
    replace (if ut then map (map f) q_old else map (map f) q_new) with (map (map f) (if ut then q_old else q_new)) by (destruct ut; reflexivity).
    destruct d; [apply G|]. set (tq := if ut then q_old else q_new). clearbody tq. clear - Hf.
    induction tq as [|r tq IH]; [reflexivity|]. cbn [map mapM]. rewrite tmax_map by exact Hf. destruct (tmax r) as [v|]; [|reflexivity].
    cbn [rmap bind]. rewrite IH. destruct (mapM tmax tq); reflexivity.
  - destruct (greedy q_new mask) as [act|e]; [|reflexivity]. cbn [bind]. apply G.
Qed.

Lemma scale_inc a b : (0 < a)%Qc -> increasing (fun x => (a * x + b)%Qc).
Proof. intros Ha x y H. assert ((0 < a * (y - x))%Qc) by (clear - Ha H; qcnra). replace (a * y + b)%Qc with (a * x + b + a * (y - x))%Qc by ring. qclra. Qed.

(** C350.  QR-DQN chooses and bootstraps alike under a change of unit and origin: the target quantiles are changed
    in the same way. *)
Lemma C350_quantile_target_lemma : forall (a b : Qc) (use_target is_double : bool) (z_new z_old : list (list Qc)), (0 < a)%Qc ->
  (forall z, In z z_new -> z <> []) ->
  qr_target use_target is_double np_mean (map (map (fun x => a * x + b)%Qc) z_new) (map (map (fun x => a * x + b)%Qc) z_old)
  = rmap (map (fun x => a * x + b)%Qc) (qr_target use_target is_double np_mean z_new z_old).
Proof.
  intros a b ut d zn zo Ha Hz. unfold qr_target. rewrite map_map.
  replace (argmax (map (fun x => np_mean (map (fun y => a * y + b)%Qc x)) zn)) with (argmax (map np_mean zn)).
  2:{ apply argmax_order. intros x y Hx Hy. rewrite !mean_affine by auto. symmetry. apply (inc_ltb (fun x => a * x + b)%Qc _ _ (scale_inc a b Ha)). }
  replace (if ut then map (map (fun x => (a * x + b)%Qc)) zo else map (map (fun x => (a * x + b)%Qc)) zn) with (map (map (fun x => (a * x + b)%Qc)) (if ut then zo else zn)) by (destruct ut; reflexivity).
  rewrite nth_error_map. destruct (nth_error _ _); reflexivity.
Qed.

(** C351.  Shifting current and target quantiles by one number changes neither the loss of a row nor its priority. *)
Lemma C351_quantile_lemma : forall (b : Qc) (taus curr targets : list Qc),
  quantile_row taus (map (fun x => x + b)%Qc curr) (map (fun x => x + b)%Qc targets) = quantile_row taus curr targets
  /\ quantile_priority (map (fun x => x + b)%Qc curr) (map (fun x => x + b)%Qc targets) = quantile_priority curr targets.
Proof.
  intros b taus curr targets.
  assert (E : forall t c, (t + b - (c + b))%Qc = (t - c)%Qc) by (intros; ring).
  unfold quantile_row, quantile_priority. rewrite map_length. split.
  - unfold guard. destruct (length taus =? length curr); [|reflexivity]. do 2 f_equal. revert curr. induction taus as [|t taus IH]; intros [|c curr]; try reflexivity.
    cbn [map combine fst snd]. f_equal; [|apply IH]. unfold quantile_term. f_equal. rewrite map_map. apply map_ext. intros x. rewrite E. reflexivity.
  - f_equal. rewrite map_map. apply map_ext. intros c. f_equal. rewrite map_map. apply map_ext. intros x. rewrite E. reflexivity.
Qed.

(** C351.  The gradient of FQF's fraction proposal is that of the values up to the unit, whatever the origin. *)
Lemma C351_fraction_lemma : forall (a b : Qc) (hats qs : list Qc), (0 < a)%Qc ->
  fraction_gradient (map (fun x => a * x + b)%Qc hats) (map (fun x => a * x + b)%Qc qs) = map (fun x => a * x)%Qc (fraction_gradient hats qs).
Proof.
  intros a b hats qs Ha. set (f := fun x => (a * x + b)%Qc). unfold fraction_gradient.
  assert (Erl : forall l, removelast (map f l) = map f (removelast l)).
  { induction l as [|x [|y l] IH]; try reflexivity. cbn [map removelast] in *. rewrite IH. reflexivity. }
  assert (Etl : forall l, tl (map f l) = map f (tl l)) by (intros [|x l]; reflexivity).
  rewrite !Erl, !Etl, map_length, firstn_map, skipn_map, <- !map_app.
  set (hl := removelast hats). set (ht := tl hats). set (p := firstn 1 hats ++ removelast qs). set (n := tl qs ++ skipn (length hats - 1) hats).
  clearbody hl ht p n. clear Erl Etl. rewrite map_map. revert hl ht p n. induction qs as [|q qs IH]; intros [|h1 hl] [|h2 ht] [|x p] [|y n]; try reflexivity.
  cbn [map combine]. f_equal; [|apply IH].
  pose proof (inc_ltb f x q (scale_inc a b Ha)) as E1. pose proof (inc_ltb f q y (scale_inc a b Ha)) as E2. rewrite E1, E2.
  unfold f. destruct (Qcltb x q), (Qcltb q y); ring.
Qed.

(** C351.  Normalised advantages do not depend on the origin, nor on the unit if eps is measured in it. *)
Lemma C351_advantages_lemma : forall (sqrt : Qc -> Qc) (a b eps : Qc) (adv : list Qc),
  ((0 < a)%Qc -> sqrt (a * a * sample_var adv)%Qc = (a * sqrt (sample_var adv))%Qc ->
   norm_adv sqrt (a * eps)%Qc (map (fun x => a * x + b)%Qc adv) = norm_adv sqrt eps adv)
  /\ norm_adv sqrt eps (map (fun x => x + b)%Qc adv) = norm_adv sqrt eps adv.
Proof.
  assert (G : forall (sqrt : Qc -> Qc) (a b eps : Qc) (adv : list Qc), (0 < a)%Qc -> sqrt (a * a * sample_var adv)%Qc = (a * sqrt (sample_var adv))%Qc ->
    norm_adv sqrt (a * eps)%Qc (map (fun x => a * x + b)%Qc adv) = norm_adv sqrt eps adv).
  { intros sqrt a b eps adv Ha Hs. destruct adv as [|x1 [|x2 l]]; try reflexivity.
    assert (Ha0 : a <> 0%Qc) by (intro E; rewrite E in Ha; qclra).
    set (adv := x1 :: x2 :: l) in *. unfold norm_adv.
    assert (Em : forall A B : option (list Qc), match map (fun x => (a * x + b)%Qc) adv with _ :: _ :: _ => A | _ => B end = A) by reflexivity.
    assert (Em' : forall A B : option (list Qc), match adv with _ :: _ :: _ => A | _ => B end = A) by reflexivity.
    rewrite Em, Em'. clear Em Em'. rewrite mean_affine by discriminate. f_equal. rewrite !map_length, !map_map. set (m := np_mean adv).
    set (std := sqrt (qsum (map (fun x => sqr (x - m)) adv) / sq (length adv - 1))%Qc).
    replace (sqrt (qsum (map (fun x => sqr (a * x + b - (a * m + b))) adv) / sq (length adv - 1))%Qc) with (a * std)%Qc.
    2:{ unfold std. fold m in Hs. unfold sample_var in Hs. fold m in Hs. change (fun x => sqr (x - m)) with (fun x => ((x - m) * (x - m))%Qc). rewrite <- Hs. f_equal. replace (map (fun x => sqr (a * x + b - (a * m + b))) adv) with (map (fun x => (a * a * sqr (x - m))%Qc) adv)
          by (apply map_ext; intros x; unfold sqr; ring). rewrite (sum_scale (a * a) (fun x => sqr (x - m))). unfold sqr, Qcdiv. ring. }
    apply map_ext. intros x. replace (a * x + b - (a * m + b))%Qc with (a * (x - m))%Qc by ring.
    replace (a * std + a * eps)%Qc with (a * (std + eps))%Qc by ring.
    destruct (Qceqb_spec (std + eps) 0) as [E|E]; [rewrite E, Qcmult_0_r; unfold Qcdiv; change (/ 0)%Qc with 0%Qc; ring|field; auto]. }
  intros sqrt a b eps adv. split; [intros Ha Hs; apply G; assumption|].
  rewrite <- (G sqrt 1%Qc b eps adv) by (reflexivity || (rewrite !Qcmult_1_l; reflexivity)). rewrite Qcmult_1_l. f_equal. apply map_ext. intros x. ring.
Qed.

(** C351.  PPO: the clipped objective is positively homogeneous in the advantage, and the value loss depends only on
    differences of values. *)
Lemma C351_ppo_lemma : forall (a b eps_clip ratio adv v_old ret value : Qc) (dual_clip : option Qc) (value_clip : bool), (0 < a)%Qc ->
  ppo_objective eps_clip dual_clip ratio (a * adv)%Qc = (a * ppo_objective eps_clip dual_clip ratio adv)%Qc
  /\ v_clip eps_clip (v_old + b)%Qc (value + b)%Qc = (v_clip eps_clip v_old value + b)%Qc
  /\ ppo_vf value_clip eps_clip (v_old + b)%Qc (ret + b)%Qc (value + b)%Qc = ppo_vf value_clip eps_clip v_old ret value.
Proof.
  intros a b eps_clip ratio adv v_old ret value dual vc Ha.
  assert (Hi : increasing (fun x => (a * x)%Qc)).
  { intros x y H. pose proof (scale_inc a 0 Ha x y H) as K. clear - K. cbv beta in K. qclra. }
  assert (Emin : forall x y, Qcminb (a * x) (a * y) = (a * Qcminb x y)%Qc).
  { intros x y. unfold Qcminb. rewrite (inc_leb _ x y Hi). destruct (Qcleb x y); reflexivity. }
  assert (Emax : forall x y, Qcmaxb (a * x) (a * y) = (a * Qcmaxb x y)%Qc).
  { intros x y. unfold Qcmaxb. rewrite (inc_leb _ x y Hi). destruct (Qcleb x y); reflexivity. }
  assert (Ev : v_clip eps_clip (v_old + b)%Qc (value + b)%Qc = (v_clip eps_clip v_old value + b)%Qc).
  { unfold v_clip. replace (value + b - (v_old + b))%Qc with (value - v_old)%Qc by ring. ring. }
  split; [|split; [exact Ev|]].
  - unfold ppo_objective.
    replace (ratio * (a * adv))%Qc with (a * (ratio * adv))%Qc by ring.
    replace (clampb (1 - eps_clip) (1 + eps_clip) ratio * (a * adv))%Qc with (a * (clampb (1 - eps_clip) (1 + eps_clip) ratio * adv))%Qc by ring.
    rewrite Emin. destruct dual as [c|]; [|reflexivity]. replace (c * (a * adv))%Qc with (a * (c * adv))%Qc by ring. rewrite Emax.
    assert (E : Qcltb (a * adv) 0 = Qcltb adv 0). { rewrite <- (inc_ltb _ adv 0 Hi). rewrite Qcmult_0_r. reflexivity. }
    rewrite E. destruct (Qcltb adv 0); reflexivity.
  - unfold ppo_vf. rewrite Ev. replace (ret + b - (value + b))%Qc with (ret - value)%Qc by ring.
    replace (ret + b - (v_clip eps_clip v_old value + b))%Qc with (ret - v_clip eps_clip v_old value)%Qc by ring. reflexivity.
Qed.

(** C351.  Scaling mean and deviation of the Ornstein-Uhlenbeck noise scales the whole run of noise. *)
Lemma C351_noise_lemma : forall (c mu alpha beta : Qc) (calls : list (size_arg * list Qc)),
  ou_run (c * mu)%Qc alpha (c * beta)%Qc calls OUNone = map (map (fun x => c * x)%Qc) (ou_run mu alpha beta calls OUNone).
Proof.
  intros c mu alpha beta calls.
  set (sc := fun x => match x with OUNone => OUNone | OUScal v => OUScal (c * v) | OUArr l => OUArr (map (fun v => c * v)%Qc l) end).
  assert (G : forall calls x, ou_run (c * mu)%Qc alpha (c * beta)%Qc calls (sc x) = map (map (fun x => c * x)%Qc) (ou_run mu alpha beta calls x)).
  { clear calls. induction calls as [|[sz z] cs IH]; intros x; [reflexivity|].
    assert (Er : ou_restart (sc x) sz = sc (ou_restart x sz)).
    { destruct x as [|v|l]; cbn; [rewrite Qcmult_0_r; reflexivity|reflexivity|].
      destruct sz; [rewrite map_length; destruct (length l =? n)|]; cbn; rewrite ?Qcmult_0_r; reflexivity. }
    assert (Eg : forall x j, ou_get (sc x) j = (c * ou_get x j)%Qc).
    { intros [|v|l] j; cbn; [ring|reflexivity|]. rewrite <- (map_nth (fun v => (c * v)%Qc)). rewrite Qcmult_0_r. reflexivity. }
    cbn [ou_run]. unfold ou_call. rewrite Er. set (y := ou_restart x sz).
    assert (E : map (fun j => (ou_get (sc y) j + alpha * (c * mu - ou_get (sc y) j) + c * beta * nth j z 0)%Qc) (seq 0 (size_len sz))
      = map (fun x => (c * x)%Qc) (map (fun j => (ou_get y j + alpha * (mu - ou_get y j) + beta * nth j z 0)%Qc) (seq 0 (size_len sz)))).
    { rewrite map_map. apply map_ext. intros j. rewrite Eg. ring. }
    rewrite E. cbn [map]. f_equal. rewrite <- IH. reflexivity. }
  apply (G calls OUNone).
Qed.
