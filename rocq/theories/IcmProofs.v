(** * Proofs about ICM, GAIL and priorities after an update *)
From Verif Require Import Py PyLemmas Num SplitModel SplitProofs StatModel SegTreeModel SegTreeSpec SegTreeProofs
  BufferModel BufferSpec BufferProofs PrioModel PrioSpec PrioProofs PrioMainProofs ReturnsModel ReturnsProofs OnpolModel OnpolProofs IcmModel.
From Coq Require Import Permutation.
Open Scope nat_scope.

(** ** The heap of reward arrays *)
Lemma deref_new (h : heap) a : deref (h ++ [a]) (length h) = a.
Proof. unfold deref. rewrite app_nth2, Nat.sub_diag by lia. reflexivity. Qed.
Lemma deref_old (h : heap) a r : r < length h -> deref (h ++ [a]) r = deref h r.
Proof. intro H. unfold deref. now rewrite app_nth1. Qed.
Lemma deref_upd_same (h : heap) r x : r < length h -> deref (upd h r x) r = x.
Proof. intro H. unfold deref. apply nth_upd_same. exact H. Qed.
Lemma deref_upd_other (h : heap) r r' x : r <> r' -> deref (upd h r x) r' = deref h r'.
Proof. intro H. unfold deref. apply nth_upd_other. exact H. Qed.

Section Icm.
Context {Ob A Inf W : Type}.
Variable mse : W -> orow Ob A -> Qc.
Variable scale : Qc.

(** The row after the bonus. *)
Definition with_bonus (w : W) (r : orow Ob A) : orow Ob A := set_rew r (o_rew r + mse w r * scale)%Qc.

Lemma rows_same (rows : list (orow Ob A)) : map (fun y => set_rew (fst y) (snd y)) (combine rows (map o_rew rows)) = rows.
Proof. clear mse scale. induction rows as [|[] rows IH]; [reflexivity|]. cbn [map combine fst snd]. rewrite IH. reflexivity. Qed.

Lemma icm_process_spec (w : W) (h : heap) (rows : list (orow Ob A)) :
  exists h' b', icm_process mse scale w (fst (sample_batch h rows)) (snd (sample_batch h rows)) = Ok (h', b')
    /\ rows_of h' b' = map (with_bonus w) rows
    /\ (forall r, r < length h -> deref h' r = deref h r)
    /\ b_rew b' = length h /\ (exists loss, b_policy b' = Some (length h, loss))
    /\ deref h' (length h) = map (fun r => (o_rew r + mse w r * scale)%Qc) rows.
Proof.
  unfold sample_batch, alloc. cbn [fst snd]. unfold icm_process, iadd, rows_of. cbn [b_rew b_rows].
  rewrite deref_new, rows_same, !map_length, Nat.eqb_refl. unfold guard. cbn [bind].
  assert (E : map (fun y : Qc * Qc => (fst y + snd y)%Qc) (combine (map o_rew rows) (map (fun x : Qc => (x * scale)%Qc) (map (mse w) rows)))
              = map (fun r => (o_rew r + mse w r * scale)%Qc) rows).
  { induction rows as [|r rows IH]; [reflexivity|]. cbn [map combine fst snd]. rewrite IH. reflexivity. }
  rewrite E. do 2 eexists. split; [reflexivity|]. cbn [b_rew b_rows b_policy].
  rewrite deref_upd_same by (rewrite app_length; cbn; lia). split.
  { clear. induction rows as [|r rows IH]; [reflexivity|]. cbn [map combine fst snd]. rewrite IH. reflexivity. }
  split; [|split; [reflexivity|split; [eauto|reflexivity]]].
  intros r Hr. rewrite deref_upd_other by lia. now apply deref_old.
Qed.

End Icm.

(** C143.  A whole update leaves the arrays of the buffer alone; the wrapped policy gets the rows with
    the scaled intrinsic reward added; and [batch.rew] is left with these rewards, not the original ones. *)
Lemma C143_update_lemma : forall (Ob A W S X : Type) (mse : W -> orow Ob A -> Qc) (scale : Qc)
    (process : S -> list (orow Ob A) -> res (S * X)) (learn : S -> X -> res S) w s h rows s1 x s2,
  process s (map (fun r => set_rew r (o_rew r + mse w r * scale)%Qc) rows) = Ok (s1, x) -> learn s1 x = Ok s2 ->
  exists h' b', icm_update mse scale process learn w s h rows = Ok (s2, x, h', b')
    /\ (forall r, r < length h -> deref h' r = deref h r)
    /\ deref h' (b_rew b') = map (fun r => (o_rew r + mse w r * scale)%Qc) rows.
Proof.
  intros Ob A W S X mse scale process learn w s h rows s1 x s2 E1 E2.
  destruct (icm_process_spec mse scale w h rows) as (h' & b' & E & R & U & B & (loss & P) & D).
  unfold icm_update. destruct (sample_batch h rows) as [h0 b0] eqn:Es. cbn [fst snd] in E. rewrite E. cbn [bind].
  rewrite R. unfold with_bonus. rewrite E1. cbn [bind fst snd]. rewrite E2. cbn [bind].
  unfold icm_post. rewrite P. cbn [bind]. do 2 eexists. split; [reflexivity|]. split; [exact U|]. cbn [b_rew]. exact D.
Qed.
(** C143.  So the comment "restore original reward" holds exactly when no row got a bonus. *)
Lemma C143_restore_refuted_lemma : forall (Ob A W S X : Type) (mse : W -> orow Ob A -> Qc) (scale : Qc)
    (process : S -> list (orow Ob A) -> res (S * X)) (learn : S -> X -> res S) w s h rows s' x h' b',
  icm_update mse scale process learn w s h rows = Ok (s', x, h', b') ->
  (deref h' (b_rew b') = map o_rew rows <-> forall r, In r rows -> (mse w r * scale)%Qc = 0%Qc).
Proof.
  intros Ob A W S X mse scale process learn w s h rows s' x h' b' H.
  assert (D : deref h' (b_rew b') = map (fun r => (o_rew r + mse w r * scale)%Qc) rows).
  { destruct (icm_process_spec mse scale w h rows) as (h1 & b1 & E & R & U & B & (loss & P) & D).
    unfold icm_update in H. destruct (sample_batch h rows) as [h0 b0] eqn:Es. cbn [fst snd] in E. rewrite E in H. cbn [bind] in H.
    destruct (process s _) as [[s1 x1]|]; [|discriminate]. cbn [bind fst snd] in H. destruct (learn s1 x1) as [s2|]; [|discriminate].
    cbn [bind] in H. unfold icm_post in H. rewrite P in H. cbn [bind] in H. injection H as <- <- <- <-. exact D. }
  rewrite D. clear. split.
  - intros E r Hr. induction rows as [|r' rows IH]; [destruct Hr|]. injection E as E0 E. destruct Hr as [<- | Hr]; [|auto].
    transitivity (o_rew r' + mse w r' * scale - o_rew r')%Qc; [ring|]. rewrite E0. ring.
  - intro H. apply map_ext_in. intros r Hr. rewrite (H r Hr). ring.
Qed.

(** ** What the intrinsic reward does to the returns *)

(** The end flags of base.py:617-619. *)
Definition ends_of {Ob A : Type} (unf : list nat) (rows : list (orow Ob A)) (ix : list Z) : list bool :=
  map (fun x => (o_term (fst x) || o_trunc (fst x)) || existsb (fun u => (Z.of_nat u =? snd x)%Z) unf) (combine rows ix).

Lemma gae_add (v_s v' : list Qc) ends g lam : forall rew bon,
  length v_s = length rew -> length v' = length rew -> length ends = length rew -> length bon = length rew ->
  forall i, nth i (gae_return v_s v' (map (fun y => (fst y + snd y)%Qc) (combine rew bon)) ends g lam) 0%Qc
   = (nth i (gae_return v_s v' rew ends g lam) 0 + nth i (gae_loop bon (map (fun e => ((1 - b2q e) * (g * lam))%Qc) ends)) 0)%Qc.
Proof.
  unfold gae_return. revert v' ends. induction v_s as [|v vs IH]; intros [|x' v'] [|e ends] [|r rew] [|bn bon] L1 L2 L3 L4 i; try discriminate.
  - cbn. destruct i; ring.
  - cbn [map combine gae_loop fst snd]. injection L1 as L1. injection L2 as L2. injection L3 as L3. injection L4 as L4.
    pose proof (IH v' ends rew bon L1 L2 L3 L4) as H. destruct i as [|i]; [|exact (H i)].
    cbn [nth]. pose proof (H 0) as H0. rewrite !nth_0_hd. rewrite H0. ring.
Qed.

Lemma cer_ok {Ob A Inf : Type} (b : ibuf Ob A Inf) (rows : list (orow Ob A)) ix v' v g lam ret adv :
  compute_episodic_return b (map (fun r => (o_rew r, o_term r, o_trunc r)) rows) ix (Some v') (Some v) g lam = Ok (ret, adv) ->
  exists unf mv, ib_unfinished b = Ok unf /\ length mv = length rows /\ length v = length rows /\ length ix = length rows
    /\ adv = gae_return v mv (map o_rew rows) (ends_of unf rows ix) g lam
    /\ ret = map (fun x => (fst x + snd x)%Qc) (combine adv v)
    /\ forall rows' : list (orow Ob A), length rows' = length rows -> (forall i, option_map (fun r => (o_term r, o_trunc r)) (nth_error rows' i) = option_map (fun r => (o_term r, o_trunc r)) (nth_error rows i)) ->
       compute_episodic_return b (map (fun r => (o_rew r, o_term r, o_trunc r)) rows') ix (Some v') (Some v) g lam
       = Ok (map (fun x => (fst x + snd x)%Qc) (combine (gae_return v mv (map o_rew rows') (ends_of unf rows ix) g lam) v),
             gae_return v mv (map o_rew rows') (ends_of unf rows ix) g lam).
Proof.
  intro H. unfold compute_episodic_return in H |- *. cbn zeta in H |- *.
  destruct (value_mask b ix) as [mask|]; [|discriminate]. cbn [bind] in H |- *.
  unfold guard in H at 1. unfold guard at 1. destruct (length v' =? length mask) eqn:E1; [|discriminate]. cbn [bind] in H |- *.
  destruct (ib_unfinished b) as [unf|]; [|discriminate]. cbn [bind] in H |- *.
  unfold guard in H |- *. rewrite !map_length in H. destruct (_ && _) eqn:E2; [|discriminate]. destruct (length ix =? _) eqn:E3; [|discriminate].
  apply andb_prop in E2. destruct E2 as [E2 E2']. apply Nat.eqb_eq in E2, E2', E3.
  set (mv := map (fun x : Qc * bool => (fst x * b2q (snd x))%Qc) (combine v' mask)) in *.
  assert (EE : forall rows' : list (orow Ob A), length rows' = length rows ->
      (forall i, option_map (fun r => (o_term r, o_trunc r)) (nth_error rows' i) = option_map (fun r => (o_term r, o_trunc r)) (nth_error rows i)) ->
      map (fun x : Qc * bool * bool * Z => let '(_, term, trunc, i) := x in term || trunc || existsb (fun u => (Z.of_nat u =? i)%Z) unf)
        (combine (map (fun r => (o_rew r, o_term r, o_trunc r)) rows') ix) = ends_of unf rows ix).
  { clear. unfold ends_of. induction rows as [|r rows IH] in ix |- *; intros [|r' rows'] L F; try discriminate; [reflexivity|].
    destruct ix as [|z ix]; [reflexivity|]. cbn [map combine fst snd]. pose proof (F 0) as F0. cbn in F0. injection F0 as -> ->. f_equal.
    apply IH; [cbn in L; lia|]. intro i. exact (F (S i)). }
  assert (RR : forall rows' : list (orow Ob A), map (fun x : Qc * bool * bool => fst (fst x)) (map (fun r => (o_rew r, o_term r, o_trunc r)) rows') = map o_rew rows').
  { intro l. rewrite map_map. reflexivity. }
  exists unf, mv. split; [reflexivity|]. assert (Lm : length mv = length rows) by (unfold mv; rewrite map_length; lia).
  split; [exact Lm|]. split; [exact E2'|]. split; [exact E3|].
  rewrite (EE rows eq_refl (fun _ => eq_refl)), RR in H. injection H as <- <-. split; [reflexivity|]. split; [reflexivity|].
  intros rows' L F. rewrite !map_length, L. replace (length mv =? length rows) with true by (rewrite Lm; symmetry; apply Nat.eqb_refl).
  rewrite E2', E3, !Nat.eqb_refl. cbn [andb]. rewrite (EE rows' L F), RR. reflexivity.
Qed.

(** C144.  Wrapped around a learner that computes its returns from the batch (PG, A2C, PPO), ICM adds
    to every return (and advantage) the discounted bonuses of the rest of its episode and changes
    nothing else; each return depends linearly on them. *)
Lemma C144_episodic_lemma : forall (Ob A Inf W : Type) (mse : W -> orow Ob A -> Qc) (scale : Qc) (bf : ibuf Ob A Inf) ix v' v gamma lam w h rows ret adv,
  compute_episodic_return bf (map (fun r => (o_rew r, o_term r, o_trunc r)) rows) ix (Some v') (Some v) gamma lam = Ok (ret, adv) ->
  exists unf bonus ret' adv' h' b', ib_unfinished bf = Ok unf /\ length bonus = length rows
    /\ icm_update mse scale (inner_episodic bf ix v' v gamma lam) (fun s _ => Ok s) w tt h rows = Ok (tt, (ret', adv'), h', b')
    /\ length ret' = length rows /\ length adv' = length rows
    /\ (forall i r j, nth_error rows i = Some r -> nth_error ix i = Some j ->
          nth i bonus 0%Qc = (mse w r * scale + if o_term r || o_trunc r || existsb (fun u => (Z.of_nat u =? j)%Z) unf then 0 else gamma * lam * nth (S i) bonus 0)%Qc)
    /\ (forall i, i < length rows -> nth i ret' 0%Qc = (nth i ret 0 + nth i bonus 0)%Qc /\ nth i adv' 0%Qc = (nth i adv 0 + nth i bonus 0)%Qc).
Proof.
  intros Ob A Inf W mse scale bf ix v' v gamma lam w h rows ret adv H.
  destruct (cer_ok bf rows ix v' v gamma lam ret adv H) as (unf & mv & Eu & L1 & L2 & L3 & Ea & Er & G).
  set (bon := map (fun r => (mse w r * scale)%Qc) rows).
  set (ends := ends_of unf rows ix) in *.
  assert (Le : length ends = length rows) by (unfold ends, ends_of; rewrite map_length, combine_length; lia).
  assert (Lb : length bon = length rows) by (unfold bon; apply map_length).
  set (rows' := map (with_bonus mse scale w) rows).
  assert (Rr : map o_rew rows' = map (fun y : Qc * Qc => (fst y + snd y)%Qc) (combine (map o_rew rows) bon)).
  { unfold rows', bon. clear. induction rows as [|r rows IH]; [reflexivity|]. cbn [map combine fst snd]. rewrite IH. reflexivity. }
  specialize (G rows'). specialize (G ltac:(unfold rows'; apply map_length)).
  specialize (G ltac:(intro i; unfold rows'; rewrite nth_error_map; destruct (nth_error rows i); reflexivity)).
  set (adv' := gae_return v mv (map o_rew rows') ends gamma lam) in *.
  set (bonus := gae_loop bon (map (fun e => ((1 - b2q e) * (gamma * lam))%Qc) ends)).
  assert (La' : length adv' = length rows) by (unfold adv'; rewrite gae_len; rewrite ?map_length; unfold rows'; rewrite ?map_length; auto).
  assert (La : length adv = length rows) by (rewrite Ea, gae_len; rewrite ?map_length; auto).
  destruct (C143_update_lemma Ob A W unit _ mse scale (inner_episodic bf ix v' v gamma lam) (fun s _ => Ok s) w tt h rows tt
              (map (fun x : Qc * Qc => (fst x + snd x)%Qc) (combine adv' v), adv') tt) as (h' & b' & E & _).
  { change (map (fun r => set_rew r (o_rew r + mse w r * scale)%Qc) rows) with rows'. unfold inner_episodic. rewrite G. reflexivity. }
  { reflexivity. }
  exists unf, bonus, (map (fun x : Qc * Qc => (fst x + snd x)%Qc) (combine adv' v)), adv', h', b'.
  split; [exact Eu|]. split; [unfold bonus; rewrite gae_loop_length; rewrite ?map_length; lia|]. split; [exact E|].
  split; [rewrite map_length, combine_length; lia|]. split; [exact La'|]. split.
  - intros i r j Hr Hj. unfold bonus, ends, ends_of. clear - Hr Hj L3. subst bon. revert ix i L3 Hr Hj.
    induction rows as [|r0 rows IH]; intros [|z ix] i L3 Hr Hj; try discriminate; [destruct i; discriminate|]. cbn [map combine gae_loop fst snd].
    destruct i as [|i]; cbn [nth nth_error] in *.
    + injection Hr as ->. injection Hj as ->. rewrite nth_0_hd.
      destruct (o_term r || o_trunc r || existsb (fun u => (Z.of_nat u =? j)%Z) unf); cbn [b2q]; ring.
    + apply IH; auto.
  - intros i Hi.
    assert (HA : nth i adv' 0%Qc = (nth i adv 0 + nth i bonus 0)%Qc).
    { unfold adv'. rewrite Rr, Ea. unfold bonus. apply gae_add; rewrite ?map_length; auto. }
    split; [|exact HA].
    assert (Q : forall a : list Qc, length a = length rows -> nth i (map (fun x : Qc * Qc => (fst x + snd x)%Qc) (combine a v)) 0%Qc = (nth i a 0 + nth i v 0)%Qc).
    { intros a Ha. clear - Ha L2 Hi. rewrite <- Ha in L2, Hi. clear Ha. revert v i L2 Hi. induction a as [|x a IH]; intros [|y v] i L2 Hi; try discriminate; cbn in Hi; [lia|].
      destruct i as [|i]; cbn [combine map nth fst snd]; [reflexivity|]. apply IH; [cbn in L2; lia | lia]. }
    rewrite Er, (Q adv' La'), (Q adv La), HA. ring.
Qed.
(** C144.  Wrapped around an n-step learner (DQN, DDPG, TD3, SAC, ...), the intrinsic reward has no effect
    on the returns, whatever the model and the scale: these are computed from [buffer.rew]. *)
Lemma C144_nstep_refuted_lemma : forall (Ob A Inf W : Type) (mse : W -> orow Ob A -> Qc) (scale : Qc) (bf : ibuf Ob A Inf) len ix target gamma n w h rows rets,
  compute_nstep_return bf len ix target gamma n false = Ok rets ->
  exists h' b', icm_update mse scale (inner_nstep bf len ix target gamma n) (fun s _ => Ok s) w tt h rows = Ok (tt, rets, h', b').
Proof.
  intros Ob A Inf W mse scale bf len ix target gamma n w h rows rets H.
  destruct (C143_update_lemma Ob A W unit _ mse scale (inner_nstep bf len ix target gamma n) (fun s _ => Ok s) w tt h rows tt rets tt) as (h' & b' & E & _).
  { unfold inner_nstep. rewrite H. reflexivity. }
  { reflexivity. }
  exists h', b'. exact E.
Qed.

(** ** Flags *)
(** C145.  [train] reaches every level, the feature model included. *)
Fixpoint all_training (mode : bool) (p : ptree) : Prop :=
  match p with Base _ _ t _ => t = mode | Icm q _ t m => t = mode /\ m = mode /\ all_training mode q end.
Lemma C145_train_lemma : forall p mode, all_training mode (set_train p mode).
Proof. induction p as [d w t e | q IH w t m]; intro mode; cbn; auto. Qed.
(** C145.  [set_eps] reaches the wrapped policy if that has it, and raises otherwise. *)
Lemma C145_eps_lemma : forall p e,
  (forall d w t x, innermost p = Base d w t (Some x) -> exists p', set_eps p e = Ok p' /\ innermost p' = Base d w t (Some e))
  /\ (forall d w t q f g h, p = Icm q f g h -> innermost p = Base d w t None -> set_eps p e = Err NotImplementedError).
Proof.
  induction p as [d w t o | q IH w t m]; intro e.
  - split; [|intros; discriminate]. intros d0 w0 t0 x H. cbn in H. injection H as -> -> -> ->. eexists. split; reflexivity.
  - split.
    + intros d0 w0 t0 x H. cbn [innermost] in H. destruct (proj1 (IH e) _ _ _ _ H) as (q' & E & I).
      exists (Icm q' w t m). split; [|exact I]. destruct q as [d1 w1 t1 [y|] | q1 w1 t1 m1].
      * cbn in E |- *. injection E as <-. reflexivity.
      * cbn in H. discriminate.
      * cbn [set_eps] in E |- *. rewrite E. reflexivity.
    + intros d0 w0 t0 q0 f g h E H. injection E as <- <- <- <-. cbn [innermost] in H. destruct q as [d1 w1 t1 [y|] | q1 w1 t1 m1].
      * cbn in H. discriminate.
      * reflexivity.
      * cbn [innermost] in H. change (set_eps (Icm (Icm q1 w1 t1 m1) w t m) e) with (let* q := set_eps (Icm q1 w1 t1 m1) e in Ok (Icm q w t m)).
        rewrite (proj2 (IH e) _ _ _ _ _ _ _ eq_refl H). reflexivity.
Qed.
(** C145.  Within a training step a policy on its own samples its actions; a wrapped one samples them
    exactly if it has no deterministic evaluation (or was left within a training step before). *)
Lemma C145_sampling_lemma : forall p, takes_mode (within_step p true)
  = match p with Base _ _ _ _ => false | Icm _ _ _ _ => match innermost p with Base d w _ _ => d && negb w | _ => false end end.
Proof.
  intros [d w t e | q w t m]; cbn [within_step takes_mode innermost].
  - cbn. apply andb_false_r.
  - induction q as [d1 w1 t1 e1 | q IH w1 t1 m1]; [reflexivity|exact IH].
Qed.
(** C145.  So a policy with deterministic evaluation does not explore once it is wrapped. *)
Lemma C145_wrapped_refuted_lemma : forall t e w m f, let p := Base true false t e in
  takes_mode (within_step p true) = false /\ takes_mode (within_step (Icm p w m f) true) = true.
Proof. intros. split; reflexivity. Qed.

(** ** GAIL *)
Lemma pick_in {T} (l : list T) c : (forall i, In i c -> i < length l) -> length (pick l c) = length c.
Proof. exact (pick_length l c). Qed.

Lemma gail_loop_spec {Row W : Type} (opt : W -> list Row -> list Row -> W) bsz expert : forall cs k w,
  exists w', gail_loop opt w bsz expert k cs = (w', combine cs (map (fun i => expert i bsz) (seq k (length cs)))).
Proof.
  induction cs as [|c cs IH]; intros k w; [eexists; reflexivity|]. cbn [gail_loop length seq map combine].
  destruct (IH (S k) (opt w c (expert k bsz))) as [w' E]. rewrite E. eexists. reflexivity.
Qed.

(** C146.  With [n] rows, [k = disc_update_num <= n]: the discriminator is updated [n / (n/k)] times, that is
    at least [k] and less than [2 k] times, each time with [n/k] expert rows, and sees every row once.  It is
    updated [k] times exactly when [n mod k < n / k]. *)
Lemma C146_steps_lemma : forall (Row W : Type) (opt : W -> list Row -> list Row -> W) w k perm expert (rows : list Row),
  1 <= k -> k <= length rows -> Permutation perm (seq 0 (length rows)) ->
  exists w' l, gail_disc opt w k perm expert rows = Ok (w', l)
    /\ Permutation (concat (map fst l)) rows
    /\ (forall i x, nth_error l i = Some x -> snd x = expert i (length rows / k) /\ length rows / k <= length (fst x))
    /\ k <= length l < 2 * k /\ (length l = k <-> length rows mod k < length rows / k).
Proof.
  intros Row W opt w k perm expert rows Hk Hn Hp. unfold gail_disc. replace (k =? 0) with false by lia.
  set (n := length rows) in *. set (bsz := n / k).
  assert (Hb : 1 <= bsz) by (unfold bsz; apply Nat.div_le_lower_bound; lia).
  destruct (split_good n bsz (Some perm) Hb ltac:(lia)) as (cs & E & C & P & L & F).
  { intros q Hq. injection Hq as <-. exact Hp. }
  rewrite E. cbn [bind]. destruct (gail_loop_spec opt bsz expert (map (pick rows) cs) 0 w) as [w' G]. rewrite G.
  exists w', (combine (map (pick rows) cs) (map (fun i => expert i bsz) (seq 0 (length (map (pick rows) cs))))).
  split; [reflexivity|].
  assert (Fst : forall (X Y : Type) (a : list X) (b : list Y), length a = length b -> map fst (combine a b) = a).
  { clear. induction a as [|x a IH]; intros [|y b] H; try discriminate; [reflexivity|]. cbn. rewrite IH; [reflexivity|]. cbn in H. lia. }
  split; [|split].
  - rewrite Fst by (rewrite !map_length, seq_length; reflexivity).
    assert (Cp : concat (map (pick rows) cs) = pick rows (concat cs)).
    { clear. induction cs as [|c cs IH]; [reflexivity|]. cbn [map concat]. rewrite IH. unfold pick. rewrite flat_map_app. reflexivity. }
    rewrite Cp. transitivity (pick rows (seq 0 n)).
    + unfold pick. apply Permutation_flat_map. exact P.
    + assert (I : pick rows (seq 0 n) = rows); [|rewrite I; reflexivity].
      unfold n, pick. clear. induction rows as [|r rows IH]; [reflexivity|]. cbn [length seq flat_map nth_error app]. f_equal.
      rewrite <- seq_shift, flat_map_concat_map, map_map, <- flat_map_concat_map. exact IH.
  - intros i x Hx. destruct x as [c e]. apply nth_error_combine_inv in Hx. cbn [fst snd]. destruct Hx as [Hc He].
    rewrite nth_error_map in Hc, He. destruct (nth_error cs i) as [c0|] eqn:Ec; [|discriminate]. injection Hc as <-.
    assert (Hi : i < length cs) by (apply nth_error_Some; congruence).
    rewrite map_length, (nth_error_nth' (seq 0 (length cs)) 0) in He by (rewrite seq_length; exact Hi).
    rewrite seq_nth in He by exact Hi. injection He as <-. split; [reflexivity|].
    rewrite pick_length.
    + rewrite Forall_forall in F. specialize (F c0 (nth_error_In _ _ Ec)). fold bsz.
      assert (bsz <= n) by (unfold bsz; apply Nat.div_le_upper_bound; nia). lia.
    + intros j Hj. assert (In j (concat cs)) by (apply in_concat; exists c0; split; [apply (nth_error_In _ _ Ec)|exact Hj]).
      apply (Permutation_in _ P) in H. apply in_seq in H. fold n. lia.
  - rewrite combine_length, !map_length, seq_length, Nat.min_id, L. unfold chunks.
    pose proof (Nat.div_mod n k ltac:(lia)) as D. fold bsz in D. pose proof (Nat.mod_upper_bound n k ltac:(lia)) as M.
    set (r := n mod k) in *.
    assert (Q : n / bsz = k + r / bsz).
    { rewrite D at 1. rewrite Nat.div_add_l by lia. reflexivity. }
    rewrite Q. assert (R : r / bsz < k) by (apply Nat.div_lt_upper_bound; nia).
    assert (S : r / bsz = 0 <-> r < bsz) by (apply Nat.div_small_iff; lia).
    clearbody r. set (q := r / bsz) in *. clearbody q bsz. clear - R S Hk. split; [lia|]. lia.
Qed.
(** C146.  With fewer rows than updates the update fails. *)
Lemma C146_few_rows_lemma : forall (Row W : Type) (opt : W -> list Row -> list Row -> W) w k perm expert (rows : list Row),
  length rows < k -> gail_disc opt w k perm expert rows = Err AssertionError.
Proof.
  intros Row W opt w k perm expert rows H. unfold gail_disc. replace (k =? 0) with false by lia.
  rewrite Nat.div_small by exact H. reflexivity.
Qed.
(** C146.  The documented number of updates is not kept: 7 instead of 4. *)
Lemma C146_count_refuted_lemma : exists (rows : list nat) l, length rows = 7
  /\ gail_disc (fun w _ _ => S w) 0 4 (seq 0 7) (fun _ n => repeat 0 n) rows = Ok (7, l).
Proof. exists (seq 0 7). eexists. split; [reflexivity|]. vm_compute. reflexivity. Qed.
(** C146.  The reward is positive and grows with the logit of the discriminator, if log-sigmoid is
    negative and increasing. *)
Lemma C146_reward_lemma : forall (Row W : Type) (logsig : Qc -> Qc) (disc : W -> Row -> Qc) w,
  (forall x, (logsig x < 0)%Qc) -> (forall x y, (x < y)%Qc -> (logsig x < logsig y)%Qc) ->
  (forall b, (0 < gail_rew logsig disc w b)%Qc)
  /\ forall b b', ((disc w b < disc w b')%Qc <-> (gail_rew logsig disc w b < gail_rew logsig disc w b')%Qc).
Proof.
  intros Row W logsig disc w Hn Hm. unfold gail_rew. split.
  - intro b. specialize (Hn (- disc w b)%Qc). qclra.
  - intros b b'. split; intro H.
    + assert (- disc w b' < - disc w b)%Qc by qclra. apply Hm in H0. qclra.
    + destruct (Qclt_le_dec (disc w b) (disc w b')) as [L|L]; [exact L|]. exfalso.
      destruct (Qc_eq_dec (disc w b) (disc w b')) as [E|E]; [rewrite E in H; qclra|].
      assert (- disc w b < - disc w b')%Qc. { apply Qcle_lt_or_eq in L. destruct L as [L|L]; [qclra|]. symmetry in L. contradiction. }
      apply Hm in H0. qclra.
Qed.

(** ** Priorities after an update *)
Lemma qdiv_lt x y l : (0 < l)%Qc -> (x < y)%Qc -> (x / l < y / l)%Qc.
Proof.
  intros Hl H. assert (Hz : l <> 0%Qc) by (intros E; rewrite E in Hl; qclra).
  assert (E1 : (x / l * l = x)%Qc) by (field; exact Hz). assert (E2 : (y / l * l = y)%Qc) by (field; exact Hz).
  set (a := (x / l)%Qc) in *. set (b := (y / l)%Qc) in *. clearbody a b.
  destruct (Qclt_le_dec a b) as [G|G]; [exact G|]. exfalso. subst x y. clear Hz. qcnra.
Qed.
Lemma qdiv_pos x l : (0 < l)%Qc -> (0 < x)%Qc -> (0 < x / l)%Qc.
Proof. intros Hl Hx. pose proof (qdiv_lt 0 x l Hl Hx) as H. assert (E : (0 / l = 0)%Qc) by (unfold Qcdiv; ring). rewrite E in H. exact H. Qed.

Lemma write_all_map (f : nat -> Qc) : forall idx arr i, (forall j, In j idx -> j < length arr) ->
  nth i (write_all arr (map Z.of_nat idx) (map f idx)) 0%Qc = if existsb (Nat.eqb i) idx then f i else nth i arr 0%Qc.
Proof.
  induction idx as [|j idx IH]; intros arr i H; [reflexivity|]. cbn [map write_all existsb]. rewrite Nat2Z.id.
  rewrite IH by (intros k Hk; rewrite upd_length; apply H; now right).
  destruct (existsb (Nat.eqb i) idx); [rewrite orb_true_r; reflexivity|]. rewrite orb_false_r. destruct (Nat.eqb_spec i j) as [->|Hij].
  - rewrite nth_upd_same; [reflexivity|]. apply H. now left.
  - apply nth_upd_other. auto.
Qed.
Lemma write_all_some : forall (idx : list nat) (vs arr : list Qc) i, length vs = length idx -> (forall j, In j idx -> j < length arr) ->
  (In i idx -> exists k, nth_error idx k = Some i /\ nth_error vs k = Some (nth i (write_all arr (map Z.of_nat idx) vs) 0%Qc))
  /\ (~ In i idx -> nth i (write_all arr (map Z.of_nat idx) vs) 0%Qc = nth i arr 0%Qc).
Proof.
  induction idx as [|j idx IH]; intros [|v vs] arr i L H; try discriminate; [split; [intros []|reflexivity]|].
  cbn [map write_all]. rewrite Nat2Z.id. cbn in L. injection L as L.
  destruct (IH vs (upd arr j v) i L) as [H1 H2]. { intros k Hk. rewrite upd_length. apply H. now right. }
  destruct (in_dec Nat.eq_dec i idx) as [Hi|Hi].
  - split; [|intro F; exfalso; apply F; now right]. intros _. destruct (H1 Hi) as (k & K1 & K2). exists (S k). split; [exact K1|exact K2].
  - rewrite (H2 Hi). split.
    + intros [->|F]; [|contradiction]. exists 0. split; [reflexivity|]. cbn [nth_error]. rewrite nth_upd_same; [reflexivity|]. apply H. now left.
    + intro F. apply nth_upd_other. intros ->. apply F. now left.
Qed.

Section Prios.
Variables (pw ipw : Qc -> Qc) (eps : Qc).
Hypothesis Hpw : forall x, (0 < x)%Qc -> (0 < pw x)%Qc.
Hypothesis Hpm : forall x y, (0 < x)%Qc -> (x < y)%Qc -> (pw x < pw y)%Qc.
Hypothesis Hipw : forall x, (0 < x)%Qc -> (0 < ipw x)%Qc.
Hypothesis Him : forall x y, (0 < x)%Qc -> (x < y)%Qc -> (ipw y < ipw x)%Qc.
Hypothesis Heps : (0 < eps)%Qc.

Lemma update_weight_ok n p arr (idx : list nat) ws : treeok n (p_tree p) arr -> idx <> [] -> length ws = length idx ->
  (forall i, In i idx -> i < n) ->
  exists p', update_weight pw eps p (map Z.of_nat idx) ws = Ok p'
    /\ treeok n (p_tree p') (write_all arr (map Z.of_nat idx) (map (fun w => pw (qabs w + eps)%Qc) ws)).
Proof.
  clear Hpw Hpm Hipw Him Heps ipw. intros T N L I. unfold update_weight. rewrite map_map.
  destruct (treeok_set n (p_tree p) arr (map Z.of_nat idx) (map (fun x => pw (qabs x + eps)%Qc) ws) T) as (t & E & T').
  { apply legal_true; [rewrite !map_length; auto | destruct idx; [contradiction|discriminate] |].
    intros i Hi. apply in_map_iff in Hi. destruct Hi as (j & <- & Hj). specialize (I j Hj). lia. }
  rewrite E. cbn [bind]. eexists. split; [reflexivity|exact T'].
Qed.
End Prios.

(** C147.  If the learner stores its errors in [batch.weight], an update gives every sampled transition the
    priority of the error of one of its occurrences and leaves the other priorities alone. *)
Lemma C147_errors_lemma : forall pw ipw eps (Ob A Inf R : Type) (r0 : R) radd (last_frame : Ob -> Ob) o n
    (ops : list (pop Ob A Inf R)) b norm (index : list nat) td,
  (forall x, (0 < x)%Qc -> (0 < pw x)%Qc) -> (forall x, (0 < x)%Qc -> (0 < ipw x)%Qc) -> (0 < eps)%Qc -> 0 < n ->
  pops_ok pw eps r0 radd last_frame o n (ps_init n) ops ->
  p_run pw eps r0 radd last_frame o (pb_init r0 n) ops = Ok b ->
  index <> [] -> (forall i, In i index -> i < size (b_st (pb_buf b))) -> length td = length index ->
  exists p', prio_update pw ipw eps norm (pb_prio b) (map Z.of_nat index) (Some td) = Ok p'
    /\ forall i, i < n ->
       (In i index -> exists k e, nth_error index k = Some i /\ nth_error td k = Some e /\ st_getitem (p_tree p') (Z.of_nat i) = Ok (pw (qabs e + eps)%Qc))
       /\ (~ In i index -> st_getitem (p_tree p') (Z.of_nat i) = st_getitem (p_tree (pb_prio b)) (Z.of_nat i)).
Proof.
  intros pw ipw eps Ob A Inf R r0 radd lf o n ops b norm index td Hpw Hipw Heps Hn Hok Hrun Hne Hidx Htd.
  pose proof (C16_normalised_weights_lemma pw ipw eps Ob A Inf R r0 radd lf o n ops b index Hpw Hipw Heps Hn Hok Hrun Hne Hidx) as (Wf & top & ws & _ & _ & Wt & _).
  destruct (p_run_ok pw eps Hpw Heps r0 radd lf o n ops _ _ (G_init r0 n Hn) Hok) as (b' & E & Hg).
  rewrite Hrun in E. injection E as <-. destruct Hg as [_ Ht _ _ _ Hsz _]. set (arr := ps_arr _) in Ht.
  assert (Hi : forall i, In i index -> i < n) by (intros i Hi; specialize (Hidx i Hi); rewrite Hsz in Hidx; lia).
  destruct (update_weight_ok pw eps n (pb_prio b) arr index td Ht Hne Htd Hi) as (p' & E & T').
  exists p'. split.
  { unfold prio_update. destruct norm; [rewrite Wt | rewrite Wf]; cbn [bind]; exact E. }
  intros i Hin. rewrite (treeok_get n _ _ i T' Hin), (treeok_get n _ _ i Ht Hin).
  destruct (write_all_some index (map (fun w => pw (qabs w + eps)%Qc) td) arr i) as [H1 H2].
  { rewrite map_length; exact Htd. }
  { intros j Hj. rewrite (treeok_length _ _ _ Ht). auto. }
  split.
  - intro Hi'. destruct (H1 Hi') as (k & K1 & K2). rewrite nth_error_map in K2. destruct (nth_error td k) as [e|] eqn:Ee; [|discriminate].
    injection K2 as K2. exists k, e. split; [exact K1|]. split; [exact Ee|]. rewrite K2. reflexivity.
  - intro Hi'. rewrite (H2 Hi'). reflexivity.
Qed.

(** C147.  A learner that stores nothing (PG, A2C, PPO, imitation, BCQ, CQL, CRR, ...) makes the update write the
    importance weights back as priorities: of two sampled transitions the one with the higher priority
    has the lower one afterwards. *)
Lemma C147_reversed_refuted_lemma : forall pw ipw eps (Ob A Inf R : Type) (r0 : R) radd (last_frame : Ob -> Ob) o n
    (ops : list (pop Ob A Inf R)) b norm (index : list nat),
  (forall x, (0 < x)%Qc -> (0 < pw x)%Qc) -> (forall x y, (0 < x)%Qc -> (x < y)%Qc -> (pw x < pw y)%Qc) ->
  (forall x, (0 < x)%Qc -> (0 < ipw x)%Qc) -> (forall x y, (0 < x)%Qc -> (x < y)%Qc -> (ipw y < ipw x)%Qc) ->
  (0 < eps)%Qc -> 0 < n ->
  pops_ok pw eps r0 radd last_frame o n (ps_init n) ops ->
  p_run pw eps r0 radd last_frame o (pb_init r0 n) ops = Ok b ->
  index <> [] -> (forall i, In i index -> i < size (b_st (pb_buf b))) ->
  exists p', prio_update pw ipw eps norm (pb_prio b) (map Z.of_nat index) None = Ok p'
    /\ forall i j, In i index -> In j index ->
       exists wi wj wi' wj', st_getitem (p_tree (pb_prio b)) (Z.of_nat i) = Ok wi /\ st_getitem (p_tree (pb_prio b)) (Z.of_nat j) = Ok wj
         /\ st_getitem (p_tree p') (Z.of_nat i) = Ok wi' /\ st_getitem (p_tree p') (Z.of_nat j) = Ok wj'
         /\ ((wi < wj)%Qc -> (wj' < wi')%Qc).
Proof.
  intros pw ipw eps Ob A Inf R r0 radd lf o n ops b norm index Hpw Hpm Hipw Him Heps Hn Hok Hrun Hne Hidx.
  pose proof (C16_normalised_weights_lemma pw ipw eps Ob A Inf R r0 radd lf o n ops b index Hpw Hipw Heps Hn Hok Hrun Hne Hidx) as (Wf & top & ws & Ht1 & Ht2 & Wt & Ews & _).
  destruct (p_run_ok pw eps Hpw Heps r0 radd lf o n ops _ _ (G_init r0 n Hn) Hok) as (b' & E & Hg).
  rewrite Hrun in E. injection E as <-. fold (ps_run pw eps n ops) in Hg. destruct Hg as [_ Ht _ _ _ Hsz Hw]. set (s := ps_run pw eps n ops) in *.
  assert (Hlow : (0 < lowest (ps_seen s))%Qc).
  { destruct (lowest_is_min (ps_seen s)) as [[H|H] _].
    - rewrite <- H. qclra.
    - apply (seen_pos pw eps n Heps ops (ps_init n) ltac:(intros x []) _ H). }
  assert (Htop : (0 < top)%Qc) by (apply (Ht2 top Ht1)).
  assert (Hi : forall i, In i index -> i < n) by (intros i Hi; specialize (Hidx i Hi); rewrite Hsz in Hidx; lia).
  assert (Hpos : forall i, In i index -> (0 < nth i (ps_arr s) 0)%Qc).
  { intros i Hii. destruct (Hw i) as [H1 _]; [rewrite (treeok_length _ _ _ Ht); auto|]. apply H1. specialize (Hidx i Hii). rewrite Hsz in Hidx. exact Hidx. }
  set (g := fun i => let x := ipw (nth i (ps_arr s) 0 / lowest (ps_seen s))%Qc in if norm then (x / top)%Qc else x).
  assert (Wg : batch_weight ipw norm (pb_prio b) (map Z.of_nat index) = Ok (map g index)).
  { destruct norm; [rewrite Wt, Ews, map_map; reflexivity | exact Wf]. }
  assert (Gpos : forall i, In i index -> (0 < g i)%Qc).
  { intros i Hii. unfold g. assert (0 < ipw (nth i (ps_arr s) 0 / lowest (ps_seen s)))%Qc by (apply Hipw, qdiv_pos; auto).
    destruct norm; [apply qdiv_pos; auto | exact H]. }
  assert (Glt : forall i j, In i index -> In j index -> (nth i (ps_arr s) 0 < nth j (ps_arr s) 0)%Qc -> (g j < g i)%Qc).
  { intros i j Hii Hjj H. unfold g. assert (L : (ipw (nth j (ps_arr s) 0 / lowest (ps_seen s)) < ipw (nth i (ps_arr s) 0 / lowest (ps_seen s)))%Qc).
    { apply Him; [apply qdiv_pos; auto | apply qdiv_lt; auto]. }
    destruct norm; [apply qdiv_lt; auto | exact L]. }
  destruct (update_weight_ok pw eps n (pb_prio b) (ps_arr s) index (map g index) Ht Hne ltac:(apply map_length) Hi) as (p' & E & T').
  exists p'. split; [unfold prio_update; rewrite Wg; exact E|].
  rewrite map_map in T'. intros i j Hii Hjj.
  pose proof (treeok_get n _ _ i T' (Hi i Hii)) as Gi. pose proof (treeok_get n _ _ j T' (Hi j Hjj)) as Gj.
  assert (B : forall j, In j index -> j < length (ps_arr s)) by (intros k Hk; rewrite (treeok_length _ _ _ Ht); auto).
  rewrite (write_all_map (fun i => pw (qabs (g i) + eps)%Qc) index _ i B) in Gi.
  rewrite (write_all_map (fun i => pw (qabs (g i) + eps)%Qc) index _ j B) in Gj.
  assert (X : forall k, In k index -> existsb (Nat.eqb k) index = true) by (intros k Hk; apply existsb_exists; exists k; split; [exact Hk|apply Nat.eqb_refl]).
  rewrite (X i Hii) in Gi. rewrite (X j Hjj) in Gj.
  do 4 eexists. split; [apply (treeok_get n _ _ i Ht (Hi i Hii))|]. split; [apply (treeok_get n _ _ j Ht (Hi j Hjj))|].
  split; [exact Gi|]. split; [exact Gj|]. intro H. pose proof (Glt i j Hii Hjj H) as L. pose proof (Gpos i Hii) as P1. pose proof (Gpos j Hjj) as P2.
  assert (Q : forall x, (0 < x)%Qc -> qabs x = x). { intros x Hx. unfold qabs. destruct (Qcltb_spec x 0); [exfalso; qclra|reflexivity]. }
  rewrite (Q _ P1), (Q _ P2). apply Hpm; [clear - P2 Heps; qclra | clear - L; qclra].
Qed.
