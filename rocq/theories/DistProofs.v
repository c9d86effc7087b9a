(** * Proofs about the forward passes of the distributional learners and of discrete BCQ *)
From Verif Require Import Py PyLemmas Num DqnModel DqnProofs StatModel StatProofs OfflineModel OfflineProofs QuantModel QuantProofs DistModel DistSpec.
Open Scope nat_scope.

(** ** Shapes *)
Lemma chunks_concat n (l : list (list (list Qc))) : (forall r, In r l -> length r = n) -> chunks (length l) n (concat l) = l.
Proof.
  induction l as [|r l IH]; intro H; [reflexivity|]. cbn [length chunks concat]. assert (L := H r (or_introl eq_refl)).
  rewrite firstn_app, skipn_app, L, Nat.sub_diag. cbn [firstn skipn]. rewrite app_nil_r, <- L, firstn_all, skipn_all. cbn [app]. rewrite L, IH; [reflexivity|].
  intros x Hx. apply H. right. exact Hx.
Qed.
Section Net.
Context {F : Type}.
Variables (last : F -> Qc -> list Qc) (a : nat).
Lemma quantiles_eq n (feats : list F) (taus : list (list Qc)) : length taus = length feats -> (forall r, In r taus -> length r = n) ->
  compute_quantiles last a n feats taus = map (fun x : F * list Qc => transpose a (map (last (fst x)) (snd x))) (combine feats taus).
Proof.
  intros HL Hr. unfold compute_quantiles. rewrite concat_map, map_map.
  set (g := fun x : F * list Qc => map (fun e : F * Qc => last (fst e) (snd e)) (map (fun t => (fst x, t)) (snd x))).
  assert (E : length feats = length (map g (combine feats taus))) by (rewrite map_length, combine_length; lia).
  rewrite E, chunks_concat, map_map.
  - apply map_ext. intro x. unfold g. rewrite map_map. reflexivity.
  - intros r Hin. apply in_map_iff in Hin. destruct Hin as ([f ts] & <- & Hc). unfold g. rewrite !map_length. apply Hr. apply in_combine_r in Hc. exact Hc.
Qed.
Lemma quantiles_nth n (feats : list F) (taus : list (list Qc)) i f ts : length taus = length feats -> (forall r, In r taus -> length r = n) ->
  nth_error feats i = Some f -> nth_error taus i = Some ts -> nth_error (compute_quantiles last a n feats taus) i = Some (transpose a (map (last f) ts)).
Proof. intros HL Hr Hf Ht. rewrite quantiles_eq by assumption. rewrite nth_error_map, nth_error_combine, Hf, Ht. reflexivity. Qed.
Lemma quantiles_length n feats taus : length (compute_quantiles last a n feats taus) = length feats.
Proof.
  unfold compute_quantiles. rewrite map_length. generalize (map (fun e : F * Qc => last (fst e) (snd e)) (concat (map (fun x : F * list Qc => map (fun t => (fst x, t)) (snd x)) (combine feats taus)))).
  induction (length feats) as [|b IH]; intro l; [reflexivity|]. cbn. rewrite IH. reflexivity.
Qed.
End Net.
Lemma transpose_length a m : length (transpose a m) = a.
Proof. unfold transpose. rewrite map_length. apply seq_length. Qed.
Lemma transpose_nth a m k : k < a -> nth_error (transpose a m) k = Some (map (fun r => nth k r 0%Qc) m).
Proof. intro H. unfold transpose. rewrite nth_error_map_seq. destruct (Nat.ltb_spec k a); [reflexivity|lia]. Qed.

(** ** Greedy actions *)
Lemma greedy_best a logits mask : 0 < a -> logits <> [] -> (forall r, In r logits -> length r = a) -> mask_fits mask (length logits) a ->
  exists act, greedy logits mask = Ok act /\ length act = length logits
    /\ forall i row k0, nth_error logits i = Some row -> k0 < a -> allowed mask i k0 -> exists k, nth_error act i = Some k /\ best mask a i k (fun k => nth k row 0%Qc).
Proof.
  intros Ha Hne Hr Hm. destruct mask as [m|].
  - destruct Hm as [Hm1 Hm2].
    assert (Hc : concat logits <> []).
    { destruct logits as [|r l]; [contradiction|]. specialize (Hr r (or_introl eq_refl)). destruct r; [cbn in Hr; lia | discriminate]. }
    assert (Hs : forall i row mrow, nth_error logits i = Some row -> nth_error m i = Some mrow -> length row = length mrow).
    { intros i row mrow H1 H2. rewrite (Hr row), (Hm2 mrow); [reflexivity | eapply nth_error_In; exact H2 | eapply nth_error_In; exact H1]. }
    destruct (C38_greedy_lemma logits m (eq_sym Hm1) Hs Hc) as (q & act & _ & Hg & HL & Hall). exists act. split; [exact Hg|]. split; [exact HL|].
    intros i row k0 Hi Hk (mrow & Hmi & Hmk). destruct (Hall i row mrow k0 Hi Hmi Hmk) as (_ & k & v & A1 & A2 & A3 & A4).
    exists k. split; [exact A1|]. assert (Lr := Hr row (nth_error_In _ _ Hi)).
    assert (Hka : k < a) by (rewrite <- Lr; apply nth_error_Some; congruence).
    split; [exact Hka|]. split; [exists mrow; auto|]. intros k' Hk' (mrow' & B1 & B2). assert (mrow' = mrow) by congruence. subst mrow'.
    rewrite (nth_error_nth row k 0%Qc A3). assert (E : nth_error row k' = Some (nth k' row 0%Qc)) by (apply nth_error_nth'; lia). exact (A4 k' _ E B2).
  - exists (map argmax logits). split; [reflexivity|]. split; [apply map_length|]. intros i row k0 Hi Hk _.
    assert (Lr := Hr row (nth_error_In _ _ Hi)). exists (argmax row). split; [rewrite nth_error_map, Hi; reflexivity|].
    destruct (argmax_spec row) as (v & Hv & Hb); [destruct row; [cbn in Lr; lia | discriminate]|].
    assert (Hka : argmax row < a) by (rewrite <- Lr; apply nth_error_Some; congruence).
    split; [exact Hka|]. split; [exact Logic.I|]. intros k' Hk' _. rewrite (nth_error_nth row _ 0%Qc Hv). apply Hb. apply nth_In. lia.
Qed.
Lemma select_ok dist act : length act = length dist -> (forall i d k, nth_error dist i = Some d -> nth_error act i = Some k -> k < length d) ->
  exists l, select dist act = Ok l /\ length l = length dist /\ forall i d k, nth_error dist i = Some d -> nth_error act i = Some k -> nth_error l i = nth_error d k.
Proof.
  intros HL H. exists (map (fun x : list (list Qc) * nat => nth (snd x) (fst x) []) (combine dist act)). split; [|split].
  - unfold select. apply mapM_Ok. intros [d k] Hin. apply In_nth_error in Hin. destruct Hin as [i Hi]. rewrite nth_error_combine in Hi.
    destruct (nth_error dist i) as [d'|] eqn:E1; [|discriminate]. destruct (nth_error act i) as [k'|] eqn:E2; [|discriminate]. injection Hi as -> ->. cbn [fst snd].
    rewrite (nth_error_nth' d [] (H i d k E1 E2)). reflexivity.
  - rewrite map_length, combine_length. lia.
  - intros i d k E1 E2. rewrite nth_error_map, nth_error_combine, E1, E2. cbn [option_map fst snd]. symmetry. apply nth_error_nth'. exact (H i d k E1 E2).
Qed.

(** ** IQN *)
Lemma draw_length rnd b n : length (draw rnd b n) = b.
Proof. unfold draw. rewrite map_length. apply seq_length. Qed.
Lemma draw_nth rnd b n i : i < b -> nth_error (draw rnd b n) i = Some (map (rnd i) (seq 0 n)).
Proof. intro H. unfold draw. rewrite nth_error_map_seq. destruct (Nat.ltb_spec i b); [reflexivity|lia]. Qed.
Lemma draw_rows rnd b n r : In r (draw rnd b n) -> length r = n.
Proof. unfold draw. intro H. apply in_map_iff in H. destruct H as (i & <- & _). rewrite map_length. apply seq_length. Qed.
Section Iqn.
Context {Ob F : Type}.
Variables (pre : netname -> Ob -> F) (last : netname -> F -> Qc -> list Qc) (a : nat).
Lemma iqn_row m rnd n obs i o : nth_error obs i = Some o ->
  nth_error (fst (iqn_net pre last a m rnd n obs)) i = Some (transpose a (map (last m (pre m o)) (map (rnd i) (seq 0 n)))).
Proof.
  intro H. cbn [iqn_net fst]. assert (Hi : i < length obs) by (apply nth_error_Some; congruence). apply quantiles_nth.
  - rewrite draw_length, map_length. reflexivity.
  - intros r Hr. exact (draw_rows _ _ _ _ Hr).
  - rewrite nth_error_map, H. reflexivity.
  - apply draw_nth. exact Hi.
Qed.
Lemma iqn_rows m rnd n obs r : In r (fst (iqn_net pre last a m rnd n obs)) -> length r = a.
Proof.
  intro H. apply In_nth_error in H. destruct H as [i Hi]. assert (Hl : i < length obs).
  { assert (i < length (fst (iqn_net pre last a m rnd n obs))) by (apply nth_error_Some; congruence). cbn [iqn_net fst] in H. rewrite quantiles_length, map_length in H. exact H. }
  destruct (nth_error obs i) as [o|] eqn:E; [|apply nth_error_None in E; lia]. rewrite (iqn_row _ _ _ _ _ _ E) in Hi. injection Hi as <-. apply transpose_length.
Qed.
Lemma iqn_len m rnd n obs : length (fst (iqn_net pre last a m rnd n obs)) = length obs.
Proof. cbn [iqn_net fst]. rewrite quantiles_length. apply map_length. Qed.
(** The value of action [k] of row [i]: the mean of the values at the drawn fractions. *)
Lemma iqn_value m rnd n obs i o k : nth_error obs i = Some o -> k < a ->
  nth k (map np_mean (transpose a (map (last m (pre m o)) (map (rnd i) (seq 0 n))))) 0%Qc = np_mean (map (fun j => nth k (last m (pre m o) (rnd i j)) 0%Qc) (seq 0 n)).
Proof.
  intros H Hk. erewrite nth_error_nth; [reflexivity|]. rewrite nth_error_map, transpose_nth by exact Hk. cbn [option_map]. rewrite !map_map. reflexivity.
Qed.
Lemma iqn_fwd ss online target training rnd m obs mask : 0 < a -> obs <> [] -> mask_fits mask (length obs) a ->
  let n := iqn_samples ss online target training m in
  exists act, iqn_forward pre last a ss online target training rnd m obs mask = Ok (fst (iqn_net pre last a m rnd n obs), draw rnd (length obs) n, act) /\ length act = length obs
    /\ forall i o k0, nth_error obs i = Some o -> k0 < a -> allowed mask i k0 ->
         exists k, nth_error act i = Some k /\ best mask a i k (fun k => np_mean (map (fun j => nth k (last m (pre m o) (rnd i j)) 0%Qc) (seq 0 n))).
Proof.
  intros Ha Ho Hm n. set (L := fst (iqn_net pre last a m rnd n obs)).
  assert (HL : length L = length obs) by apply iqn_len.
  assert (Hne : map (map np_mean) L <> []) by (intro E; apply (f_equal (@length _)) in E; rewrite map_length, HL in E; destruct obs; [contradiction|discriminate]).
  assert (Hr : forall r, In r (map (map np_mean) L) -> length r = a).
  { intros r Hr. apply in_map_iff in Hr. destruct Hr as (x & <- & Hx). rewrite map_length. exact (iqn_rows _ _ _ _ _ Hx). }
  assert (Hm' : mask_fits mask (length (map (map np_mean) L)) a) by (rewrite map_length, HL; exact Hm).
  destruct (greedy_best a _ mask Ha Hne Hr Hm') as (act & Hg & Hla & Hb). exists act. split; [|split].
  - unfold iqn_forward. fold n. change (iqn_net pre last a m rnd n obs) with (L, draw rnd (length obs) n). cbv beta iota. rewrite Hg. reflexivity.
  - rewrite Hla, map_length. exact HL.
  - intros i o k0 Hi Hk Hal. assert (Hrow := iqn_row m rnd n obs i o Hi). fold L in Hrow.
    destruct (Hb i (map np_mean (transpose a (map (last m (pre m o)) (map (rnd i) (seq 0 n))))) k0) as (k & A1 & A2 & A3 & A4); [rewrite nth_error_map, Hrow; reflexivity | exact Hk | exact Hal |].
    exists k. split; [exact A1|]. split; [exact A2|]. split; [exact A3|]. intros k' Hk' Hal'. specialize (A4 k' Hk' Hal'). cbn beta in A4.
    rewrite (iqn_value m rnd n obs i o k' Hi Hk'), (iqn_value m rnd n obs i o k Hi A2) in A4. exact A4.
Qed.
End Iqn.

(** C234.  The forward pass of IQN: as many fractions per observation as the constructor says for this network and mode; entry (action k,
    sample j) is the network's value of k at fraction j of this observation; the action has the highest mean among the available ones. *)
Lemma C234_forward_lemma : forall (Ob F : Type) (pre : netname -> Ob -> F) (last : netname -> F -> Qc -> list Qc) a ss online target training rnd m obs mask,
  0 < a -> (forall m f t, length (last m f t) = a) -> obs <> [] -> mask_fits mask (length obs) a ->
  exists logits taus act, iqn_forward pre last a ss online target training rnd m obs mask = Ok (logits, taus, act)
    /\ length logits = length obs /\ length taus = length obs /\ length act = length obs
    /\ forall i o, nth_error obs i = Some o -> exists q ts, nth_error logits i = Some q /\ nth_error taus i = Some ts
         /\ length ts = match m, training with Old, _ => target | Online, true => online | Online, false => ss end
         /\ length q = a
         /\ (forall k row, nth_error q k = Some row -> length row = length ts /\ forall j t, nth_error ts j = Some t -> nth_error row j = nth_error (last m (pre m o) t) k)
         /\ forall k0, k0 < a -> allowed mask i k0 -> exists k, nth_error act i = Some k /\ best mask a i k (fun k => np_mean (nth k q [])).
Proof.
  intros Ob F pre last a ss online target training rnd m obs mask Ha Hl Ho Hm. set (n := iqn_samples ss online target training m).
  destruct (iqn_fwd pre last a ss online target training rnd m obs mask Ha Ho Hm) as (act & E & HL & Hb). fold n in E, Hb.
  exists (fst (iqn_net pre last a m rnd n obs)), (draw rnd (length obs) n), act. split; [exact E|]. split; [apply iqn_len|]. split; [apply draw_length|]. split; [exact HL|].
  intros i o Hi. assert (Hlt : i < length obs) by (apply nth_error_Some; congruence).
  exists (transpose a (map (last m (pre m o)) (map (rnd i) (seq 0 n)))), (map (rnd i) (seq 0 n)).
  split; [apply iqn_row; exact Hi|]. split; [apply draw_nth; exact Hlt|]. split; [rewrite map_length, seq_length; unfold n; destruct m, training; reflexivity|]. split; [apply transpose_length|]. split.
  - intros k row Hk. assert (Hka : k < a) by (rewrite <- (transpose_length a (map (last m (pre m o)) (map (rnd i) (seq 0 n)))); apply nth_error_Some; congruence).
    rewrite transpose_nth in Hk by exact Hka. injection Hk as <-. split; [rewrite !map_length; reflexivity|]. intros j t Ht.
    rewrite !nth_error_map. rewrite nth_error_map in Ht. destruct (nth_error (seq 0 n) j); [|discriminate]. cbn [option_map] in *. injection Ht as ->. symmetry. apply nth_error_nth'. rewrite Hl. exact Hka.
  - intros k0 Hk0 Hal. destruct (Hb i o k0 Hi Hk0 Hal) as (k & A1 & A2 & A3 & A4). exists k. split; [exact A1|]. split; [exact A2|]. split; [exact A3|].
    intros k' Hk' Hal'. specialize (A4 k' Hk' Hal'). cbn beta in A4 |- *.
    assert (V : forall x, x < a -> np_mean (nth x (transpose a (map (last m (pre m o)) (map (rnd i) (seq 0 n)))) []) = np_mean (map (fun j => nth x (last m (pre m o) (rnd i j)) 0%Qc) (seq 0 n))).
    { intros x Hx. erewrite nth_error_nth; [|apply transpose_nth; exact Hx]. rewrite !map_map. reflexivity. }
    rewrite !V by assumption. exact A4.
Qed.
(** C234.  The target distribution of IQN: the values of the evaluating network, at its own fractions, of an action that is best for the online
    network; as many as [target_sample_size] if there is a target network. *)
Lemma C234_target_lemma : forall (Ob F : Type) (pre : netname -> Ob -> F) (last : netname -> F -> Qc -> list Qc) a use_target ss online target training rnd rnd' obs mask,
  0 < a -> (forall m f t, length (last m f t) = a) -> obs <> [] -> mask_fits mask (length obs) a -> (forall i, i < length obs -> exists k, k < a /\ allowed mask i k) ->
  let n := if training : bool then online else ss in
  exists l, iqn_target pre last a use_target ss online target training rnd rnd' obs mask = Ok l /\ length l = length obs
    /\ forall i o, nth_error obs i = Some o -> exists k, best mask a i k (fun k => np_mean (map (fun j => nth k (last Online (pre Online o) (rnd i j)) 0%Qc) (seq 0 n)))
         /\ nth_error l i = Some (if use_target : bool then map (fun j => nth k (last Old (pre Old o) (rnd' i j)) 0%Qc) (seq 0 target)
                                  else map (fun j => nth k (last Online (pre Online o) (rnd i j)) 0%Qc) (seq 0 n)).
Proof.
  intros Ob F pre last a ut ss online target training rnd rnd' obs mask Ha Hl Ho Hm Hex n.
  destruct (iqn_fwd pre last a ss online target training rnd Online obs mask Ha Ho Hm) as (act & E & HL & Hb).
  destruct (iqn_fwd pre last a ss online target training rnd' Old obs mask Ha Ho Hm) as (act' & E' & _ & _).
  change (iqn_samples ss online target training Online) with n in E, Hb. change (iqn_samples ss online target training Old) with target in E'.
  set (D := if ut then fst (iqn_net pre last a Old rnd' target obs) else fst (iqn_net pre last a Online rnd n obs)).
  assert (ES : iqn_target pre last a ut ss online target training rnd rnd' obs mask = select D act).
  { unfold iqn_target. rewrite E. cbn [bind]. destruct ut; [rewrite E'; reflexivity | reflexivity]. }
  assert (HD : length D = length obs) by (unfold D; destruct ut; apply iqn_len).
  assert (Hrow : forall i o, nth_error obs i = Some o -> nth_error D i = Some (if ut then transpose a (map (last Old (pre Old o)) (map (rnd' i) (seq 0 target))) else transpose a (map (last Online (pre Online o)) (map (rnd i) (seq 0 n))))).
  { intros i o Hi. unfold D. destruct ut; apply iqn_row; exact Hi. }
  assert (Hact : forall i o, nth_error obs i = Some o -> exists k, nth_error act i = Some k /\ best mask a i k (fun k => np_mean (map (fun j => nth k (last Online (pre Online o) (rnd i j)) 0%Qc) (seq 0 n)))).
  { intros i o Hi. destruct (Hex i) as (k0 & K1 & K2); [apply nth_error_Some; congruence|]. exact (Hb i o k0 Hi K1 K2). }
  destruct (select_ok D act) as (l & El & Ll & Hs); [congruence | |].
  - intros i d k Hd Hk. destruct (nth_error obs i) as [o|] eqn:Eo; [|apply nth_error_None in Eo; assert (i < length D) by (apply nth_error_Some; congruence); lia].
    rewrite (Hrow i o Eo) in Hd. injection Hd as <-. destruct (Hact i o Eo) as (k' & A1 & A2 & _). assert (k' = k) by congruence. subst k'. destruct ut; rewrite transpose_length; exact A2.
  - exists l. split; [congruence|]. split; [congruence|]. intros i o Hi. destruct (Hact i o Hi) as (k & A1 & A2). exists k. split; [exact A2|].
    rewrite (Hs i _ k (Hrow i o Hi) A1). destruct A2 as [A2 _]. destruct ut; rewrite transpose_nth by exact A2; rewrite !map_map; reflexivity.
Qed.

(** ** FQF *)
Lemma taus_length p : length (taus_of p) = S (length p).
Proof. unfold taus_of. cbn. rewrite cumsum_length. reflexivity. Qed.
Lemma hats_length p : length (tau_hats_of p) = length p.
Proof. unfold tau_hats_of, midpoints. rewrite (combine_tl _ 0%Qc), !map_length, seq_length, taus_length. lia. Qed.
Lemma inner_length p : length (removelast (tl (taus_of p))) = length p - 1.
Proof. cbn [taus_of tl]. rewrite removelast_firstn_len, firstn_length, cumsum_length. lia. Qed.
Lemma qdot_expectation p : forall z, length z = length p -> qdot p z = expectation p (fun j => nth j z 0%Qc).
Proof.
  unfold qdot, expectation. induction p as [|x p IH]; intros [|y z] H; try discriminate; [reflexivity|]. cbn [combine map qsum length seq nth fst snd]. f_equal.
  rewrite (IH z) by (cbn in H; lia). rewrite <- seq_shift, map_map. reflexivity.
Qed.
Lemma fqf_q_expectation p z : length z = length p -> fqf_q (taus_of p) z = expectation p (fun j => nth j z 0%Qc).
Proof. intro H. unfold fqf_q. rewrite taus_diff. apply qdot_expectation. exact H. Qed.
Section Fqf.
Context {Ob F : Type}.
Variables (pre : netname -> Ob -> F) (last : netname -> F -> Qc -> list Qc) (a : nat) (probs : F -> list Qc) (n : nat).
Hypothesis Hp : forall f, length (probs f) = n.
Let P (obs : list Ob) : fractions := propose probs (map (pre Online) obs).
Lemma hats_rows obs r : In r (snd (P obs)) -> length r = n.
Proof. intro H. unfold P, propose in H. cbn [snd] in H. apply in_map_iff in H. destruct H as (f & <- & _). rewrite hats_length. apply Hp. Qed.
Lemma hats_nth obs i o : nth_error obs i = Some o -> nth_error (snd (P obs)) i = Some (tau_hats_of (probs (pre Online o))).
Proof. intro H. unfold P, propose. cbn [fst snd]. rewrite !nth_error_map, H. reflexivity. Qed.
Lemma taus_nth_row obs i o : nth_error obs i = Some o -> nth_error (fst (P obs)) i = Some (taus_of (probs (pre Online o))).
Proof. intro H. unfold P, propose. cbn [fst snd]. rewrite !nth_error_map, H. reflexivity. Qed.
Definition fq (m : netname) (obs : list Ob) : list (list (list Qc)) := compute_quantiles (last m) a n (map (pre m) obs) (snd (P obs)).
Lemma fq_row m obs i o : nth_error obs i = Some o -> nth_error (fq m obs) i = Some (transpose a (map (last m (pre m o)) (tau_hats_of (probs (pre Online o))))).
Proof.
  intro H. unfold fq. apply quantiles_nth.
  - unfold P, propose. cbn [fst snd]. rewrite !map_length. reflexivity.
  - intros r Hr. exact (hats_rows obs r Hr).
  - rewrite nth_error_map, H. reflexivity.
  - apply hats_nth. exact H.
Qed.
Lemma fq_len m obs : length (fq m obs) = length obs.
Proof. unfold fq. rewrite quantiles_length. apply map_length. Qed.
Lemma fqf_fwd m tr obs mask given : 0 < a -> obs <> [] -> mask_fits mask (length obs) a -> given = Some (P obs) \/ (given = None /\ m = Online) ->
  exists act, fqf_forward pre last a probs n m tr obs mask given =
      Ok (fq m obs, P obs, if tr then Some (compute_quantiles (last m) a (n - 1) (map (pre m) obs) (map (fun t => removelast (tl t)) (fst (P obs)))) else None, act)
    /\ length act = length obs
    /\ forall i o k0, nth_error obs i = Some o -> k0 < a -> allowed mask i k0 ->
         exists k, nth_error act i = Some k /\ best mask a i k (fun k => expectation (probs (pre Online o)) (fun j => nth k (last m (pre m o) (nth j (tau_hats_of (probs (pre Online o))) 0)) 0)%Qc).
Proof.
  intros Ha Ho Hm Hg. set (V := map (fun x : list Qc * list (list Qc) => map (fqf_q (fst x)) (snd x)) (combine (fst (P obs)) (fq m obs))).
  assert (HV : length V = length obs) by (unfold V; rewrite map_length, combine_length, fq_len; unfold P, propose; cbn [fst snd]; rewrite !map_length; lia).
  assert (Hrow : forall i o, nth_error obs i = Some o -> nth_error V i = Some (map (fqf_q (taus_of (probs (pre Online o)))) (transpose a (map (last m (pre m o)) (tau_hats_of (probs (pre Online o))))))).
  { intros i o Hi. unfold V. rewrite nth_error_map, nth_error_combine, (taus_nth_row obs i o Hi), (fq_row m obs i o Hi). reflexivity. }
  assert (Hr : forall r, In r V -> length r = a).
  { intros r Hr. apply In_nth_error in Hr. destruct Hr as [i Hi]. destruct (nth_error obs i) as [o|] eqn:E.
    - rewrite (Hrow i o E) in Hi. injection Hi as <-. rewrite map_length. apply transpose_length.
    - apply nth_error_None in E. assert (i < length V) by (apply nth_error_Some; congruence). lia. }
  assert (Hne : V <> []) by (intro E; rewrite E in HV; destruct obs; [contradiction|discriminate]).
  destruct (greedy_best a V mask Ha Hne Hr) as (act & Ga & La & Hb); [rewrite HV; exact Hm|].
  exists act. split; [|split; [congruence|]].
  - unfold fqf_forward, fqf_net. assert (E : match given with None => propose probs (map (pre m) obs) | Some fr => fr end = P obs) by (destruct Hg as [-> | [-> ->]]; reflexivity).
    rewrite E. fold (fq m obs). cbv beta iota. fold V. rewrite Ga. reflexivity.
  - intros i o k0 Hi Hk Hal. destruct (Hb i _ k0 (Hrow i o Hi) Hk Hal) as (k & A1 & A2 & A3 & A4). exists k. split; [exact A1|]. split; [exact A2|]. split; [exact A3|].
    intros k' Hk' Hal'. specialize (A4 k' Hk' Hal'). cbn beta in A4.
    assert (Val : forall x, x < a -> nth x (map (fqf_q (taus_of (probs (pre Online o)))) (transpose a (map (last m (pre m o)) (tau_hats_of (probs (pre Online o)))))) 0%Qc
      = expectation (probs (pre Online o)) (fun j => nth x (last m (pre m o) (nth j (tau_hats_of (probs (pre Online o))) 0)) 0)%Qc).
    { intros x Hx. erewrite nth_error_nth; [|rewrite nth_error_map, transpose_nth by exact Hx; reflexivity]. rewrite fqf_q_expectation by (rewrite !map_length; apply hats_length).
      unfold expectation. f_equal. apply map_ext_in. intros j Hj. apply in_seq in Hj. f_equal. erewrite nth_error_nth; [reflexivity|]. rewrite !nth_error_map.
      rewrite (nth_error_nth' (tau_hats_of (probs (pre Online o))) 0%Qc) by (rewrite hats_length; lia). reflexivity. }
    rewrite !Val in A4 by assumption. exact A4.
Qed.
End Fqf.

(** C235.  The target distribution of FQF: both networks are evaluated at the fractions proposed for the online network; the action is best for
    the online network in expectation under the proposed probabilities. *)
Lemma C235_target_lemma : forall (Ob F : Type) (pre : netname -> Ob -> F) (last : netname -> F -> Qc -> list Qc) a probs n use_target training old_training obs mask,
  0 < a -> (forall m f t, length (last m f t) = a) -> (forall f, length (probs f) = n) -> obs <> [] -> mask_fits mask (length obs) a ->
  (forall i, i < length obs -> exists k, k < a /\ allowed mask i k) ->
  exists l, fqf_target pre last a probs use_target n training old_training obs mask = Ok l /\ length l = length obs
    /\ forall i o, nth_error obs i = Some o ->
         let p := probs (pre Online o) in
         let net := if use_target : bool then Old else Online in
         exists k, best mask a i k (fun k => expectation p (fun j => nth k (last Online (pre Online o) (nth j (tau_hats_of p) 0)) 0)%Qc)
           /\ nth_error l i = Some (map (fun h => nth k (last net (pre net o) h) 0%Qc) (tau_hats_of p)).
Proof.
  intros Ob F pre last a probs n ut tr otr obs mask Ha Hl Hp Ho Hm Hex.
  destruct (fqf_fwd pre last a probs n Hp Online tr obs mask None Ha Ho Hm) as (act & E & HL & Hb); [right; auto|].
  destruct (fqf_fwd pre last a probs n Hp Old otr obs mask (Some (propose probs (map (pre Online) obs))) Ha Ho Hm) as (act' & E' & _); [left; reflexivity|].
  set (net := if ut then Old else Online). set (D := fq pre last a probs n net obs).
  assert (ES : fqf_target pre last a probs ut n tr otr obs mask = select D act).
  { unfold fqf_target. rewrite E. cbn [bind]. unfold D, net. destruct ut; [rewrite E'; reflexivity | reflexivity]. }
  assert (HD : length D = length obs) by apply fq_len.
  assert (Hrow : forall i o, nth_error obs i = Some o -> nth_error D i = Some (transpose a (map (last net (pre net o)) (tau_hats_of (probs (pre Online o)))))) by (intros i o Hi; exact (fq_row pre last a probs n Hp net obs i o Hi)).
  assert (Hact : forall i o, nth_error obs i = Some o -> exists k, nth_error act i = Some k /\ best mask a i k (fun k => expectation (probs (pre Online o)) (fun j => nth k (last Online (pre Online o) (nth j (tau_hats_of (probs (pre Online o))) 0)) 0)%Qc)).
  { intros i o Hi. destruct (Hex i) as (k0 & K1 & K2); [apply nth_error_Some; congruence|]. exact (Hb i o k0 Hi K1 K2). }
  destruct (select_ok D act) as (l & El & Ll & Hs); [congruence | |].
  - intros i d k Hd Hk. destruct (nth_error obs i) as [o|] eqn:Eo; [|apply nth_error_None in Eo; assert (i < length D) by (apply nth_error_Some; congruence); lia].
    rewrite (Hrow i o Eo) in Hd. injection Hd as <-. destruct (Hact i o Eo) as (k' & A1 & A2 & _). assert (k' = k) by congruence. subst k'. rewrite transpose_length. exact A2.
  - exists l. split; [congruence|]. split; [congruence|]. intros i o Hi. cbn zeta. destruct (Hact i o Hi) as (k & A1 & A2). exists k. split; [exact A2|].
    rewrite (Hs i _ k (Hrow i o Hi) A1). destruct A2 as [A2 _]. rewrite transpose_nth by exact A2. rewrite !map_map. reflexivity.
Qed.

Lemma half_pos : (0 < half)%Qc /\ (half < 1)%Qc. Proof. split; reflexivity. Qed.
Lemma nth_removelast {X} (l : list X) i d : i < length l - 1 -> nth i (removelast l) d = nth i l d.
Proof.
  intro H. rewrite removelast_firstn_len. transitivity (nth i (firstn (pred (length l)) l ++ skipn (pred (length l)) l) d); [|rewrite firstn_skipn; reflexivity].
  rewrite app_nth1; [reflexivity|]. rewrite firstn_length. lia.
Qed.
Lemma nth_tl {X} (l : list X) i d : nth i (tl l) d = nth (S i) l d.
Proof. destruct l; [destruct i; reflexivity | reflexivity]. Qed.
Lemma tl_len {X} (l : list X) : length (tl l) = length l - 1.
Proof. destruct l; cbn; lia. Qed.
Lemma nth_skip {X} (l : list X) n i d : nth i (skipn n l) d = nth (n + i) l d.
Proof. revert l; induction n as [|n IH]; intros [|x l]; cbn; [reflexivity | reflexivity | destruct i; reflexivity | apply IH]. Qed.
Lemma firstn1_map (z : Qc -> Qc) l : 0 < length l -> firstn 1 (map z l) = [z (nth 0 l 0%Qc)].
Proof. destruct l; cbn; [lia | reflexivity]. Qed.
Lemma nth_mapz (z : Qc -> Qc) l j : j < length l -> nth j (map z l) 0%Qc = z (nth j l 0%Qc).
Proof. intro H. erewrite nth_error_nth; [reflexivity|]. rewrite nth_error_map, (nth_error_nth' _ 0%Qc) by exact H. reflexivity. Qed.
(** C235.  The gradients of the fractions can only be computed in training mode.  If the quantile function of the taken action increases, inner
    fraction j+1 has the gradient 2 z(tau_{j+1}) - z(hat_j) - z(hat_{j+1}). *)
Lemma C235_gradients_lemma : forall (Ob F : Type) (pre : netname -> Ob -> F) (last : netname -> F -> Qc -> list Qc) a probs n obs acts,
  0 < a -> 0 < n -> (forall m f t, length (last m f t) = a) -> (forall f, length (probs f) = n /\ (forall p, In p (probs f) -> (0 < p)%Qc) /\ qsum (probs f) = 1%Qc) ->
  obs <> [] -> length acts = length obs -> (forall k, In k acts -> k < a) ->
  fqf_gradients pre last a probs n false obs acts = Err TypeError
  /\ exists g, fqf_gradients pre last a probs n true obs acts = Ok g /\ length g = length obs
    /\ forall i o k, nth_error obs i = Some o -> nth_error acts i = Some k ->
         let p := probs (pre Online o) in let z := fun t => nth k (last Online (pre Online o) t) 0%Qc in
         (forall t t', (t < t')%Qc -> (z t < z t')%Qc) ->
         exists row, nth_error g i = Some row /\ length row = n - 1
           /\ forall j, j < n - 1 -> nth_error row j = Some ((z (nth (S j) (taus_of p) 0) - z (nth j (tau_hats_of p) 0)) + (z (nth (S j) (taus_of p) 0) - z (nth (S j) (tau_hats_of p) 0)))%Qc.
Proof.
  intros Ob F pre last a probs n obs acts Ha Hn Hl Hpr Ho HLa Hka. assert (Hp : forall f, length (probs f) = n) by (intro f; apply Hpr).
  set (D := fq pre last a probs n Online obs). assert (HD : length D = length obs) by apply fq_len.
  assert (Hrow : forall i o, nth_error obs i = Some o -> nth_error D i = Some (transpose a (map (last Online (pre Online o)) (tau_hats_of (probs (pre Online o)))))) by (intros i o Hi; exact (fq_row pre last a probs n Hp Online obs i o Hi)).
  destruct (select_ok D acts) as (hats & Eh & Lh & Hh); [congruence| |].
  { intros i d k Hd Hk. destruct (nth_error obs i) as [o|] eqn:Eo; [|apply nth_error_None in Eo; assert (i < length D) by (apply nth_error_Some; congruence); lia].
    rewrite (Hrow i o Eo) in Hd. injection Hd as <-. rewrite transpose_length. apply Hka. eapply nth_error_In. exact Hk. }
  set (inner := map (fun t : list Qc => removelast (tl t)) (fst (propose probs (map (pre Online) obs)))).
  set (Q := compute_quantiles (last Online) a (n - 1) (map (pre Online) obs) inner).
  assert (Hin : forall i o, nth_error obs i = Some o -> nth_error inner i = Some (removelast (tl (taus_of (probs (pre Online o)))))).
  { intros i o Hi. unfold inner. cbn [propose fst]. rewrite !nth_error_map, Hi. reflexivity. }
  assert (Li : length inner = length obs) by (unfold inner; cbn [propose fst]; rewrite !map_length; reflexivity).
  assert (HQrow : forall i o, nth_error obs i = Some o -> nth_error Q i = Some (transpose a (map (last Online (pre Online o)) (removelast (tl (taus_of (probs (pre Online o)))))))).
  { intros i o Hi. apply quantiles_nth.
    - rewrite map_length. exact Li.
    - intros r Hr. unfold inner in Hr. cbn [propose fst] in Hr. rewrite map_map in Hr. apply in_map_iff in Hr. destruct Hr as (f & <- & _). rewrite inner_length, Hp. reflexivity.
    - rewrite nth_error_map, Hi. reflexivity.
    - apply Hin. exact Hi. }
  assert (HQ : length Q = length obs) by (unfold Q; rewrite quantiles_length; apply map_length).
  destruct (select_ok Q acts) as (qs & Eq & Lq & Hq); [congruence| |].
  { intros i d k Hd Hk. destruct (nth_error obs i) as [o|] eqn:Eo; [|apply nth_error_None in Eo; assert (i < length Q) by (apply nth_error_Some; congruence); lia].
    rewrite (HQrow i o Eo) in Hd. injection Hd as <-. rewrite transpose_length. apply Hka. eapply nth_error_In. exact Hk. }
  assert (Hg : forall tr, exists act, fqf_forward pre last a probs n Online tr obs None None = Ok (D, propose probs (map (pre Online) obs), if tr then Some Q else None, act)).
  { intro tr. destruct (fqf_fwd pre last a probs n Hp Online tr obs None None Ha Ho Logic.I) as (act & E & _); [right; auto|]. exists act. exact E. }
  split.
  - destruct (Hg false) as (act & E). unfold fqf_gradients. rewrite E. cbn [bind]. rewrite Eh. reflexivity.
  - destruct (Hg true) as (act & E). exists (map (fun x : list Qc * list Qc => fraction_gradient (fst x) (snd x)) (combine hats qs)). split; [|split].
    + unfold fqf_gradients. rewrite E. cbn [bind]. rewrite Eh. cbn [bind]. rewrite Eq. reflexivity.
    + rewrite map_length, combine_length. lia.
    + intros i o k Hi Hk p z Hz. destruct (Hpr (pre Online o)) as (Lp & Pp & Sp). fold p in Lp, Pp, Sp.
      assert (Hkk : k < a) by (apply Hka; eapply nth_error_In; exact Hk).
      assert (E1 : nth_error hats i = Some (map z (tau_hats_of p))).
      { rewrite (Hh i _ k (Hrow i o Hi) Hk), transpose_nth by exact Hkk. rewrite map_map. reflexivity. }
      assert (E2 : nth_error qs i = Some (map z (removelast (tl (taus_of p))))).
      { rewrite (Hq i _ k (HQrow i o Hi) Hk), transpose_nth by exact Hkk. rewrite map_map. reflexivity. }
      eexists. split; [rewrite nth_error_map, nth_error_combine, E1, E2; reflexivity|]. cbn [fst snd].
      assert (Lhat : length (tau_hats_of p) = n) by (rewrite hats_length; exact Lp).
      assert (Lin : length (removelast (tl (taus_of p))) = n - 1) by (rewrite inner_length, Lp; reflexivity).
      destruct (C157_proposed_lemma p) as (_ & _ & _ & _ & Hst); [intros x Hx; apply Qclt_le_weak, Pp, Hx | exact Sp |].
      assert (Steps : forall j, j < n -> exists x, (0 < x)%Qc /\ nth (S j) (taus_of p) 0%Qc = (nth j (taus_of p) 0 + x)%Qc /\ nth j (tau_hats_of p) 0%Qc = (nth j (taus_of p) 0 + half * x)%Qc).
      { intros j Hj. assert (Ej : nth_error p j = Some (nth j p 0%Qc)) by (apply nth_error_nth'; lia). destruct (Hst j _ Ej) as (h & A1 & _ & A3 & _ & A5).
        exists (nth j p 0%Qc). split; [apply Pp; eapply nth_error_In; exact Ej|]. split; [exact A3|]. rewrite (nth_error_nth _ _ 0%Qc A1). exact A5. }
      assert (In_nth : forall j, j < n - 1 -> nth j (removelast (tl (taus_of p))) 0%Qc = nth (S j) (taus_of p) 0%Qc).
      { intros j Hj. rewrite nth_removelast, nth_tl; [reflexivity|]. cbn [taus_of tl]. rewrite cumsum_length. lia. }
      destruct half_pos as [hp1 hp2].
      assert (Low : forall j, j < n -> (nth j (taus_of p) 0 < nth j (tau_hats_of p) 0)%Qc /\ (nth j (tau_hats_of p) 0 < nth (S j) (taus_of p) 0)%Qc).
      { intros j Hj. destruct (Steps j Hj) as (x & X1 & X2 & X3). rewrite X2, X3. clear -X1 hp1 hp2. set (t := nth j (taus_of p) 0%Qc). clearbody t. generalize dependent half. intros h hp1 hp2. split; qcnra. }
      assert (Tau : forall j, j < n -> (nth j (taus_of p) 0 < nth (S j) (taus_of p) 0)%Qc).
      { intros j Hj. destruct (Low j Hj) as [A B]. eapply Qclt_trans; eassumption. }
      destruct (C160_gradient_lemma (map z (tau_hats_of p)) (map z (removelast (tl (taus_of p))))) as [G1 G2].
      * rewrite !map_length, Lhat, Lin. lia.
      * intros j q Hj. assert (Hjn : j < n - 1) by (rewrite <- Lin, <- (map_length z); apply nth_error_Some; congruence).
        rewrite nth_error_map, (nth_error_nth' _ 0%Qc) in Hj by lia. cbn [option_map] in Hj. injection Hj as <-. rewrite In_nth by exact Hjn. split.
        -- rewrite firstn1_map by lia. destruct j as [|j]; cbn [app nth].
           ++ apply Hz. exact (proj2 (Low 0 Hn)).
           ++ rewrite nth_removelast by (rewrite map_length, Lin; lia). rewrite nth_mapz by lia.
              rewrite In_nth by lia. apply Hz. apply Tau. lia.
        -- rewrite map_length, Lin. destruct (Nat.lt_ge_cases (S j) (n - 1)) as [Lt | Ge].
           ++ rewrite app_nth1 by (rewrite tl_len, map_length, Lin; lia). rewrite nth_tl.
              rewrite nth_mapz by lia. rewrite In_nth by lia. apply Hz. apply Tau. lia.
           ++ assert (j = n - 2) by lia. rewrite app_nth2 by (rewrite tl_len, map_length, Lin; lia). rewrite tl_len, map_length, Lin, nth_skip.
              replace (n - 1 + (j - (n - 1 - 1))) with (S j) by lia. rewrite nth_mapz by lia.
              apply Hz. apply Low. lia.
      * split; [rewrite G1, map_length; exact Lin|]. intros j Hj. apply G2.
        -- rewrite nth_error_map, (nth_error_nth' _ 0%Qc) by lia. cbn [option_map]. rewrite In_nth by exact Hj. reflexivity.
        -- rewrite nth_error_map, (nth_error_nth' _ 0%Qc) by lia. reflexivity.
        -- rewrite nth_error_map, (nth_error_nth' _ 0%Qc) by lia. reflexivity.
Qed.

(** ** Discrete BCQ *)
(** C236.  The three losses of discrete BCQ are non-negative; the first is zero exactly if the current values of the actions are the targets, the
    penalty exactly if all logits are zero; shifting the logits of a row changes the penalty only. *)
Lemma C236_loss_lemma : forall lsm penalty rows, rows <> [] -> (0 <= penalty)%Qc -> (forall l, length (lsm l) = length l) -> (forall l x, In x (lsm l) -> (x <= 0)%Qc) ->
  (forall r, In r rows -> d_act r < length (d_q r) /\ d_act r < length (d_logits r)) ->
  (0 <= dbcq_q_loss rows)%Qc /\ (0 <= dbcq_i_loss lsm rows)%Qc /\ (0 <= dbcq_reg rows)%Qc
  /\ dbcq_loss lsm penalty rows = (dbcq_q_loss rows + dbcq_i_loss lsm rows + penalty * dbcq_reg rows)%Qc /\ (0 <= dbcq_loss lsm penalty rows)%Qc
  /\ (dbcq_q_loss rows = 0%Qc <-> forall r, In r rows -> nth_error (d_q r) (d_act r) = Some (d_target r))
  /\ (dbcq_reg rows = 0%Qc <-> forall r x, In r rows -> In x (d_logits r) -> x = 0%Qc)
  /\ (forall k, (forall l, lsm (map (fun x => (x + k)%Qc) l) = lsm l) ->
        let rows' := map (fun r => mkD (d_q r) (map (fun x => (x + k)%Qc) (d_logits r)) (d_act r) (d_target r)) rows in
        dbcq_q_loss rows' = dbcq_q_loss rows /\ dbcq_i_loss lsm rows' = dbcq_i_loss lsm rows).
Proof.
  intros lsm penalty rows Hne Hpen Hlen Hneg Hact.
  destruct (mean_nonneg (map (fun r => huber (nth (d_act r) (d_q r) 0 - d_target r)%Qc) rows)) as [Q1 Q2].
  { intros x Hx. apply in_map_iff in Hx. destruct Hx as (r & <- & _). apply huber_facts. }
  { destruct rows; [contradiction|discriminate]. }
  destruct (mean_nonneg (map (fun r => (- nth (d_act r) (lsm (d_logits r)) 0)%Qc) rows)) as [I1 _].
  { intros x Hx. apply in_map_iff in Hx. destruct Hx as (r & <- & Hr). destruct (Hact r Hr) as [_ H]. assert (G : In (nth (d_act r) (lsm (d_logits r)) 0%Qc) (lsm (d_logits r))) by (apply nth_In; rewrite Hlen; exact H).
    specialize (Hneg _ _ G). qclra. }
  { destruct rows; [contradiction|discriminate]. }
  destruct (mean_nonneg (map (fun x => (x * x)%Qc) (concat (map d_logits rows)))) as [R1 R2].
  { intros x Hx. apply in_map_iff in Hx. destruct Hx as (y & <- & _). qcnra. }
  { destruct rows as [|r rows]; [contradiction|]. destruct (Hact r (or_introl eq_refl)) as [_ H]. cbn [map concat]. destruct (d_logits r); [cbn in H; lia|]. discriminate. }
  fold (dbcq_q_loss rows) in Q1, Q2. fold (dbcq_i_loss lsm rows) in I1. fold (dbcq_reg rows) in R1, R2.
  split; [exact Q1|]. split; [exact I1|]. split; [exact R1|]. split; [reflexivity|]. split; [|split; [|split]].
  - unfold dbcq_loss. assert (P : (0 <= penalty * dbcq_reg rows)%Qc) by (clear -Hpen R1; set (x := dbcq_reg rows) in *; clearbody x; qcnra).
    clear -Q1 I1 P. set (x := dbcq_q_loss rows) in *. set (y := dbcq_i_loss lsm rows) in *. set (z := (penalty * dbcq_reg rows)%Qc) in *. clearbody x y z. qclra.
  - rewrite Q2. split.
    + intros H r Hr. destruct (Hact r Hr) as [A _]. assert (Z : huber (nth (d_act r) (d_q r) 0 - d_target r)%Qc = 0%Qc) by (apply H; apply (in_map (fun r => huber (nth (d_act r) (d_q r) 0 - d_target r)%Qc)); exact Hr).
      destruct (huber_facts (nth (d_act r) (d_q r) 0 - d_target r)%Qc) as (_ & E & _). apply E in Z. rewrite (nth_error_nth' _ 0%Qc A). f_equal.
      transitivity (nth (d_act r) (d_q r) 0 - d_target r + d_target r)%Qc; [ring | rewrite Z; ring].
    + intros H x Hx. apply in_map_iff in Hx. destruct Hx as (r & <- & Hr). rewrite (nth_error_nth _ _ 0%Qc (H r Hr)). apply huber_facts. ring.
  - rewrite R2. split.
    + intros H r x Hr Hx. assert (Z : (x * x)%Qc = 0%Qc) by (apply H; apply (in_map (fun x => (x * x)%Qc)); apply in_concat; exists (d_logits r); split; [apply in_map; exact Hr | exact Hx]).
      destruct (Qcmult_integral _ _ Z); assumption.
    + intros H x Hx. apply in_map_iff in Hx. destruct Hx as (y & <- & Hy). apply in_concat in Hy. destruct Hy as (l & Hl & Hy). apply in_map_iff in Hl. destruct Hl as (r & <- & Hr).
      rewrite (H r y Hr Hy). ring.
  - intros k Hk rows'. unfold rows', dbcq_q_loss, dbcq_i_loss. rewrite !map_map. split; [reflexivity|]. f_equal. apply map_ext. intro r. cbn [d_act d_logits]. rewrite Hk. reflexivity.
Qed.
(** C236.  The imitator is given the state that the Q-network returned for the same observation, not the one from before: for all networks. *)
Lemma C236_imitator_state_refuted_lemma : (forall (Ob H : Type) (q_net imitator : Ob -> option H -> list Qc * H) o s,
    snd (fst (dbcq_outputs q_net imitator o s)) = fst (imitator o (Some (snd (q_net o s)))))
  /\ exists (q_net imitator : nat -> option nat -> list Qc * nat) o s, snd (fst (dbcq_outputs q_net imitator o (Some s))) <> fst (imitator o (Some s)).
Proof.
  split.
  - intros Ob H q im o s. unfold dbcq_outputs. destruct (q o s) as [v s']. cbn [snd fst]. destruct (im o (Some s')). reflexivity.
  - exists (fun _ s => ([0%Qc], match s with Some n => S n | None => 0 end)), (fun _ s => ([match s with Some 0 => 1%Qc | _ => 0%Qc end], 0)), 0, 0. cbn. intro E. injection E as E. discriminate E.
Qed.
(** C236.  With a Q-network whose state stays the same, or an imitator without state, both see the same. *)
Lemma C236_stateless_partial_lemma : forall (Ob H : Type) (q_net imitator : Ob -> option H -> list Qc * H) o s,
  snd (q_net o (Some s)) = s \/ (forall s s', imitator o s = imitator o s') ->
  dbcq_outputs q_net imitator o (Some s) = (fst (q_net o (Some s)), fst (imitator o (Some s)), snd (q_net o (Some s))).
Proof.
  intros Ob H q im o s [E | E]; unfold dbcq_outputs; destruct (q o (Some s)) as [v s'] eqn:Eq; cbn [snd fst] in *.
  - subst s'. destruct (im o (Some s)) as [l s2]. reflexivity.
  - rewrite (E (Some s') (Some s)). destruct (im o (Some s)) as [l s2]. reflexivity.
Qed.

(** C237.  The greedy action of every branch of branching DQN has the highest value of this branch. *)
Lemma C237_greedy_partial_lemma : forall q mask i rows k row, nth_error q i = Some rows -> nth_error rows k = Some row -> row <> [] ->
  exists acts a v, nth_error (bdq_greedy q mask) i = Some acts /\ nth_error acts k = Some a /\ nth_error row a = Some v /\ forall x, In x row -> (x <= v)%Qc.
Proof.
  intros q mask i rows k row H1 H2 H3. destruct (argmax_spec row H3) as (v & Hv & Hb). exists (map argmax rows), (argmax row), v.
  split; [unfold bdq_greedy; rewrite nth_error_map, H1; reflexivity|]. split; [rewrite nth_error_map, H2; reflexivity|]. split; assumption.
Qed.
(** C237.  A mask is not looked at: the greedy actions are the same for all masks, so a forbidden one can be taken. *)
Lemma C237_mask_refuted_lemma : (forall q mask, bdq_greedy q mask = bdq_greedy q None)
  /\ exists q mask acts a, bdq_greedy q (Some mask) = [acts] /\ nth_error acts 0 = Some a /\ mask = [[true; false]] /\ nth_error [true; false] a = Some false.
Proof. split; [reflexivity|]. exists [[[0%Qc; 1%Qc]]], [[true; false]], [1], 1. repeat split. Qed.

(** ** Recurrent critic *)
Section RecC.
Context {X H : Type}.
Variables (cell : X -> H -> list Qc * H).
Lemma rc_run_length xs : forall s, length (rc_run cell xs s) = length xs.
Proof. induction xs as [|x xs IH]; intro s; [reflexivity|]. cbn. destruct (cell x s) as [o s']. cbn. rewrite IH. reflexivity. Qed.
Lemma rc_run_app xs ys : forall s, rc_run cell (xs ++ ys) s = rc_run cell xs s ++ rc_run cell ys (fold_left (fun s x => snd (cell x s)) xs s).
Proof. induction xs as [|x xs IH]; intro s; [reflexivity|]. cbn. destruct (cell x s) as [o s']. cbn. rewrite IH. reflexivity. Qed.
End RecC.
(** C238.  The value of a row is computed from the state after its earlier frames, started at zero, from its last frame and its action; rows do
    not influence each other, and what happened before the first frame plays no role. *)
Lemma C238_value_lemma : forall (X H : Type) (cell : X -> H -> list Qc * H) zero fc2 rows acts, (forall r, In r rows -> r <> []) -> length acts = length rows ->
  exists vs ws, rec_critic cell zero fc2 (inr rows) None = Ok vs /\ rec_critic cell zero fc2 (inr rows) (Some acts) = Ok ws /\ length vs = length rows /\ length ws = length rows
    /\ forall i frames x a, nth_error rows i = Some (frames ++ [x]) -> nth_error acts i = Some a ->
         let o := fst (cell x (fold_left (fun s x => snd (cell x s)) frames zero)) in
         nth_error vs i = Some (fc2 o) /\ nth_error ws i = Some (fc2 (o ++ a)).
Proof.
  intros X H cell zero fc2 rows acts Hr Hl.
  assert (Hf : forallb (fun r : list X => negb (length r =? 0)) rows = true).
  { apply forallb_forall. intros r Hin. specialize (Hr r Hin). destruct r; [contradiction|reflexivity]. }
  exists (map fc2 (map (fun r => last (rc_run cell r zero) []) rows)), (map (fun x : list Qc * list Qc => fc2 (fst x ++ snd x)) (combine (map (fun r => last (rc_run cell r zero) []) rows) acts)).
  split; [unfold rec_critic; rewrite Hf; reflexivity|]. split; [unfold rec_critic; rewrite Hf, Hl, Nat.eqb_refl; reflexivity|].
  split; [rewrite !map_length; reflexivity|]. split; [rewrite map_length, combine_length, map_length; lia|].
  intros i frames x a Hi Ha o. assert (E : last (rc_run cell (frames ++ [x]) zero) [] = o).
  { rewrite rc_run_app. cbn [rc_run]. unfold o. destruct (cell x (fold_left (fun s x => snd (cell x s)) frames zero)) as [y s']. cbn [fst]. apply last_last. }
  split; [rewrite !nth_error_map, Hi; cbn [option_map]; rewrite E; reflexivity|].
  rewrite nth_error_map, nth_error_combine, nth_error_map, Hi, Ha. cbn [option_map fst snd]. rewrite E. reflexivity.
Qed.
(** C238.  Single frames, which the recurrent actors accept, are refused. *)
Lemma C238_single_frame_refuted_lemma : forall (X H : Type) (cell : X -> H -> list Qc * H) zero fc2 obs act, rec_critic cell zero fc2 (inl obs) act = Err AssertionError.
Proof. reflexivity. Qed.
