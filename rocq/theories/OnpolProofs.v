(** * Proofs about the on-policy learners *)
From Verif Require Import Py PyLemmas Num SplitModel SplitProofs StatModel StatProofs ReturnsModel ReturnsProofs OnpolModel.
From Coq Require Import Permutation.
Open Scope nat_scope.

Lemma minb_spec (x y : Qc) : ((x <= y)%Qc /\ Qcminb x y = x) \/ ((y < x)%Qc /\ Qcminb x y = y).
Proof. unfold Qcminb. destruct (Qcleb_spec x y); auto. Qed.
Lemma maxb_spec (x y : Qc) : ((x <= y)%Qc /\ Qcmaxb x y = y) \/ ((y < x)%Qc /\ Qcmaxb x y = x).
Proof. unfold Qcmaxb. destruct (Qcleb_spec x y); auto. Qed.
Ltac flat x := lazymatch x with context [Qcminb] => fail | context [Qcmaxb] => fail | _ => idtac end.
Ltac mm := repeat match goal with
  | |- context [Qcminb ?a ?b] => flat a; flat b; let E := fresh in destruct (minb_spec a b) as [[? E] | [? E]]; rewrite E in *; clear E
  | |- context [Qcmaxb ?a ?b] => flat a; flat b; let E := fresh in destruct (maxb_spec a b) as [[? E] | [? E]]; rewrite E in *; clear E
  end.

Lemma min_scale x y a : (0 <= a)%Qc -> Qcminb (x * a) (y * a) = (a * Qcminb x y)%Qc.
Proof.
  intro Ha. unfold Qcminb. destruct (Qcleb_spec (x * a) (y * a)) as [H | H], (Qcleb_spec x y) as [H' | H']; try ring.
  - assert (0 <= a * (x - y))%Qc by qcnra. qcify. nra.
  - exfalso. assert (0 <= a * (y - x))%Qc by qcnra. qcify. nra.
Qed.
Lemma max_scale x y a : (0 <= a)%Qc -> Qcmaxb (x * a) (y * a) = (a * Qcmaxb x y)%Qc.
Proof.
  intro Ha. unfold Qcmaxb. destruct (Qcleb_spec (x * a) (y * a)) as [H | H], (Qcleb_spec x y) as [H' | H']; try ring.
  - assert (0 <= a * (x - y))%Qc by qcnra. qcify. nra.
  - exfalso. assert (0 <= a * (y - x))%Qc by qcnra. qcify. nra.
Qed.
Lemma min_opp x y : Qcminb (- x) (- y) = (- Qcmaxb x y)%Qc.
Proof. mm; qclra. Qed.
Lemma max_opp x y : Qcmaxb (- x) (- y) = (- Qcminb x y)%Qc.
Proof. mm; qclra. Qed.
Lemma min_scale_neg x y a : (a < 0)%Qc -> Qcminb (x * a) (y * a) = (a * Qcmaxb x y)%Qc.
Proof.
  intro Ha. replace (x * a)%Qc with (- (x * - a))%Qc by ring. replace (y * a)%Qc with (- (y * - a))%Qc by ring.
  rewrite min_opp, max_scale by qclra. ring.
Qed.
Lemma max_scale_neg x y a : (a < 0)%Qc -> Qcmaxb (x * a) (y * a) = (a * Qcminb x y)%Qc.
Proof.
  intro Ha. replace (x * a)%Qc with (- (x * - a))%Qc by ring. replace (y * a)%Qc with (- (y * - a))%Qc by ring.
  rewrite max_opp, min_scale by qclra. ring.
Qed.

(** C135.  Without dual clipping, one entry of the objective is the advantage times the ratio clipped
    from one side only: from above for a non-negative, from below for a negative advantage. *)
Lemma C135_clip_lemma : forall eps r a, (0 <= eps)%Qc ->
  ((0 <= a)%Qc -> ppo_objective eps None r a = (a * Qcminb r (1 + eps))%Qc)
  /\ ((a < 0)%Qc -> ppo_objective eps None r a = (a * Qcmaxb r (1 - eps))%Qc).
Proof.
  intros eps r a He. unfold ppo_objective, clampb. split; intro Ha.
  - rewrite min_scale by exact Ha. f_equal. mm; qclra.
  - rewrite min_scale_neg by exact Ha. f_equal. mm; qclra.
Qed.

(** C135.  With dual clipping, for a negative advantage the ratio is clipped from above as well, by
    the constant [c]; a non-negative advantage is treated as before. *)
Lemma C135_dual_lemma : forall eps c r a, (0 <= eps)%Qc -> (1 < c)%Qc ->
  ((0 <= a)%Qc -> ppo_objective eps (Some c) r a = (a * Qcminb r (1 + eps))%Qc)
  /\ ((a < 0)%Qc -> ppo_objective eps (Some c) r a = (a * Qcminb c (Qcmaxb r (1 - eps)))%Qc).
Proof.
  intros eps c r a He Hc. split; intro Ha.
  - rewrite <- (proj1 (C135_clip_lemma eps r a He) Ha). unfold ppo_objective.
    destruct (Qcltb_spec a 0); [exfalso; qclra | reflexivity].
  - pose proof (proj2 (C135_clip_lemma eps r a He) Ha) as E. unfold ppo_objective in *.
    destruct (Qcltb_spec a 0); [| exfalso; qclra]. rewrite E. clear E.
    rewrite (Qcmult_comm a (Qcmaxb _ _)), max_scale_neg by assumption. f_equal. mm; qclra.
Qed.

(** C135.  The objective is a lower bound of ratio * advantage unless the dual clip acts; at ratio 1
    (the weights with which the data were processed) it is the advantage itself; between 1 - eps and
    1 + eps (with dual clipping also at most [c]) it is ratio * advantage; for non-negative ratios
    dual clipping bounds it from below by [c] times a negative advantage. *)
Lemma C135_bounds_lemma : forall eps dual r a, (0 <= eps)%Qc -> (forall c, dual = Some c -> (1 < c)%Qc) ->
  (dual = None \/ (0 <= a)%Qc -> (ppo_objective eps dual r a <= r * a)%Qc)
  /\ ppo_objective eps dual 1 a = a
  /\ ((1 - eps <= r)%Qc -> (r <= 1 + eps)%Qc -> (forall c, dual = Some c -> (r <= c)%Qc) -> ppo_objective eps dual r a = (r * a)%Qc)
  /\ (forall c, dual = Some c -> (a < 0)%Qc -> (c * a <= ppo_objective eps dual r a)%Qc).
Proof.
  intros eps dual r a He Hd.
  assert (S1 : forall x, (0 <= a)%Qc -> ppo_objective eps dual x a = (a * Qcminb x (1 + eps))%Qc).
  { intros x Ha. destruct dual as [c|]; [apply C135_dual_lemma; auto | apply C135_clip_lemma; auto]. }
  assert (S2 : forall x, (a < 0)%Qc -> ppo_objective eps dual x a
                = (a * match dual with Some c => Qcminb c (Qcmaxb x (1 - eps)) | None => Qcmaxb x (1 - eps) end)%Qc).
  { intros x Ha. destruct dual as [c|]; [apply C135_dual_lemma; auto | apply C135_clip_lemma; auto]. }
  destruct (Qcleb_spec 0 a) as [Ha | Ha].
  - rewrite !S1 by exact Ha. repeat split.
    + intros _. mm; qcnra.
    + mm; try qcnra.
    + intros H1 H2 _. mm; qcnra.
    + intros c _ H. exfalso. qclra.
  - rewrite !S2 by exact Ha. destruct dual as [c|].
    + specialize (Hd c eq_refl). repeat split.
      * intros [H | H]; [discriminate | exfalso; qclra].
      * mm; try qcnra; exfalso; qclra.
      * intros H1 H2 H3. specialize (H3 c eq_refl). mm; try qcnra; exfalso; qclra.
      * intros c' E _. injection E as <-. mm; qcnra.
    + repeat split.
      * intros _. mm; qcnra.
      * mm; try qcnra; exfalso; qclra.
      * intros H1 H2 _. mm; try qcnra; exfalso; qclra.
      * intros c' E. discriminate E.
Qed.

(** C135.  The loss is minus the mean of the objectives of the rows: minimising it maximises them.
    At ratio 1 in every row it is minus the mean advantage. *)
Lemma C135_loss_lemma : forall eps dual rows, rows <> [] ->
  (ppo_clip_loss eps dual rows * sq (length rows) + qsum (map (fun x => ppo_objective eps dual (fst x) (snd x)) rows) = 0)%Qc
  /\ ((0 <= eps)%Qc -> (forall c, dual = Some c -> (1 < c)%Qc) -> (forall x, In x rows -> fst x = 1%Qc) ->
     (ppo_clip_loss eps dual rows * sq (length rows) + qsum (map snd rows) = 0)%Qc).
Proof.
  intros eps dual rows Hne.
  assert (E : (ppo_clip_loss eps dual rows * sq (length rows) + qsum (map (fun x => ppo_objective eps dual (fst x) (snd x)) rows) = 0)%Qc).
  { assert (Hn : sq (length rows) <> 0%Qc) by (apply sq_neq; destruct rows; [congruence | cbn; lia]).
    unfold ppo_clip_loss, np_mean. rewrite map_length. unfold Qcdiv.
    set (q := qsum _). set (n := sq (length rows)) in *.
    assert (H : (/ n * n = 1)%Qc) by (rewrite Qcmult_comm; apply Qcmult_inv_r; exact Hn).
    transitivity (q - q * (/ n * n))%Qc; [ring | rewrite H; ring]. }
  split; [exact E|]. intros He Hd H1.
  replace (map snd rows) with (map (fun x => ppo_objective eps dual (fst x) (snd x)) rows); [exact E|].
  apply map_ext_in. intros x Hx. rewrite (H1 x Hx). apply (C135_bounds_lemma eps dual 1 (snd x) He Hd).
Qed.

(** C135.  Refuted for dual clipping in general: the constructor only asks for [c > 1], and when
    [c < 1 + eps] the dual clip already acts inside the interval of the ordinary clipping. *)
Lemma C135_inside_refuted_lemma : exists eps c r a, (0 < eps)%Qc /\ (1 < c)%Qc /\ (1 - eps <= r)%Qc /\ (r <= 1 + eps)%Qc
  /\ ppo_objective eps None r a = (r * a)%Qc /\ ppo_objective eps (Some c) r a <> (r * a)%Qc.
Proof.
  exists (Q2Qc (1#2)), (Q2Qc (6#5)), (Q2Qc (7#5)), (Q2Qc (-1#1)).
  repeat split; try (vm_compute; congruence).
Qed.

(** C136.  Value clipping: the clipped value is within [eps_clip] of the old one; the loss is never
    smaller than without clipping, and it is the same as long as the value has moved by at most
    [eps_clip]. *)
Lemma C136_value_lemma : forall eps v_old ret value, (0 <= eps)%Qc ->
  (- eps <= v_clip eps v_old value - v_old)%Qc /\ (v_clip eps v_old value - v_old <= eps)%Qc
  /\ (ppo_vf false eps v_old ret value <= ppo_vf true eps v_old ret value)%Qc
  /\ ((- eps <= value - v_old)%Qc -> (value - v_old <= eps)%Qc ->
      ppo_vf true eps v_old ret value = ppo_vf false eps v_old ret value).
Proof.
  intros eps v r x He. unfold ppo_vf.
  assert (B : (- eps <= v_clip eps v x - v)%Qc /\ (v_clip eps v x - v <= eps)%Qc).
  { unfold v_clip, clampb. mm; split; qclra. }
  repeat split; try apply B.
  - set (y := sqr (r - v_clip eps v x)). clearbody y. mm; qclra.
  - intros H1 H2. assert (v_clip eps v x = x) as -> by (unfold v_clip, clampb; mm; qclra).
    mm; reflexivity.
Qed.

(** ** Normalisation of the advantages *)
Lemma qsum_map_sub (l : list Qc) m : qsum (map (fun a => (a - m)%Qc) l) = (qsum l - sq (length l) * m)%Qc.
Proof.
  induction l as [|x l IH]; [vm_compute; reflexivity|]. cbn [map qsum length]. rewrite IH, sq_S. ring.
Qed.
Lemma qsum_map_div (l : list Qc) d : qsum (map (fun a => (a / d)%Qc) l) = (qsum l / d)%Qc.
Proof.
  unfold Qcdiv. induction l as [|x l IH]; cbn [map qsum]; [ring | rewrite IH; ring].
Qed.
Lemma np_mean_shift l k : l <> [] -> np_mean (map (fun a => (a + k)%Qc) l) = (np_mean l + k)%Qc.
Proof.
  intro Hl. unfold np_mean. rewrite map_length.
  assert (E : qsum (map (fun a => (a + k)%Qc) l) = (qsum l + sq (length l) * k)%Qc).
  { clear. induction l as [|x l IH]; [vm_compute; reflexivity|]. cbn [map qsum length]. rewrite IH, sq_S. ring. }
  rewrite E. field. apply sq_neq. destruct l; [congruence | cbn; lia].
Qed.

(** C137.  Normalised advantages (of at least two rows) sum to zero, keep their order, and do not
    change when the same number is added to all advantages. *)
Lemma C137_normalised_lemma : forall sqrt eps adv, (forall x, 0 <= sqrt x)%Qc -> (0 < eps)%Qc -> 2 <= length adv ->
  exists l, norm_adv sqrt eps adv = Some l /\ length l = length adv /\ qsum l = 0%Qc
    /\ (forall i j a b x y, nth_error adv i = Some a -> nth_error adv j = Some b ->
          nth_error l i = Some x -> nth_error l j = Some y -> ((a < b)%Qc <-> (x < y)%Qc))
    /\ (forall k, norm_adv sqrt eps (map (fun a => (a + k)%Qc) adv) = Some l).
Proof.
  intros sqrt eps adv Hs He Hn.
  assert (N : forall l, 2 <= length l -> norm_adv sqrt eps l
            = Some (map (fun a => ((a - np_mean l) / (sqrt (qsum (map (fun a => sqr (a - np_mean l)) l) / sq (length l - 1)) + eps))%Qc) l)).
  { intros [|x [|y l]] H; [cbn in H; lia | cbn in H; lia | reflexivity]. }
  rewrite N by exact Hn. eexists. split; [reflexivity|].
  set (d' := (sqrt _ + eps)%Qc). remember d' as d eqn:Ed'. pose proof (eq_sym Ed') as Ed.
  assert (Hd : (0 < d)%Qc) by (rewrite Ed'; unfold d'; specialize (Hs (qsum (map (fun a => sqr (a - np_mean adv)) adv) / sq (length adv - 1))%Qc); qclra).
  assert (Hne : adv <> []) by (destruct adv; [cbn in Hn; lia | discriminate]).
  assert (Hl : sq (length adv) <> 0%Qc) by (apply sq_neq; lia).
  assert (Hd0 : d <> 0%Qc) by (intro E; rewrite E in Hd; revert Hd; apply Qcle_not_lt; apply Qcle_refl).
  split; [now rewrite map_length|]. split; [|split].
  - rewrite <- (map_map (fun a => (a - np_mean adv)%Qc) (fun a => (a / d)%Qc)), qsum_map_div, qsum_map_sub.
    unfold np_mean. field. split; assumption.
  - intros i j a b x y Ha Hb Hx Hy. rewrite nth_error_map, Ha in Hx. rewrite nth_error_map, Hb in Hy.
    injection Hx as <-. injection Hy as <-.
    assert (D : (d * / d = 1)%Qc) by (apply Qcmult_inv_r; assumption).
    assert (P : (0 < / d)%Qc) by (destruct (Qcleb_spec (/ d) 0); [exfalso; qcnra | assumption]).
    set (m := np_mean adv). clearbody m. unfold Qcdiv. set (e := (/ d)%Qc) in *. clearbody e. clear - P.
    split; intro H; qcnra.
  - intros k. rewrite N by (rewrite map_length; exact Hn). rewrite map_length, map_map, np_mean_shift by exact Hne.
    f_equal. rewrite map_map.
    assert (E : map (fun x => sqr (x + k - (np_mean adv + k))) adv = map (fun a => sqr (a - np_mean adv)) adv).
    { apply map_ext. intros x. f_equal. ring. }
    rewrite E. fold d'. rewrite Ed. apply map_ext. intros x. f_equal. ring.
Qed.

(** ** Minibatches *)
Lemma pick_app {X} (l : list X) c d : pick l (c ++ d) = pick l c ++ pick l d.
Proof. unfold pick. apply flat_map_app. Qed.
Lemma pick_concat {X} (l : list X) cs : pick l (concat cs) = concat (map (pick l) cs).
Proof. induction cs as [|c cs IH]; [reflexivity|]. cbn [concat map]. now rewrite pick_app, IH. Qed.
Lemma pick_seq {X} (l : list X) : pick l (seq 0 (length l)) = l.
Proof.
  assert (G : forall pre post : list X, pick (pre ++ post) (seq (length pre) (length post)) = post).
  { intros pre post. revert pre. induction post as [|x post IH]; intros pre; [reflexivity|].
    cbn [length seq]. unfold pick in *. cbn [flat_map].
    rewrite nth_error_app2, Nat.sub_diag by lia. cbn [nth_error app]. f_equal.
    specialize (IH (pre ++ [x])). rewrite <- app_assoc in IH. cbn [app] in IH.
    rewrite app_length in IH. cbn [length] in IH. rewrite Nat.add_1_r in IH. exact IH. }
  apply (G [] l).
Qed.
Lemma pick_perm {X} (l : list X) c : Permutation c (seq 0 (length l)) -> Permutation (pick l c) l.
Proof. intro H. rewrite <- (pick_seq l) at 2. unfold pick. now apply Permutation_flat_map. Qed.
Lemma pick_length {X} (l : list X) c : (forall i, In i c -> i < length l) -> length (pick l c) = length c.
Proof.
  induction c as [|i c IH]; intro H; [reflexivity|]. unfold pick in *. cbn [flat_map]. rewrite app_length, IH by (intros; apply H; now right).
  destruct (nth_error l i) eqn:E; [reflexivity|]. apply nth_error_None in E. specialize (H i (or_introl eq_refl)). lia.
Qed.

Definition chunks (n size : nat) : nat := Nat.max 1 (n / size).

Lemma split_good n (size : nat) shuffle : 1 <= size -> 1 <= n ->
  (forall perm, shuffle = Some perm -> Permutation perm (seq 0 n)) ->
  exists cs, SplitModel.split n (Z.of_nat size) shuffle true = Ok cs
    /\ concat cs = match shuffle with Some perm => perm | None => seq 0 n end
    /\ Permutation (concat cs) (seq 0 n)
    /\ length cs = chunks n size
    /\ Forall (fun c => Nat.min n size <= length c) cs.
Proof.
  intros Hs Hn Hp. destruct (C18_split_lemma n size shuffle true Hs Hp) as (cs & E & P & C & _ & H).
  destruct (H ltac:(lia)) as (init & c & -> & F & _ & M & L). specialize (M eq_refl).
  exists (init ++ [c]). split; [exact E|]. split; [exact C|]. split; [exact P|].
  assert (Hi : length (concat init) = length init * size).
  { clear - F. induction F as [|x l Hx F IH]; [reflexivity|]. cbn [concat length]. rewrite app_length, IH, Hx. lia. }
  assert (Len : length (concat (init ++ [c])) = n) by (rewrite (Permutation_length P), seq_length; reflexivity).
  rewrite concat_app, app_length, Hi in Len. cbn [concat] in Len. rewrite app_nil_r in Len.
  destruct (Nat.lt_ge_cases n size) as [Hlt | Hge].
  - specialize (L Hlt). assert (init = []) as -> by (destruct init as [|? [|]]; [reflexivity | discriminate | discriminate]).
    split.
    + unfold chunks. rewrite Nat.div_small by exact Hlt. reflexivity.
    + repeat constructor. cbn in Len. lia.
  - specialize (M Hge). split.
    + rewrite app_length. cbn [length]. unfold chunks.
      assert (n / size = length init + 1) as ->.
      { symmetry. apply (Nat.div_unique n size (length init + 1) (length c - size)); [lia|].
        rewrite <- Len. rewrite Nat.mul_add_distr_l. rewrite (Nat.mul_comm size). lia. }
      lia.
    + apply Forall_app. split; [| repeat constructor; lia].
      eapply Forall_impl; [| exact F]. cbn. intros; lia.
Qed.

(** C137.  With at least two rows and a batch size of at least two (or none given), no minibatch has
    less than two rows, so normalised advantages are always defined. *)
Lemma C137_rows_lemma : forall sqrt eps (adv : list Qc) batch_size perm cs, 2 <= length adv ->
  (forall n, batch_size = Some n -> (2 <= n)%Z) -> Permutation perm (seq 0 (length adv)) ->
  SplitModel.split (length adv) (split_size batch_size) (Some perm) true = Ok cs ->
  forall c, In c cs -> norm_adv sqrt eps (pick adv c) <> None.
Proof.
  intros sqrt eps adv bs perm cs Hn Hb Hp E c Hc.
  assert (Z : exists size : nat, split_size bs = Z.of_nat size /\ 2 <= size \/ split_size bs = (-1)%Z).
  { destruct bs as [n|]; [| exists 0; now right]. specialize (Hb n eq_refl). exists (Z.to_nat n). left.
    unfold split_size. destruct (n =? 0)%Z eqn:En; lia. }
  assert (G : exists size : nat, 2 <= size /\ SplitModel.split (length adv) (Z.of_nat size) (Some perm) true = Ok cs).
  { destruct Z as [size [[Es Hs] | Es]].
    - exists size. rewrite <- Es. auto.
    - exists (length adv). split; [exact Hn|]. rewrite <- E, Es. unfold SplitModel.split.
      replace (Z.of_nat (length adv) =? -1)%Z with false by lia. reflexivity. }
  destruct G as (size & Hs & E').
  destruct (split_good (length adv) size (Some perm) ltac:(lia) ltac:(lia)) as (cs' & E2 & C & P & _ & F).
  { intros q Hq. injection Hq as <-. exact Hp. }
  rewrite E' in E2. injection E2 as <-.
  rewrite Forall_forall in F. specialize (F c Hc).
  assert (L : length (pick adv c) = length c).
  { apply pick_length. intros i Hi. assert (In i (concat cs)) by (apply in_concat; eauto).
    apply (Permutation_in _ P) in H. apply in_seq in H. lia. }
  unfold norm_adv. destruct (pick adv c) as [|x [|y l]]; [cbn in L; lia | cbn in L; lia | discriminate].
Qed.

(** C137.  Refuted in general: with a batch size of 1, or if a single row was collected, the
    normalised advantages are NaN. *)
Lemma C137_nan_refuted_lemma : forall sqrt eps (adv : list Qc) perm, Permutation perm (seq 0 (length adv)) ->
  (exists cs, SplitModel.split (length adv) 1 (Some perm) true = Ok cs /\ length cs = length adv
     /\ forall c, In c cs -> norm_adv sqrt eps (pick adv c) = None)
  /\ (length adv = 1 -> exists cs, SplitModel.split 1 (split_size None) (Some perm) true = Ok cs
     /\ forall c, In c cs -> norm_adv sqrt eps (pick adv c) = None).
Proof.
  intros sqrt eps adv perm Hp.
  assert (One : forall n size cs, n = length adv -> SplitModel.split n size (Some perm) true = Ok cs -> (forall c, In c cs -> length c <= 1) ->
                Permutation (concat cs) (seq 0 (length adv)) ->
                forall c, In c cs -> norm_adv sqrt eps (pick adv c) = None).
  { intros n size cs -> E L P c Hc. specialize (L c Hc).
    assert (L' : length (pick adv c) = length c).
    { apply pick_length. intros i Hi. assert (In i (concat cs)) by (apply in_concat; eauto).
      apply (Permutation_in _ P) in H. apply in_seq in H. lia. }
    destruct (pick adv c) as [|x [|y l]]; [reflexivity | reflexivity | cbn in L'; lia]. }
  split.
  - destruct (C18_split_lemma (length adv) 1 (Some perm) true ltac:(lia)) as (cs & E & P & C & H0 & H).
    { intros q Hq. injection Hq as <-. exact Hp. }
    exists cs. split; [exact E|].
    destruct (Nat.eq_dec (length adv) 0) as [Z | Z].
    + rewrite (H0 Z), Z. split; [reflexivity|]. intros c [].
    + destruct (H ltac:(lia)) as (init & c & -> & F & _ & M & _). specialize (M eq_refl ltac:(lia)).
      assert (F' : forall d, In d (init ++ [c]) -> length d = 1).
      { intros d Hd. apply in_app_iff in Hd. destruct Hd as [Hd | [<- | []]]; [| lia].
        rewrite Forall_forall in F. now apply F. }
      split.
      * assert (Len : length (concat (init ++ [c])) = length (init ++ [c])).
        { clear - F'. induction (init ++ [c]) as [|d l IH]; [reflexivity|]. cbn [concat length]. rewrite app_length, IH by (intros; apply F'; now right).
          rewrite F' by now left. reflexivity. }
        rewrite <- Len, (Permutation_length P), seq_length. reflexivity.
      * apply (One _ _ _ eq_refl E); [| exact P]. intros d Hd. rewrite F' by exact Hd. lia.
  - intro L1. pose proof (C18_sizes_lemma 1 0 (Some perm) true) as [S1 _].
    assert (Lp : length perm = 1) by (rewrite (Permutation_length Hp), seq_length; exact L1).
    exists [perm]. split.
    + cbn [split_size]. apply S1; [lia|]. intros q Hq. now injection Hq as <-.
    + intros c [<- | []]. pose proof (pick_perm adv perm Hp) as Q. apply Permutation_length in Q.
      destruct (pick adv perm) as [|x [|y l]]; [reflexivity | reflexivity | cbn in Q; lia].
Qed.

Section Learn.
Context {Ob A Inf W : Type}.
Variable sqrt : Qc -> Qc.
Variable critic : W -> Ob -> Qc.
Variable log_prob : W -> Ob -> A -> Qc.
Variable opt : W -> list (mrow Ob A) -> W.
Notation compute_returns := (@compute_returns Ob A Inf W sqrt critic).
Notation ppo_process := (@ppo_process Ob A Inf W sqrt critic log_prob).
Notation learn_loop := (@learn_loop Ob A Inf W sqrt critic opt).
Notation ppo_update := (@ppo_update Ob A Inf W sqrt critic log_prob opt).

Lemma learn_plain c b ix (size : nat) rows : c_recompute c = false -> 1 <= size -> rows <> [] ->
  forall perms first p, Forall (fun perm => Permutation perm (seq 0 (length rows))) perms ->
  exists groups, learn_loop c b ix (Z.of_nat size) first perms p rows
      = Ok (mkPol (fold_left opt (concat groups) (p_w p)) (p_rms p), concat groups)
    /\ length groups = length perms
    /\ Forall (fun g => Permutation (concat g) rows /\ length g = chunks (length rows) size
                        /\ Forall (fun mb => Nat.min (length rows) size <= length mb) g) groups.
Proof.
  intros Hr Hs Hne. induction perms as [|perm perms IH]; intros first p F.
  - exists []. cbn. destruct p. repeat split; constructor.
  - inversion F as [|? ? Hp F']; subst. cbn [OnpolModel.learn_loop]. rewrite Hr. cbn [andb bind].
    destruct (split_good (length rows) size (Some perm) Hs) as (cs & E & C & P & L & M).
    { destruct rows; [congruence | cbn; lia]. }
    { intros q Hq. injection Hq as <-. exact Hp. }
    rewrite E. cbn [bind].
    destruct (IH false (mkPol (fold_left opt (map (pick rows) cs) (p_w p)) (p_rms p)) F') as (gs & E2 & L2 & F2).
    rewrite E2. cbn [bind fst snd p_w p_rms].
    exists (map (pick rows) cs :: gs). cbn [concat length]. rewrite fold_left_app. split; [reflexivity|]. split; [lia|].
    constructor; [| exact F2]. split; [|split].
    + rewrite <- pick_concat. apply pick_perm. exact P.
    + rewrite map_length. exact L.
    + apply Forall_map. rewrite Forall_forall in M |- *. intros d Hd. rewrite pick_length; [now apply M|].
      intros i Hi. assert (In i (concat cs)) by (apply in_concat; eauto). apply (Permutation_in _ P) in H. apply in_seq in H. lia.
Qed.
End Learn.

(** C138.  Without recomputation, [learn] makes exactly repeat * max(1, n / batch_size) gradient steps
    (a missing batch size or 0 means one step per repetition); in each repetition every row of the
    batch is in exactly one minibatch, none of them has less than min(n, batch_size) rows, and the
    weights are those of the optimizer run over these minibatches in order. *)
Lemma C138_steps_lemma : forall (Ob A Inf W : Type) sqrt critic (opt : W -> list (mrow Ob A) -> W) c (b : ibuf Ob A Inf) ix
    batch_size perms p rows, c_recompute c = false -> rows <> [] ->
  (forall n, batch_size = Some n -> (0 <= n)%Z) ->
  Forall (fun perm => Permutation perm (seq 0 (length rows))) perms ->
  let n := length rows in
  let size := match batch_size with Some z => if (z =? 0)%Z then n else Z.to_nat z | None => n end in
  exists groups, ppo_learn sqrt critic opt c b ix batch_size perms p rows
      = Ok (mkPol (fold_left opt (concat groups) (p_w p)) (p_rms p), concat groups)
    /\ length (concat groups) = length perms * Nat.max 1 (n / size)
    /\ Forall (fun g => Permutation (concat g) rows /\ length g = Nat.max 1 (n / size)
                        /\ Forall (fun mb => Nat.min n size <= length mb) g) groups
    /\ length groups = length perms.
Proof.
  intros Ob A Inf W sqrt critic opt c b ix bs perms p rows Hr Hne Hb F n size.
  assert (Hn : 1 <= n) by (unfold n; destruct rows; [congruence | cbn; lia]).
  assert (Hs : 1 <= size).
  { unfold size. destruct bs as [z|]; [|exact Hn]. specialize (Hb z eq_refl). destruct (z =? 0)%Z eqn:E; lia. }
  destruct (learn_plain sqrt critic opt c b ix size rows Hr Hs Hne perms true p F) as (gs & E & L & G).
  exists gs. split; [|split; [|split; [exact G | exact L]]].
  - rewrite <- E. unfold ppo_learn, split_size.
    assert (Same : forall first ps q, learn_loop sqrt critic opt c b ix (-1) first ps q rows
                   = learn_loop sqrt critic opt c b ix (Z.of_nat n) first ps q rows).
    { intros first ps. revert first. induction ps as [|pe ps IH]; intros first q; [reflexivity|].
      cbn [learn_loop]. rewrite Hr. cbn [andb bind].
      assert (SplitModel.split (length rows) (-1) (Some pe) true = SplitModel.split (length rows) (Z.of_nat n) (Some pe) true) as ->.
      { fold n. unfold SplitModel.split. replace (Z.of_nat n =? -1)%Z with false by lia. reflexivity. }
      destruct (SplitModel.split _ _ _ _); [|reflexivity]. cbn [bind]. now rewrite IH. }
    unfold size. destruct bs as [z|]; [| apply Same]. specialize (Hb z eq_refl). destruct (z =? 0)%Z eqn:Ez; [apply Same|].
    rewrite Z2Nat.id by lia. reflexivity.
  - rewrite <- L. clear - G. induction G as [|g gs [_ [Lg _]] G IH]; [reflexivity|].
    cbn [concat length]. rewrite app_length, IH, Lg. unfold chunks. rewrite Nat.mul_succ_l. apply Nat.add_comm.
Qed.

(** ** Values *)
Lemma chunked_map {X Y} (f : X -> Y) (l : list X) m : l <> [] -> (1 <= m)%Z -> chunked f m l = Ok (map f l).
Proof.
  intros Hl Hm. unfold chunked. replace m with (Z.of_nat (Z.to_nat m)) by lia.
  assert (H1 : 1 <= Z.to_nat m) by lia. assert (H2 : 1 <= length l) by (destruct l; [congruence | cbn; lia]).
  destruct (split_good (length l) (Z.to_nat m) None H1 H2 ltac:(discriminate)) as (cs & E & C & P & L & _).
  rewrite E. cbn [bind]. destruct cs as [|c0 cs]; [unfold chunks in L; cbn [length] in L; lia|].
  set (cs' := c0 :: cs) in *. f_equal. transitivity (map f (pick l (seq 0 (length l)))); [| now rewrite pick_seq]. rewrite <- C, pick_concat, concat_map, map_map. reflexivity.
Qed.

Lemma chunked_ok {X Y} (f : X -> Y) (l : list X) m r : chunked f m l = Ok r -> r = map f l.
Proof.
  intro H. destruct l as [|x l].
  - exfalso. unfold chunked, SplitModel.split in H. cbn [length] in H.
    destruct (m =? -1)%Z; [discriminate|]. destruct (negb _); discriminate.
  - destruct (Z_lt_le_dec m 1) as [Hlt | Hge].
    + assert (m = (-1)%Z) as ->.
      { destruct (Z.eq_dec m (-1)) as [E | N]; [exact E|]. exfalso. unfold chunked, SplitModel.split in H.
        replace (m =? -1)%Z with false in H by lia. replace (1 <=? m)%Z with false in H by lia. discriminate. }
      assert (E : chunked f (-1) (x :: l) = chunked f (Z.of_nat (length (x :: l))) (x :: l)).
      { unfold chunked. replace (SplitModel.split (length (x :: l)) (-1) None true)
          with (SplitModel.split (length (x :: l)) (Z.of_nat (length (x :: l))) None true); [reflexivity|].
        unfold SplitModel.split. replace (Z.of_nat (length (x :: l)) =? -1)%Z with false by lia. reflexivity. }
      rewrite E, chunked_map in H; [now injection H | discriminate | cbn; lia].
    + rewrite chunked_map in H; [now injection H | discriminate | exact Hge].
Qed.

(** C139.  [max_batchsize] only limits how many rows a network sees at once: values, returns,
    advantages, log probabilities and running statistics do not depend on it, and v_s is the critic's
    value of each observation. *)
Lemma C139_max_batch_lemma : forall (Ob A Inf W : Type) sqrt critic log_prob c c' (p : pol W) (b : ibuf Ob A Inf) rows ix,
  rows <> [] -> (1 <= c_max_batch c)%Z -> (1 <= c_max_batch c')%Z ->
  (c_rew_norm c, c_gamma c, c_lam c, c_eps c) = (c_rew_norm c', c_gamma c', c_lam c', c_eps c') ->
  ppo_process sqrt critic log_prob c p b rows ix = ppo_process sqrt critic log_prob c' p b rows ix
  /\ (forall p' x, compute_returns sqrt critic c p b rows ix = Ok (p', x) ->
        fst (fst x) = map (fun r => critic (p_w p) (o_obs r)) rows /\ p_w p' = p_w p).
Proof.
  intros Ob A Inf W sqrt critic log_prob c c' p b rows ix Hne Hm Hm' E. injection E as E1 E2 E3 E4. split.
  - unfold ppo_process, compute_returns. rewrite !chunked_map by assumption. cbn [bind]. rewrite E1, E2, E3, E4.
    destruct (compute_episodic_return _ _ _ _ _ _ _) as [[ret adv]|e]; [|reflexivity]. cbn [bind].
    destruct (c_rew_norm c').
    + destruct (rms_update _ _); [|reflexivity]. cbn [bind]. rewrite !chunked_map by assumption. reflexivity.
    + cbn [bind]. rewrite !chunked_map by assumption. reflexivity.
  - intros p' x H. unfold compute_returns in H. rewrite !chunked_map in H by assumption. cbn [bind] in H.
    destruct (compute_episodic_return _ _ _ _ _ _ _) as [[ret adv]|e]; [|discriminate]. cbn [bind] in H.
    destruct (c_rew_norm c).
    + destruct (rms_update _ _); [|discriminate]. cbn [bind] in H. injection H as <- <-. split; reflexivity.
    + injection H as <- <-. split; reflexivity.
Qed.

(** ** Returns and advantages *)
Lemma nth_error_combine_inv {X Y} : forall (l : list X) (l' : list Y) i x y,
  nth_error (combine l l') i = Some (x, y) -> nth_error l i = Some x /\ nth_error l' i = Some y.
Proof.
  induction l as [|a l IH]; intros [|b l'] [|i] x y H; cbn in H; try discriminate.
  - injection H as <- <-. split; reflexivity.
  - exact (IH _ _ _ _ H).
Qed.
Lemma gae_len v_s v' rew e g lam : length v_s = length rew -> length v' = length rew -> length e = length rew ->
  length (gae_return v_s v' rew e g lam) = length rew.
Proof.
  intros. unfold gae_return. rewrite gae_loop_length; rewrite !map_length, ?combine_length; lia.
Qed.

Lemma cer_spec {Ob A Inf : Type} (b : ibuf Ob A Inf) batch ix v' v g lam ret adv :
  compute_episodic_return b batch ix (Some v') (Some v) g lam = Ok (ret, adv) ->
  length v = length batch /\ length ix = length batch /\ length adv = length batch
  /\ ret = map (fun x => (fst x + snd x)%Qc) (combine adv v).
Proof.
  intro H. unfold compute_episodic_return in H. cbn zeta in H.
  destruct (value_mask b ix) as [mask|]; [|discriminate]. cbn [bind] in H.
  unfold guard in H at 1. destruct (length v' =? length mask) eqn:E1; [|discriminate]. cbn [bind] in H.
  destruct (ib_unfinished b) as [unf|]; [|discriminate]. cbn [bind] in H.
  unfold guard in H. destruct (_ && _) eqn:E2; [|discriminate]. destruct (length ix =? _) eqn:E3; [|discriminate].
  apply andb_prop in E2. destruct E2 as [E2 E2']. rewrite !map_length in E2, E2', E3.
  apply Nat.eqb_eq in E2, E2', E3.
  injection H as <- <-. rewrite gae_len.
  - rewrite map_length. auto.
  - now rewrite map_length.
  - rewrite !map_length. rewrite map_length in E2. exact E2.
  - rewrite !map_length, combine_length. lia.
Qed.

Section Ret.
Context {Ob A Inf W : Type}.
Variable sqrt : Qc -> Qc.
Variable critic : W -> Ob -> Qc.
Notation compute_returns := (@compute_returns Ob A Inf W sqrt critic).

(* used for C140, C141 *)
Lemma cr_spec c (p p' : pol W) (b : ibuf Ob A Inf) rows ix v ret adv :
  (c_rew_norm c = true -> sqrt (r_var (p_rms p) + c_eps c)%Qc <> 0%Qc) ->
  compute_returns c p b rows ix = Ok (p', (v, ret, adv)) ->
  let scale := if c_rew_norm c then sqrt (r_var (p_rms p) + c_eps c)%Qc else 1%Qc in
  length v = length rows /\ length ret = length rows /\ length adv = length rows /\ length ix = length rows
  /\ (forall i vi ri ai, nth_error v i = Some vi -> nth_error ret i = Some ri -> nth_error adv i = Some ai ->
        (ri * scale = ai + vi * scale)%Qc)
  /\ p_w p' = p_w p
  /\ (if c_rew_norm c then rms_update (p_rms p) (map (fun r => (r * scale)%Qc) ret) = Ok (p_rms p') else p_rms p' = p_rms p).
Proof.
  intros Hsc H. unfold OnpolModel.compute_returns in H.
  destruct (chunked _ _ _) as [v0|]; [|discriminate]. cbn [bind] in H.
  destruct (chunked _ _ _) as [v1|]; [|discriminate]. cbn [bind] in H.
  destruct (compute_episodic_return _ _ _ _ _ _ _) as [[ret0 adv0]|] eqn:E; [|discriminate]. cbn [bind] in H.
  apply cer_spec in E. destruct E as (L1 & L2 & L3 & R). rewrite map_length in *.
  destruct (c_rew_norm c) eqn:N; cbn zeta.
  - specialize (Hsc eq_refl). set (sc := sqrt _) in *. clearbody sc. rewrite map_length in L1.
    destruct (rms_update (p_rms p) ret0) as [r|] eqn:U; [|discriminate]. cbn [bind] in H. injection H as <- <- <- <-.
    assert (L4 : length ret0 = length rows) by (rewrite R, map_length, combine_length, map_length; lia).
    repeat split; rewrite ?map_length; try assumption.
    + intros i vi ri ai H1 H2 H3. rewrite R in H2. rewrite !nth_error_map in H2.
      destruct (nth_error (combine adv0 _) i) as [[x y]|] eqn:C; [|discriminate]. cbn in H2. injection H2 as <-.
      apply nth_error_combine_inv in C. destruct C as [C1 C2]. rewrite nth_error_map, H1 in C2. cbn in C2. injection C2 as <-.
      rewrite H3 in C1. injection C1 as <-. field. exact Hsc.
    + cbn [p_rms]. rewrite <- U. f_equal. rewrite map_map. rewrite <- (map_id ret0) at 2. apply map_ext. intro x. field. exact Hsc.
  - injection H as <- <- <- <-.
    assert (L4 : length ret0 = length rows) by (rewrite R, map_length, combine_length; lia).
    repeat split; try assumption.
    intros i vi ri ai H1 H2 H3. rewrite R in H2. rewrite !nth_error_map in H2.
    destruct (nth_error (combine adv0 _) i) as [[x y]|] eqn:C; [|discriminate]. cbn in H2. injection H2 as <-.
    apply nth_error_combine_inv in C. destruct C as [C1 C2]. rewrite H1 in C2. injection C2 as <-.
    rewrite H3 in C1. injection C1 as <-. cbn [fst snd]. ring.
Qed.
End Ret.

(** C140.  After [process_fn] the returns of every row are its advantage plus its value; with reward
    normalisation (where values and returns are kept divided by the running standard deviation, but
    advantages are not) this holds in units of rewards.  The running statistics are updated with the
    unnormalised returns, the scale is the one before the update. *)
Lemma C140_returns_lemma : forall (Ob A Inf W : Type) sqrt critic log_prob c (p p' : pol W) (b : ibuf Ob A Inf) rows ix rows',
  (forall x, 0 < x -> 0 < sqrt x)%Qc -> (0 < c_eps c)%Qc -> (0 <= r_var (p_rms p))%Qc ->
  ppo_process sqrt critic log_prob c p b rows ix = Ok (p', rows') ->
  let scale := if c_rew_norm c then sqrt (r_var (p_rms p) + c_eps c)%Qc else 1%Qc in
  Forall (fun r => m_ret r * scale = m_adv r + m_v r * scale)%Qc rows'
  /\ p_w p' = p_w p
  /\ (if c_rew_norm c then rms_update (p_rms p) (map (fun r => (m_ret r * scale)%Qc) rows') = Ok (p_rms p') else p_rms p' = p_rms p).
Proof.
  intros Ob A Inf W sqrt critic log_prob c p p' b rows ix rows' Hsq He Hv H scale.
  assert (Hsc : c_rew_norm c = true -> sqrt (r_var (p_rms p) + c_eps c)%Qc <> 0%Qc).
  { intros _ E. assert (X : (0 < sqrt (r_var (p_rms p) + c_eps c))%Qc) by (apply Hsq; qclra).
    rewrite E in X. revert X. apply Qcle_not_lt, Qcle_refl. }
  unfold ppo_process in H. destruct (compute_returns _ _ _ _ _ _ _) as [[p1 [[v ret] adv]]|] eqn:E; [|discriminate].
  cbn [bind] in H. destruct (cr_spec _ _ _ _ _ _ _ _ _ _ _ Hsc E) as (L1 & L2 & L3 & L4 & R & Ew & U). fold scale in R, U.
  destruct (chunked _ _ rows) as [logp|] eqn:C; [|discriminate]. cbn [bind] in H. injection H as <- <-.
  apply chunked_ok in C. assert (Ll : length logp = length rows) by (rewrite C, map_length; reflexivity). clear C E.
  split; [|split; [exact Ew|]].
  - unfold join. apply Forall_forall. intros r Hr. apply in_map_iff in Hr. destruct Hr as ([r0 [v0 [t0 [a0 lp0]]]] & <- & Hr).
    apply In_nth_error in Hr. destruct Hr as [i Hi].
    apply nth_error_combine_inv in Hi. destruct Hi as [_ Hi]. apply nth_error_combine_inv in Hi. destruct Hi as [Hi1 Hi].
    apply nth_error_combine_inv in Hi. destruct Hi as [Hi2 Hi]. apply nth_error_combine_inv in Hi. destruct Hi as [Hi3 _].
    cbn [m_ret m_adv m_v]. eapply R; eassumption.
  - destruct (c_rew_norm c); [|exact U]. rewrite <- U. f_equal.
    assert (X : map m_ret (join rows (v, ret, adv) logp) = ret).
    { unfold join. rewrite map_map. apply nth_error_ext. intro i. rewrite nth_error_map.
      destruct (nth_error (combine rows _) i) as [[r0 [v0 [t0 [a0 lp0]]]]|] eqn:Hi.
      - apply nth_error_combine_inv in Hi. destruct Hi as [_ Hi]. apply nth_error_combine_inv in Hi. destruct Hi as [Hi1 Hi].
        apply nth_error_combine_inv in Hi. destruct Hi as [Hi2 Hi]. cbn. now rewrite Hi2.
      - apply nth_error_None in Hi. rewrite !combine_length in Hi. cbn. symmetry. apply nth_error_None. lia. }
    transitivity (map (fun r => (r * scale)%Qc) (map m_ret (join rows (v, ret, adv) logp))); [symmetry; apply map_map | now rewrite X].
Qed.

(** ** Running statistics over updates *)
Lemma rms_count r l r' : rms_update r l = Ok r' -> r_count r' = r_count r + length l.
Proof. unfold rms_update. destruct (length l =? 0); [discriminate|]. intro H. injection H as <-. reflexivity. Qed.

Lemma join_length {Ob A} (rows : list (orow Ob A)) x logp : length (fst (fst x)) = length rows -> length (snd (fst x)) = length rows ->
  length (snd x) = length rows -> length logp = length rows -> length (join rows x logp) = length rows.
Proof. destruct x as [[v r] a]. cbn. intros. unfold join. rewrite map_length, !combine_length. lia. Qed.

Section Rms.
Context {Ob A Inf W : Type}.
Variable sqrt : Qc -> Qc.
Variable critic : W -> Ob -> Qc.
Variable log_prob : W -> Ob -> A -> Qc.
Variable opt : W -> list (mrow Ob A) -> W.
Notation compute_returns := (@compute_returns Ob A Inf W sqrt critic).
Notation ppo_process := (@ppo_process Ob A Inf W sqrt critic log_prob).
Notation learn_loop := (@learn_loop Ob A Inf W sqrt critic opt).
Notation ppo_update := (@ppo_update Ob A Inf W sqrt critic log_prob opt).

Lemma cr_count c (p p' : pol W) (b : ibuf Ob A Inf) rows ix x : c_rew_norm c = true ->
  compute_returns c p b rows ix = Ok (p', x) ->
  r_count (p_rms p') = r_count (p_rms p) + length rows
  /\ length (fst (fst x)) = length rows /\ length (snd (fst x)) = length rows /\ length (snd x) = length rows.
Proof.
  intros N H. unfold OnpolModel.compute_returns in H.
  destruct (chunked _ _ _) as [v0|]; [|discriminate]. cbn [bind] in H.
  destruct (chunked _ _ _) as [v1|]; [|discriminate]. cbn [bind] in H.
  destruct (compute_episodic_return _ _ _ _ _ _ _) as [[ret0 adv0]|] eqn:E; [|discriminate]. cbn [bind] in H.
  apply cer_spec in E. destruct E as (L1 & L2 & L3 & R). rewrite N in *. rewrite !map_length in *.
  destruct (rms_update (p_rms p) ret0) as [r|] eqn:U; [|discriminate]. cbn [bind] in H. injection H as <- <-.
  assert (L4 : length ret0 = length rows) by (rewrite R, map_length, combine_length, map_length; lia).
  apply rms_count in U. cbn [p_rms fst snd]. rewrite map_length, U, L4. repeat split; assumption.
Qed.

Lemma learn_count c b ix size : c_rew_norm c = true -> forall perms first p rows p' mbs,
  learn_loop c b ix size first perms p rows = Ok (p', mbs) ->
  r_count (p_rms p') = r_count (p_rms p)
    + (if c_recompute c then length perms - (if first then 1 else 0) else 0) * length rows.
Proof.
  intro N. induction perms as [|perm perms IH]; intros first p rows p' mbs H; cbn [OnpolModel.learn_loop] in H.
  - injection H as <- <-. destruct (c_recompute c); cbn; lia.
  - destruct (c_recompute c && negb first) eqn:R.
    + apply andb_prop in R. destruct R as [R F]. destruct first; [discriminate|]. rewrite R in *. cbn [andb negb] in H.
      destruct (compute_returns _ _ _ _ _) as [[p1 x]|] eqn:E; [|discriminate]. cbn [bind fst snd] in H.
      destruct (cr_count _ _ _ _ _ _ _ N E) as (C1 & C2 & C3 & C4). rewrite map_length in *.
      set (rows1 := join _ _ _) in *. assert (Lr : length rows1 = length rows).
      { unfold rows1. rewrite join_length; rewrite ?map_length; auto. }
      clearbody rows1.
      destruct (SplitModel.split _ _ _ _) as [cs|]; [|discriminate]. cbn [bind] in H.
      destruct (learn_loop _ _ _ _ _ _ _ _) as [[p2 m2]|] eqn:E2; [|discriminate]. cbn [bind fst snd] in H. injection H as <- <-.
      apply IH in E2. cbn [p_rms] in E2. rewrite E2, C1, Lr. rewrite !Nat.sub_0_r. cbn [length]. lia.
    + cbn [bind] in H.
      destruct (SplitModel.split _ _ _ _) as [cs|]; [|discriminate]. cbn [bind] in H.
      destruct (learn_loop _ _ _ _ _ _ _ _) as [[p2 m2]|] eqn:E2; [|discriminate]. cbn [bind fst snd] in H. injection H as <- <-.
      apply IH in E2. cbn [p_rms] in E2. rewrite E2. destruct (c_recompute c); [|lia]. destruct first; [|discriminate].
      cbn [length]. rewrite Nat.sub_0_r. replace (S (length perms) - 1) with (length perms) by lia. lia.
Qed.

Lemma update_count c b bs rows ix perms p p' mbs : c_rew_norm c = true ->
  ppo_update c b bs (rows, ix, perms) p = Ok (p', mbs) ->
  r_count (p_rms p') = r_count (p_rms p) + (1 + (if c_recompute c then length perms - 1 else 0)) * length rows.
Proof.
  intros N H. unfold OnpolModel.ppo_update in H.
  destruct (ppo_process _ _ _ _ _) as [[p1 rows1]|] eqn:E; [|discriminate]. cbn [bind fst snd] in H.
  unfold OnpolModel.ppo_process in E. destruct (compute_returns _ _ _ _ _) as [[p0 x]|] eqn:E1; [|discriminate]. cbn [bind] in E.
  destruct (chunked _ _ rows) as [logp|] eqn:C; [|discriminate]. cbn [bind] in E. injection E as <- <-.
  apply chunked_ok in C. destruct (cr_count _ _ _ _ _ _ _ N E1) as (C1 & C2 & C3 & C4).
  apply learn_count in H; [|exact N]. rewrite H, C1, join_length by (rewrite ?C, ?map_length; auto). lia.
Qed.
End Rms.

(** C141.  With reward normalisation and without recomputation, every collected row enters the running
    statistics exactly once, over any sequence of updates. *)
Lemma C141_once_lemma : forall (Ob A Inf W : Type) sqrt critic log_prob opt c (b : ibuf Ob A Inf) bs us (p p' : pol W),
  c_rew_norm c = true -> c_recompute c = false ->
  foldM (fun q u => let* r := ppo_update sqrt critic log_prob opt c b bs u q in Ok (fst r)) us p = Ok p' ->
  r_count (p_rms p') = r_count (p_rms p) + list_sum (map (fun u => length (fst (fst u))) us).
Proof.
  intros Ob A Inf W sqrt critic log_prob opt c b bs us. induction us as [|[[rows ix] perms] us IH]; intros p p' N R H.
  - injection H as <-. cbn. lia.
  - cbn [foldM] in H. destruct (ppo_update _ _ _ _ _ _ _ _ _) as [[q m]|] eqn:E; [|discriminate]. cbn [bind fst] in H.
    apply update_count in E; [|exact N]. rewrite R in E. rewrite (IH _ _ N R H), E. cbn [map fst list_sum fold_right]. unfold list_sum. lia.
Qed.

(** C141.  Refuted with [recompute_advantage]: the returns are recomputed at the start of each further
    repetition and enter the statistics again, so that n rows count as repeat * n samples. *)
Lemma C141_repeat_refuted_lemma : forall (Ob A Inf W : Type) sqrt critic log_prob opt c (b : ibuf Ob A Inf) bs rows ix perms (p p' : pol W) mbs,
  c_rew_norm c = true -> c_recompute c = true -> perms <> [] ->
  ppo_update sqrt critic log_prob opt c b bs (rows, ix, perms) p = Ok (p', mbs) ->
  r_count (p_rms p') = r_count (p_rms p) + length perms * length rows.
Proof.
  intros Ob A Inf W sqrt critic log_prob opt c b bs rows ix perms p p' mbs N R Hp H.
  apply update_count in H; [|exact N]. rewrite R in H. rewrite H. destruct perms; [congruence|].
  cbn [length]. replace (1 + (S (length perms) - 1)) with (S (length perms)) by lia. reflexivity.
Qed.

(** C142.  The Monte Carlo returns of [PGPolicy]: with reward normalisation they are standardised with
    the statistics before the update, which are then updated with the raw returns; every row counts
    once.  Without it they are the raw returns. *)
Lemma C142_pg_lemma : forall (Ob A Inf W : Type) sqrt c (p p' : pol W) (b : ibuf Ob A Inf) rows ix returns,
  (forall x, 0 < x -> 0 < sqrt x)%Qc -> (0 < c_eps c)%Qc -> (0 <= r_var (p_rms p))%Qc ->
  pg_process sqrt c p b rows ix = Ok (p', returns) ->
  exists raw adv, compute_episodic_return b (map (fun r => (o_rew r, o_term r, o_trunc r)) rows) ix
      (Some (map (fun _ => r_mean (p_rms p)) ix)) None (c_gamma c) 1%Qc = Ok (raw, adv)
    /\ (c_rew_norm c = false -> returns = raw /\ p' = p)
    /\ (c_rew_norm c = true ->
         map (fun x => (x * sqrt (r_var (p_rms p) + c_eps c) + r_mean (p_rms p))%Qc) returns = raw
         /\ rms_update (p_rms p) raw = Ok (p_rms p') /\ r_count (p_rms p') = r_count (p_rms p) + length raw).
Proof.
  intros Ob A Inf W sqrt c p p' b rows ix returns Hsq He Hv H. unfold pg_process in H.
  destruct (compute_episodic_return _ _ _ _ _ _ _) as [[raw adv]|]; [|discriminate]. cbn [bind fst] in H.
  exists raw, adv. split; [reflexivity|]. destruct (c_rew_norm c).
  - split; [discriminate|]. intros _. destruct (rms_update _ _) as [r|] eqn:U; [|discriminate]. cbn [bind] in H. injection H as <- <-.
    assert (X : (0 < sqrt (r_var (p_rms p) + c_eps c))%Qc) by (apply Hsq; qclra).
    set (sc := sqrt _) in *. clearbody sc. split; [|split; [reflexivity|]].
    + rewrite map_map. rewrite <- (map_id raw) at 2. apply map_ext. intro x. field.
      intro E. rewrite E in X. revert X. apply Qcle_not_lt, Qcle_refl.
    + cbn [p_rms]. now apply rms_count in U.
  - split; [|discriminate]. intros _. injection H as <- <-. auto.
Qed.
