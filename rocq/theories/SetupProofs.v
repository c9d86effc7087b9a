(** * What surrounds the collection loop: proofs *)
From Verif Require Import Py PyLemmas Num BatchModel BatchSpec BatchProofs BatchStackProofs BatchMainProofs BatchOpsProofs.
From Verif Require Import BufferModel BufferSpec BufferMainProofs ManagerModel ManagerSpec ManagerProofs ManagerMainProofs BufferWalkProofs CachedModel CachedSpec CachedMainProofs PolicyModel PolicyProofs ReturnsModel ReturnsSpec ReturnsProofs.
From Verif Require Import SetupModel SetupSpec.
Open Scope nat_scope.
Open Scope list_scope.

(** ** The batch of infos *)
Definition filled (some : bval) (infos : list bval) : list bval := map (fun b => if is_reserved b then some else b) infos.
Lemma fold_upd_nth (A : Type) (some : A) (ps : list nat) (l : list A) i :
  nth_error (fold_left (fun l i => upd l i some) ps l) i = if in_dec Nat.eq_dec i ps then (if i <? length l then Some some else None) else nth_error l i.
Proof.
  revert l. induction ps as [|p ps IH]; intro l; [reflexivity|]. cbn [fold_left]. rewrite IH, upd_length.
  destruct (in_dec Nat.eq_dec i ps) as [H|H]; destruct (in_dec Nat.eq_dec i (p :: ps)) as [H'|H']; try reflexivity.
  - exfalso. apply H'. now right.
  - destruct H' as [->|H']; [|contradiction]. destruct (i <? length l) eqn:E.
    + apply Nat.ltb_lt in E. now apply nth_error_upd_same.
    + apply Nat.ltb_ge in E. apply nth_error_None. now rewrite upd_length.
  - apply nth_error_upd_other. intros ->. apply H'. now left.
Qed.
Lemma falsy_in infos i : In i (falsy_at infos) <-> nth_error infos i = Some (Node []).
Proof.
  unfold falsy_at. rewrite filter_In, in_seq. split.
  - intros [H E]. destruct (nth_error infos i) as [b|]; [|discriminate]. destruct b as [| [|] |]; try discriminate. reflexivity.
  - intro E. rewrite E. split; [|reflexivity]. assert (i < length infos) by (apply nth_error_Some; congruence). lia.
Qed.
Lemma filled_eq some infos : fold_left (fun l i => upd l i some) (falsy_at infos) infos = filled some infos.
Proof.
  apply nth_error_ext. intro i. rewrite fold_upd_nth. unfold filled. rewrite nth_error_map.
  destruct (in_dec Nat.eq_dec i (falsy_at infos)) as [H|H].
  - apply falsy_in in H. rewrite H. cbn [option_map is_reserved]. assert (i < length infos) as Hl by (apply nth_error_Some; congruence).
    apply Nat.ltb_lt in Hl. now rewrite Hl.
  - destruct (nth_error infos i) as [b|] eqn:E; [|reflexivity]. cbn. destruct b as [| [|] |]; try reflexivity.
    exfalso. apply H. now apply falsy_in.
Qed.
Lemma in_nonempty infos b : In b (nonempty infos) <-> In b infos /\ b <> Node [].
Proof. unfold nonempty. rewrite filter_In. destruct b as [| [|] |]; split; intros [H E]; split; try exact H; try discriminate; try reflexivity. now contradiction E. Qed.
Lemma falsy_count infos : length (falsy_at infos) = length infos -> nonempty infos = [].
Proof.
  intro H. destruct (nonempty infos) as [|b l] eqn:E; [reflexivity|]. exfalso.
  assert (In b (nonempty infos)) as Hb by (rewrite E; now left). apply in_nonempty in Hb as [Hb Hn].
  apply In_nth_error in Hb as [i Hi]. assert (i < length infos) as Hl by (apply nth_error_Some; congruence).
  assert (Hinc : incl (seq 0 (length infos)) (falsy_at infos)).
  { apply NoDup_length_incl; [unfold falsy_at; apply NoDup_filter, seq_NoDup|rewrite seq_length; lia|].
    unfold falsy_at. intros x Hx. now apply filter_In in Hx. }
  assert (In i (falsy_at infos)) as Hf by (apply Hinc, in_seq; lia). apply falsy_in in Hf. congruence.
Qed.
Lemma falsy_all infos : nonempty infos = [] -> length (falsy_at infos) = length infos.
Proof.
  intro H. unfold falsy_at. rewrite filter_true; [apply seq_length|]. intros i Hi. apply in_seq in Hi.
  destruct (nth_error infos i) as [b|] eqn:E; [|apply nth_error_None in E; lia].
  destruct (is_reserved b) eqn:Er; [reflexivity|]. exfalso.
  assert (In b (nonempty infos)) as Hb. { apply in_nonempty. split; [now apply nth_error_In in E|]. intros ->. discriminate. }
  rewrite H in Hb. exact Hb.
Qed.
Lemma in_filled some infos b : In some (nonempty infos) -> (In b (filled some infos) <-> In b (nonempty infos) \/ (b = some /\ True)).
Proof.
  intro Hs. unfold filled. rewrite in_map_iff. split.
  - intros (x & E & Hx). destruct (is_reserved x) eqn:Er; [right; subst; auto|]. left. subst. apply in_nonempty. split; [exact Hx|]. intros ->. discriminate.
  - intros [H|[-> _]].
    + apply in_nonempty in H as [H Hn]. exists b. split; [|exact H]. destruct b as [| [|] |]; try reflexivity. now contradiction Hn.
    + apply in_nonempty in Hs as [H Hn]. exists some. split; [|exact H]. now destruct (is_reserved some).
Qed.
Lemma same_members some infos b : In some (nonempty infos) -> (In b (filled some infos) <-> In b (nonempty infos)).
Proof. intro Hs. rewrite in_filled by exact Hs. split; [intros [H|[-> _]]; assumption|now left]. Qed.
Lemma at_path_cases p (bs : list bval) : (forall b, In b bs -> at_path p b <> Some NoneV) ->
  some_leaf p bs \/ (~ some_leaf p bs /\ exists b l, In b bs /\ at_path p b = Some (Node l)) \/ (forall b, In b bs -> at_path p b = None).
Proof.
  induction bs as [|b bs IH]; intro H; [right; right; intros b []|].
  destruct IH as [(b' & k & a & Hb & E)|[[Hno (b' & l & Hb & E)]|Hall]]; [intros b' Hb'; apply H; now right| | |].
  - left. exists b', k, a. split; [now right|exact E].
  - destruct (at_path p b) as [[k a|l'|]|] eqn:Eb.
    + left. exists b, k, a. split; [now left|exact Eb].
    + right. left. split; [|exists b', l; split; [now right|exact E]]. intros (x & k & a & [<-|Hx] & Ex); [congruence|]. apply Hno. now exists x, k, a.
    + exfalso. apply (H b); [now left|exact Eb].
    + right. left. split; [|exists b', l; split; [now right|exact E]]. intros (x & k & a & [<-|Hx] & Ex); [congruence|]. apply Hno. now exists x, k, a.
  - destruct (at_path p b) as [[k a|l'|]|] eqn:Eb.
    + left. exists b, k, a. split; [now left|exact Eb].
    + right. left. split; [|exists b, l'; split; [now left|exact Eb]]. intros (x & k & a & [<-|Hx] & Ex); [congruence|]. specialize (Hall x Hx). congruence.
    + exfalso. apply (H b); [now left|exact Eb].
    + right. right. intros x [<-|Hx]; [exact Eb|now apply Hall].
Qed.
Lemma at_empty p : p <> [] -> at_path p (Node []) = None.
Proof. destruct p; [contradiction|reflexivity]. Qed.
Lemma selected_nats n ps : (forall i, In i ps -> i < n) -> selected n (IArr (map Z.of_nat ps)) = Some ps.
Proof.
  cbn [selected]. induction ps as [|p ps IH]; intro H; [reflexivity|]. cbn [map fold_right].
  rewrite IH by (intros i Hi; apply H; now right). rewrite pick_nat by (apply H; now left). reflexivity.
Qed.

(** C249.  The batch of infos stacks all infos: row i holds what info number i contains and padding
    where it has nothing, in particular everywhere if it is empty. *)
Lemma C249_info_lemma : forall (ty : list string -> akind * list nat) (infos : list bval),
  (forall b, In b infos -> exists l, b = Node l) ->
  stack_typed ty (nonempty infos) -> uniform_partial (nonempty infos) ->
  (nonempty infos = [] -> info_batch true infos = Ok (Node [])) /\
  (nonempty infos <> [] -> exists r, info_batch true infos = Ok r /\ merged ty (fun p => stack_rows ty p infos) (nonempty infos) r).
Proof.
  intros ty infos Hn Ht Hu. split.
  { intro E. unfold info_batch. cbn [negb]. rewrite falsy_all, Nat.eqb_refl by exact E. reflexivity. }
  intro Hne. unfold info_batch. cbn [negb]. destruct (length (falsy_at infos) =? length infos) eqn:Ef.
  { apply Nat.eqb_eq, falsy_count in Ef. contradiction. }
  destruct (find _ infos) as [some|] eqn:Es.
  2:{ exfalso. apply Hne. destruct (nonempty infos) as [|b l] eqn:E; [reflexivity|]. assert (In b (nonempty infos)) as Hb by (rewrite E; now left).
      apply in_nonempty in Hb as [Hb Hx]. pose proof (find_none _ _ Es b Hb) as E'. cbn in E'. destruct b as [| [|] |]; try discriminate. now contradiction Hx. }
  apply find_some in Es as [Hs Es]. assert (HS : In some (nonempty infos)) by (apply in_nonempty; split; [exact Hs|intros ->; discriminate]).
  rewrite filled_eq. pose proof (same_members some infos) as HM.
  destruct (C19_stack_partial_lemma ty (filled some infos)) as (r & Er & Hd & Hm).
  { unfold filled. intro E. apply map_eq_nil in E. subst. destruct Hs. }
  { intros b Hb. apply (HM b HS) in Hb. destruct (Ht b Hb) as (H1 & H2 & H3 & H4). split; [exact H1|]. split; [exact H2|]. split; [exact H3|].
    intros p k a b' l Hb'. apply (HM b' HS) in Hb'. now apply H4. }
  { intros p b0 b b' q H0 H1 H2. apply (HM _ HS) in H0, H1, H2. now apply Hu. }
  { intros b Hb. apply (HM b HS) in Hb. apply in_nonempty in Hb as [Hb Hx]. destruct (Hn b Hb) as [l ->]. exists l. split; [reflexivity|]. intros ->. now contradiction Hx. }
  rewrite Er. cbn [bind].
  assert (HNone : forall p b, In b (filled some infos) -> at_path p b <> Some NoneV).
  { intros p b Hb. apply (HM b HS) in Hb. destruct (Ht b Hb) as (_ & H2 & _). apply H2. }
  assert (HP : forall p k a, at_path p r = Some (Leaf k a) -> some_leaf p (filled some infos) /\ k = fst (ty p) /\ a = Ar (snd (ty p)) (stack_rows ty p (filled some infos))).
  { intros p k a E. destruct (at_path_cases p (filled some infos) (HNone p)) as [Hl|[[Hl Hx]|Ha]]; destruct (Hm p) as (M1 & M2 & M3).
    - rewrite (M1 Hl) in E. injection E as <- <-. auto.
    - destruct (M2 Hl Hx) as (l' & E' & _). congruence.
    - rewrite (M3 Ha) in E. discriminate. }
  assert (HN : forall p, at_path p r <> Some NoneV).
  { intros p E. destruct (at_path_cases p (filled some infos) (HNone p)) as [Hl|[[Hl Hx]|Ha]]; destruct (Hm p) as (M1 & M2 & M3).
    - rewrite (M1 Hl) in E. discriminate.
    - destruct (M2 Hl Hx) as (l' & E' & _). congruence.
    - rewrite (M3 Ha) in E. discriminate. }
  assert (Hroot : exists l, at_path [] r = Some (Node l)).
  { destruct (Hm []) as (_ & M2 & _). destruct M2 as (l' & E & _); [|destruct (Hn some Hs) as [l El]; exists some, l; split; [apply HM; [exact HS|exact HS]|rewrite El; reflexivity]|now exists l'].
    intros (b & k & a & Hb & E). apply (HM b HS) in Hb. apply in_nonempty in Hb as [Hb _]. destruct (Hn b Hb) as [l ->]. discriminate. }
  set (ps := falsy_at infos).
  assert (Hlt : forall i, In i ps -> i < length infos). { intros i Hi. apply falsy_in in Hi. apply nth_error_Some. congruence. }
  pose proof (selected_nats (length infos) ps Hlt) as Hsel.
  destruct (C20_setitem_lemma r (Node []) (length infos) (IArr (map Z.of_nat ps)) ps Hd Hsel) as (r' & Eb & HB).
  { intro p. destruct (at_path p r) as [[k a|l|]|] eqn:E; try exact Logic.I.
    - destruct (HP p k a E) as (_ & _ & ->). eexists _, _. split; [reflexivity|]. split; [unfold stack_rows, filled; now rewrite !map_length|].
      destruct p as [|s p]; [destruct Hroot as [l El]; congruence|]. rewrite at_empty by discriminate. exact Logic.I.
    - destruct p as [|s p]; [cbn; intros s []|]. rewrite at_empty by discriminate. exact Logic.I.
    - now apply HN in E. }
  rewrite Eb. exists r'. split; [reflexivity|].
  assert (HL : forall p, some_leaf p (nonempty infos) <-> some_leaf p (filled some infos)).
  { intro p. split; intros (b & k & a & Hb & E); exists b, k, a; (split; [apply (HM b HS); exact Hb|exact E]). }
  split.
  { intros p l E. specialize (HB p). destruct (at_path p r) as [[k a|l0|]|] eqn:E0.
    - destruct (HP p k a E0) as (_ & _ & ->). destruct HB as (l' & E' & _). congruence.
    - destruct HB as (l' & E' & Ek). rewrite E in E'. injection E' as <-. rewrite Ek. now apply (Hd p).
    - now apply HN in E0.
    - congruence. }
  intro p. destruct (Hm p) as (M1 & M2 & M3). specialize (HB p). split; [|split].
  - intro Hl. pose proof Hl as Hl'. apply HL in Hl'. rewrite (M1 Hl') in HB. destruct HB as (l' & E & Hlen & Hrow). rewrite E. do 3 f_equal.
    assert (p <> []) as Hp. { intros ->. destruct Hl as (b & k & a & Hb & E'). apply in_nonempty in Hb as [Hb _]. destruct (Hn b Hb) as [l ->]. discriminate. }
    apply nth_error_ext. intro i. assert (length (stack_rows ty p (filled some infos)) = length infos) as Hsl by (unfold stack_rows, filled; now rewrite !map_length).
    destruct (Nat.ltb_spec i (length infos)) as [Hi|Hi].
    + rewrite Hrow by lia. rewrite at_empty by exact Hp. cbn [new_rows]. unfold stack_rows at 2. rewrite nth_error_map.
      destruct (in_dec Nat.eq_dec i ps) as [Hin|Hin].
      * unfold write_at. rewrite find_combine_repeat by exact Hin. apply falsy_in in Hin. rewrite Hin. cbn [option_map snd]. now rewrite at_empty.
      * rewrite not_written by exact Hin. unfold stack_rows, filled. rewrite !nth_error_map.
        destruct (nth_error infos i) as [b|] eqn:Ei; [|apply nth_error_None in Ei; lia]. cbn [option_map].
        destruct b as [k a|[|x l0]|]; try reflexivity. exfalso. apply Hin. now apply falsy_in.
    + rewrite (proj2 (nth_error_None _ _)) by lia. symmetry. apply nth_error_None. unfold stack_rows. rewrite map_length. lia.
  - intros Hl (b & l & Hb & Eb'). destruct M2 as (l' & E & Hk).
    + intro Hx. apply Hl. now apply HL.
    + exists b, l. split; [now apply (HM b HS)|exact Eb'].
    + rewrite E in HB. destruct HB as (l'' & E'' & Ek). exists l''. split; [exact E''|]. intro s. rewrite Ek. rewrite (Hk s).
      split; intros (b0 & l0 & Hb0 & H0); exists b0, l0; (split; [apply (HM b0 HS); exact Hb0|exact H0]).
  - intro Ha. rewrite M3 in HB; [exact HB|]. intros b0 Hb0. apply Ha. now apply (HM b0 HS).
Qed.
(** C249.  An array of infos that has no object dtype is rejected. *)
Lemma C249_dtype_lemma : forall (infos : list bval), info_batch false infos = Err ValueError.
Proof. reflexivity. Qed.

(** ** Standard deviations *)
Lemma expect_eq (g : Qc -> Qc) p : forall s, qsum (map (fun pa : Qc * Qc => (fst pa * g (snd pa))%Qc) (combine p (map (fun k => Q2Qc (inject_Z (Z.of_nat k))) (seq s (length p))))) = expect_from (Z.of_nat s) g p.
Proof.
  induction p as [|x p IH]; intro s; [reflexivity|]. cbn [length seq map combine qsum fst snd expect_from].
  rewrite IH. rewrite Nat2Z.inj_succ. now rewrite <- Z.add_1_r.
Qed.
Lemma cat_mean_eq p : cat_mean p = expect (fun a => a) p.
Proof. apply (expect_eq (fun a => a) p 0). Qed.
Lemma cat_var_eq p : cat_var p = expect (fun a => ((a - expect (fun a => a) p) * (a - expect (fun a => a) p))%Qc) p.
Proof. unfold cat_var. rewrite cat_mean_eq. apply (expect_eq (fun a => ((a - expect (fun a => a) p) * (a - expect (fun a => a) p))%Qc) p 0). Qed.
Lemma expect_lin (a b : Qc) f g p : forall k, expect_from k (fun x => (a * f x + b * g x)%Qc) p = (a * expect_from k f p + b * expect_from k g p)%Qc.
Proof. induction p as [|x p IH]; intro k; cbn [expect_from]; [ring|]. rewrite IH. ring. Qed.
Lemma expect_ext f g p : (forall x, f x = g x) -> forall k, expect_from k f p = expect_from k g p.
Proof. intros H. induction p as [|x p IH]; intro k; cbn [expect_from]; [reflexivity|]. now rewrite IH, H. Qed.
Lemma expect_le f g p k : (forall x, In x p -> (0 <= x)%Qc) -> (forall j, (k <= j < k + Z.of_nat (length p))%Z -> (f (Q2Qc (inject_Z j)) <= g (Q2Qc (inject_Z j)))%Qc) ->
  (expect_from k f p <= expect_from k g p)%Qc.
Proof.
  revert k. induction p as [|x p IH]; intros k Hp H; [apply Qcle_refl|]. cbn [expect_from].
  apply Qcplus_le_compat.
  - rewrite (Qcmult_comm x), (Qcmult_comm x). apply Qcmult_le_compat_r; [apply H; cbn [length]; lia|apply Hp; now left].
  - apply IH; [intros y Hy; apply Hp; now right|]. intros j Hj. apply H. cbn [length]. lia.
Qed.
Lemma square_nonneg (x : Qc) : (0 <= x * x)%Qc.
Proof. qcnra. Qed.
Lemma expect_zero (f : Qc -> Qc) p : forall k, expect_from k (fun _ => 0%Qc) p = 0%Qc.
Proof. induction p as [|x p IH]; intro k; cbn [expect_from]; [reflexivity|]. rewrite IH. ring. Qed.
Lemma var_moments p : is_dist p -> cat_var p = (expect (fun a => (a * a)%Qc) p - expect (fun a => a) p * expect (fun a => a) p)%Qc.
Proof.
  intros [_ H1]. rewrite cat_var_eq. set (m := expect (fun a => a) p) in *.
  transitivity (expect (fun a => (1 * (1 * (a * a) + (- (m + m)) * a) + (m * m) * 1)%Qc) p).
  - apply expect_ext. intro x. ring.
  - unfold expect in *. rewrite expect_lin, (expect_lin 1 (- (m + m)) (fun a => (a * a)%Qc) (fun a => a)), H1. fold m. ring.
Qed.
(** C250.  For a Categorical over the actions 0, 1, ... the square of the reported standard deviation
    is the variance of the action; it is at most ((K - 1) / 2)^2 for K actions. *)
Lemma C250_variance_lemma : forall (p : list Qc), is_dist p ->
  cat_var p = (expect (fun a => (a * a)%Qc) p - expect (fun a => a) p * expect (fun a => a) p)%Qc /\
  (0 <= cat_var p)%Qc /\
  ((1 + 1) * (1 + 1) * cat_var p <= Q2Qc (inject_Z (Z.of_nat (length p) - 1)) * Q2Qc (inject_Z (Z.of_nat (length p) - 1)))%Qc.
Proof.
  intros p Hd. pose proof (var_moments p Hd) as Hv. destruct Hd as [Hp H1]. split; [exact Hv|]. split.
  - rewrite cat_var_eq. unfold expect at 1. rewrite <- (expect_zero (fun _ => 0%Qc) p 0). apply expect_le; [exact Hp|]. intros j _. apply square_nonneg.
  - rewrite Hv. set (K := Q2Qc (inject_Z (Z.of_nat (length p) - 1))).
    assert (H : (expect (fun a => (a * a)%Qc) p <= K * expect (fun a => a) p)%Qc).
    { unfold expect. replace (K * expect_from 0 (fun a => a) p)%Qc with (expect_from 0 (fun a => (K * a + 0 * 0)%Qc) p).
      2:{ rewrite (expect_lin K 0 (fun a => a) (fun _ => 0%Qc)). ring. }
      apply expect_le; [exact Hp|]. intros j Hj. cbv beta.
      replace (K * Q2Qc (inject_Z j) + 0 * 0)%Qc with (K * Q2Qc (inject_Z j))%Qc by ring. apply Qcmult_le_compat_r.
      - unfold K, Qcle. cbn [this Q2Qc]. rewrite !Qred_correct. rewrite <- Zle_Qle. lia.
      - unfold Qcle. cbn [this Q2Qc]. rewrite !Qred_correct. change 0%Q with (inject_Z 0). rewrite <- Zle_Qle. lia. }
    set (M := expect (fun a => a) p) in *. set (S2 := expect (fun a => (a * a)%Qc) p) in *. clearbody K M S2. clear -H. pose proof (square_nonneg (K - (1 + 1) * M)%Qc). qcnra.
Qed.
Lemma expect_single f p : forall k j x, nth_error p j = Some x -> (forall i y, nth_error p i = Some y -> i <> j -> y = 0%Qc) ->
  expect_from k f p = (x * f (Q2Qc (inject_Z (k + Z.of_nat j))))%Qc.
Proof.
  induction p as [|z p IH]; intros k j x Hj Ho; [destruct j; discriminate|]. cbn [expect_from]. destruct j as [|j].
  - injection Hj as ->. rewrite Z.add_0_r. assert (E : expect_from (k + 1) f p = 0%Qc).
    { assert (H0 : forall y, In y p -> y = 0%Qc). { intros y Hy. apply In_nth_error in Hy as [i Hi]. apply (Ho (S i) y Hi). discriminate. }
      clear -H0. generalize (k + 1)%Z. induction p as [|y p IH]; intro k0; [reflexivity|]. cbn [expect_from]. rewrite (H0 y) by now left.
      rewrite IH by (intros w Hw; apply H0; now right). ring. }
    rewrite E. ring.
  - rewrite (Ho 0 z eq_refl) by discriminate. rewrite (IH (k + 1)%Z j x Hj).
    + replace (k + 1 + Z.of_nat j)%Z with (k + Z.of_nat (S j))%Z by lia. ring.
    + intros i y Hi Hn. apply (Ho (S i) y Hi). lia.
Qed.
Lemma expect_terms f p k : (forall x, In x p -> (0 <= x)%Qc) -> (forall a, (0 <= f a)%Qc) -> expect_from k f p = 0%Qc ->
  forall j x, nth_error p j = Some x -> (x * f (Q2Qc (inject_Z (k + Z.of_nat j))) = 0)%Qc.
Proof.
  revert k. induction p as [|z p IH]; intros k Hp Hf E j x Hj; [destruct j; discriminate|]. cbn [expect_from] in E.
  assert (Hz : (0 <= z * f (Q2Qc (inject_Z k)))%Qc) by (assert (0 <= z)%Qc as A by (apply Hp; now left); pose proof (Hf (Q2Qc (inject_Z k))) as B; revert A B; generalize (f (Q2Qc (inject_Z k))); intros w A B; qcnra).
  assert (Hr : (0 <= expect_from (k + 1) f p)%Qc).
  { rewrite <- (expect_zero f p (k + 1)). apply expect_le; [intros y Hy; apply Hp; now right|]. intros; apply Hf. }
  destruct j as [|j].
  - injection Hj as ->. rewrite Z.add_0_r. apply Qcle_antisym; [|exact Hz]. revert E Hz Hr. generalize (x * f (Q2Qc (inject_Z k)))%Qc (expect_from (k + 1) f p). intros a b E Ha Hb. qclra.
  - replace (k + Z.of_nat (S j))%Z with (k + 1 + Z.of_nat j)%Z by lia. apply (IH (k + 1)%Z); try assumption; [intros y Hy; apply Hp; now right|].
    apply Qcle_antisym; [|exact Hr]. revert E Hz Hr. generalize (z * f (Q2Qc (inject_Z k)))%Qc (expect_from (k + 1) f p). intros a b E Ha Hb. qclra.
Qed.
Lemma q_inj i j : Q2Qc (inject_Z i) = Q2Qc (inject_Z j) -> i = j.
Proof.
  intro H. apply (f_equal this) in H. change (Qred (inject_Z i) = Qred (inject_Z j)) in H.
  assert (E : (inject_Z i == inject_Z j)%Q).
  { transitivity (Qred (inject_Z i)); [symmetry; apply Qred_correct|]. rewrite H. apply Qred_correct. }
  now apply inject_Z_injective.
Qed.
(** C250.  It is zero exactly if one action has probability one. *)
Lemma C250_zero_lemma : forall (p : list Qc), is_dist p ->
  (cat_var p = 0%Qc <-> exists j, nth_error p j = Some 1%Qc /\ forall i x, nth_error p i = Some x -> i <> j -> x = 0%Qc).
Proof.
  intros p [Hp H1]. split.
  - intro E. rewrite cat_var_eq in E. set (m := expect (fun a => a) p) in *.
    pose proof (expect_terms (fun a => ((a - m) * (a - m))%Qc) p 0 Hp (fun a => square_nonneg (a - m)%Qc) E) as HT.
    assert (Hex : exists j x, nth_error p j = Some x /\ x <> 0%Qc).
    { destruct (existsb (fun x => negb (Qceqb x 0)) p) eqn:Ex.
      - apply existsb_exists in Ex as (x & Hx & Hn). apply In_nth_error in Hx as [j Hj]. exists j, x. split; [exact Hj|]. intros ->. destruct (Qceqb_spec 0 0); [discriminate|congruence].
      - exfalso. assert (H0 : forall x, In x p -> x = 0%Qc).
        { intros x Hx. destruct (Qceqb_spec x 0) as [e|n]; [exact e|]. exfalso. assert (existsb (fun x => negb (Qceqb x 0)) p = true) as Hc; [|congruence].
          apply existsb_exists. exists x. split; [exact Hx|]. destruct (Qceqb_spec x 0); [contradiction|reflexivity]. }
        assert (Z0 : forall k f, expect_from k f p = 0%Qc). { clear -H0. induction p as [|y p IH]; intros k f; [reflexivity|]. cbn [expect_from]. rewrite (H0 y) by now left. rewrite IH by (intros w Hw; apply H0; now right). ring. }
        unfold expect in H1. rewrite Z0 in H1. discriminate H1. }
    destruct Hex as (j & x & Hj & Hx). pose proof (HT j x Hj) as Tj. cbv beta in Tj.
    assert (Dm : forall i y, nth_error p i = Some y -> y <> 0%Qc -> Q2Qc (inject_Z (0 + Z.of_nat i)) = m).
    { intros i y Hi Hy. pose proof (HT i y Hi) as T. cbv beta in T. apply Qcmult_integral in T as [T|T]; [contradiction|].
      apply Qcmult_integral in T as [T|T]; revert T; generalize (Q2Qc (inject_Z (0 + Z.of_nat i))); intros a T; qclra. }
    assert (Ho : forall i y, nth_error p i = Some y -> i <> j -> y = 0%Qc).
    { intros i y Hi Hn. destruct (Qceqb_spec y 0) as [e|n]; [exact e|]. exfalso. apply Hn.
      assert (E' : Q2Qc (inject_Z (0 + Z.of_nat i)) = Q2Qc (inject_Z (0 + Z.of_nat j))) by (rewrite (Dm i y Hi n), (Dm j x Hj Hx); reflexivity). apply q_inj in E'. lia. }
    exists j. split; [|exact Ho]. unfold expect in H1. rewrite (expect_single (fun _ => 1%Qc) p 0 j x Hj Ho) in H1. rewrite Hj. f_equal. rewrite <- H1. ring.
  - intros (j & Hj & Ho). rewrite cat_var_eq. unfold expect. rewrite (expect_single _ p 0 j 1%Qc Hj Ho), (expect_single (fun a => a) p 0 j 1%Qc Hj Ho). ring.
Qed.
(** C250.  A batch of B distributions gives a column of B values, one for each distribution; a single
    one gives one value and the absence of a distribution none. *)
Lemma C250_shape_lemma : forall (d : cat_dist),
  match d with
  | Unbatched p => stddev_from_dist d = ([1], [cat_var p])
  | Batched ps => fst (stddev_from_dist d) = [length ps; 1] /\ length (snd (stddev_from_dist d)) = length ps /\
      forall i p, nth_error ps i = Some p -> nth_error (snd (stddev_from_dist d)) i = Some (cat_var p)
  | NoDist => snd (stddev_from_dist d) = []
  end.
Proof. intros [p|ps|]; try reflexivity. split; [reflexivity|]. split; [apply map_length|]. intros i p H. cbn. rewrite nth_error_map, H. reflexivity. Qed.

(** ** The hook *)
(** C251.  The hook can be made for discount factors in [0, 1] only; for every episode it returns the
    discounted returns to go and, at every step, the return of the episode. *)
Lemma C251_hook_lemma : forall (gamma : Qc) (rew : list Qc),
  (mc_hook_new gamma = Ok gamma <-> (0 <= gamma)%Qc /\ (gamma <= 1)%Qc) /\
  (~ ((0 <= gamma)%Qc /\ (gamma <= 1)%Qc) -> mc_hook_new gamma = Err ValueError) /\
  (rew <> [] -> exists l full, mc_hook_call gamma rew = Ok (l, full) /\ length l = length rew /\ length full = length rew /\
     (forall t, t < length rew -> nth_error l t = Some (sum_n (length rew - t) (fun k => (gamma ^ k * nth (t + k)%nat rew 0)%Qc))) /\
     (forall t, t < length rew -> nth_error full t = Some (sum_n (length rew) (fun k => (gamma ^ k * nth k rew 0)%Qc)))).
Proof.
  intros gamma rew. unfold mc_hook_new. split; [|split].
  - destruct (Qcleb_spec 0 gamma) as [H|H]; destruct (Qcleb_spec gamma 1) as [H'|H']; cbn; split; try discriminate; try tauto;
      intros [A B]; exfalso; try (apply (Qclt_not_le _ _ H); exact A); try (apply (Qclt_not_le _ _ H'); exact B); tauto.
  - intro Hn. destruct (Qcleb_spec 0 gamma) as [H|H]; destruct (Qcleb_spec gamma 1) as [H'|H']; cbn; try reflexivity. tauto.
  - intro Hne. destruct (C24_return_to_go_lemma rew gamma Hne) as (l & E & Hl & Hv). unfold mc_hook_call. rewrite E. cbn [bind].
    destruct l as [|x l']; [destruct rew; [contradiction|discriminate]|]. exists (x :: l'), (repeat x (length (x :: l'))).
    split; [reflexivity|]. split; [exact Hl|]. split; [now rewrite repeat_length|]. split.
    + intros t Ht. rewrite <- (Hv t Ht). apply nth_error_nth'. now rewrite Hl.
    + intros t Ht. rewrite nth_error_repeat by lia. f_equal. assert (0 < length rew) as H0 by lia. pose proof (Hv 0 H0) as E0. cbn [nth] in E0. rewrite Nat.sub_0_r in E0. exact E0.
Qed.

(** ** Construction *)
Section Runs.
Context {Ob A Inf R : Type}.
Variables (r0 : R) (radd : R -> R -> R) (lf : Ob -> Ob) (o : opts).
Notation step := (list Z * list (trans Ob A Inf R))%type.
Notation madd := (fun m (x : step) => let* y := m_add r0 radd lf o m (Some (fst x)) (snd x) in Ok (fst y)).
Notation cadd := (fun m (x : step) => let* y := c_add r0 radd lf o m (Some (fst x)) (snd x) in Ok (fst y)).
Notation padd := (fun b (x : step) => let* y := add_stacked r0 radd lf o b (fst x) (snd x) in Ok (fst y)).
Lemma run_m l : forall m, (exists m', foldM madd l m = Ok m') <-> exists y, m_run r0 radd lf o m (map (fun x => MAdd (Some (fst x)) (snd x)) l) = Ok y.
Proof.
  induction l as [|x l IH]; intro m; [split; intros _; eexists; reflexivity|]. cbn [foldM map m_run].
  destruct (m_add r0 radd lf o m (Some (fst x)) (snd x)) as [[m1 rs]|e]; cbn [bind fst].
  - rewrite IH. destruct (m_run r0 radd lf o m1 _) as [[m2 out]|e]; cbn [bind]; split; intros [y Hy]; try discriminate; eexists; reflexivity.
  - split; intros [y Hy]; discriminate.
Qed.
Lemma run_c l : forall m, (exists m', foldM cadd l m = Ok m') <-> exists y, c_run r0 radd lf o m (map (fun x => CAdd (Some (fst x)) (snd x)) l) = Ok y.
Proof.
  induction l as [|x l IH]; intro m; [split; intros _; eexists; reflexivity|]. cbn [foldM map c_run].
  destruct (c_add r0 radd lf o m (Some (fst x)) (snd x)) as [[m1 rs]|e]; cbn [bind fst].
  - rewrite IH. destruct (c_run r0 radd lf o m1 _) as [[m2 out]|e]; cbn [bind]; split; intros [y Hy]; try discriminate; eexists; reflexivity.
  - split; intros [y Hy]; discriminate.
Qed.
Lemma one_id (ids : list Z) : ids <> [] -> NoDup ids -> (forall i, In i ids -> (0 <= i < 1)%Z) -> ids = [0%Z].
Proof.
  intros Hne Hd H. destruct ids as [|i [|j ids]]; [contradiction| |].
  - assert (i = 0)%Z by (specialize (H i (or_introl eq_refl)); lia). now subst.
  - exfalso. inversion Hd; subst. apply H2. left. pose proof (H i (or_introl eq_refl)). pose proof (H j (or_intror (or_introl eq_refl))). lia.
Qed.
Lemma run_p n l : 0 < n -> Forall (step_ok 1) l -> forall b q, reach r0 radd lf o n b q -> exists b', foldM padd l b = Ok b'.
Proof.
  intros Hn H. induction H as [|[ids ts] l (Hl & Hne & Hd & Hi) _ IH]; intros b q Hr; [eexists; reflexivity|].
  cbn [fst snd] in *. rewrite (one_id ids Hne Hd Hi) in *. destruct ts as [|t [|? ?]]; try discriminate. cbn [foldM fst snd].
  destruct (C01_add_overwrites_only_oldest_lemma Ob A Inf R r0 radd lf o n b q t Hn Hr) as (b' & i & ret & len & st & E & _).
  unfold add_stacked, check_buffer_ids. cbn [length Nat.eqb negb guard bind]. rewrite E. cbn [bind fst].
  apply (IH b' (push n q [kept lf o t])). now apply (reach_add r0 radd lf o n b q t b' (i, ret, len, st)).
Qed.
Lemma bind_tt (X : Type) (x : res X) : (let* _ := x in Ok tt) = Ok tt <-> exists y, x = Ok y.
Proof. destruct x as [a|e]; cbn; split; intro H; [now exists a|reflexivity|discriminate|destruct H; discriminate]. Qed.
Lemma m_bufs_init ns : length (m_bufs (m_init (Ob := Ob) (A := A) (Inf := Inf) r0 ns)) = length ns.
Proof. unfold m_init. cbn. now rewrite map_length. Qed.
End Runs.

(** C252.  For buffers whose sub-buffers have room: the check at construction accepts a buffer exactly
    if it can take whatever the environments hand over in any number of steps. *)
Lemma C252_validate_lemma : forall (Ob A Inf R : Type) (r0 : R) radd (last_frame : Ob -> Ob) o (t : trans Ob A Inf R) (env_num : nat) (b : cbuf),
  0 < env_num -> roomy b ->
  (validate_buffer env_num b = Ok tt <-> forall l : list (list Z * list (trans Ob A Inf R)), Forall (step_ok env_num) l -> run_adds r0 radd last_frame o b l = Ok tt).
Proof.
  intros Ob A Inf R r0 radd lf o t n b Hn Hb. split.
  - intros Hv l Hl. destruct b as [m|ns|n0 num c]; unfold validate_buffer in Hv; cbn [andb] in Hv; cbn [run_adds].
    + destruct (m =? 0) eqn:E0; [discriminate|]. apply Nat.eqb_neq in E0. destruct (1 <? n) eqn:E1; [discriminate|]. apply Nat.ltb_ge in E1.
      assert (n = 1) as -> by lia. apply bind_tt. apply (run_p r0 radd lf o m l) with (q := []); [lia|exact Hl|constructor].
    + destruct (length ns <? n) eqn:E; [discriminate|]. apply Nat.ltb_ge in E. apply bind_tt. apply run_m. apply C08_total_lemma; [exact Hb|].
      apply Forall_map. revert Hl. apply Forall_impl. intros [ids ts] (H1 & H2 & _ & H4). cbn. split; [exact H1|]. split; [exact H2|]. intros i Hi. apply H4 in Hi. lia.
    + destruct (S num <? n); [discriminate|]. destruct (num <? n) eqn:E; [discriminate|]. apply Nat.ltb_ge in E. destruct Hb as (B1 & B2 & B3).
      pose proof (C12_cached_buffer_lemma Ob A Inf R r0 radd lf o n0 num c (map (fun x => CAdd (Some (fst x)) (snd x)) l) B1 B2 B3) as HC.
      destruct (c_spec _ _ _ _ _ _ _ _ _) as [st reports]. destruct HC as (m0 & m & E0 & Er & _).
      { apply Forall_map. revert Hl. apply Forall_impl. intros [ids ts] (H1 & H2 & H3 & H4). cbn. split; [exact H1|]. split; [exact H2|]. split; [exact H3|]. intros i Hi. apply H4 in Hi. lia. }
      rewrite E0. cbn [bind]. apply bind_tt. apply run_c. eauto.
  - intro H. destruct b as [m|ns|n0 num c]; unfold validate_buffer; cbn [andb].
    + destruct (m =? 0) eqn:E0.
      { apply Nat.eqb_eq in E0. subst m. specialize (H [([0%Z], [t])]). exfalso. cbn in H. discriminate H. constructor; [|constructor].
        split; [reflexivity|]. split; [discriminate|]. split; [repeat constructor; intros []|]. intros i [<-|[]]. lia. }
      destruct (1 <? n) eqn:E1; [|reflexivity]. apply Nat.ltb_lt in E1. exfalso. specialize (H [([0%Z; 1%Z], [t; t])]). cbn in H. discriminate H. constructor; [|constructor].
      split; [reflexivity|]. split; [discriminate|]. split; [repeat constructor; cbn; intuition discriminate|]. intros i [<-|[<-|[]]]; lia.
    + destruct (length ns <? n) eqn:E; [|reflexivity]. apply Nat.ltb_lt in E. exfalso. specialize (H [([Z.of_nat (length ns)], [t])]).
      cbn [run_adds] in H. rewrite bind_tt in H. rewrite run_m in H. rewrite C08_total_lemma in H by exact Hb.
      assert (HF : Forall (mop_ok (length ns)) (map (fun x : list Z * list (trans Ob A Inf R) => MAdd (Some (fst x)) (snd x)) [([Z.of_nat (length ns)], [t])])).
      { apply H. constructor; [|constructor]. split; [reflexivity|]. split; [discriminate|]. split; [repeat constructor; intros []|]. intros i [<-|[]]. lia. }
      inversion HF as [|? ? HO _]; subst. cbn in HO. destruct HO as (_ & _ & HO). specialize (HO _ (or_introl eq_refl)). lia.
    + assert (Hc : num <? n = false).
      { destruct (num <? n) eqn:E; [|reflexivity]. apply Nat.ltb_lt in E. exfalso. specialize (H [([Z.of_nat num], [t])]).
        assert (HS : Forall (step_ok n) [([Z.of_nat num], [t])]).
        { constructor; [|constructor]. split; [reflexivity|]. split; [discriminate|]. split; [repeat constructor; intros []|]. intros i [<-|[]]. lia. }
        apply H in HS. destruct Hb as (B1 & B2 & B3). cbn [run_adds] in HS. unfold c_init in HS. apply Nat.ltb_lt in B2, B3. rewrite B2, B3 in HS. cbn [guard bind] in HS.
        apply (proj1 (bind_tt _ _)) in HS as [y Hy]. cbn [foldM fst snd] in Hy. unfold c_add, m_add in Hy. cbn [map length Nat.leb guard combine add_loop] in Hy.
        rewrite m_bufs_init in Hy. cbn [length] in Hy. rewrite repeat_length in Hy. unfold norm_index in Hy.
        replace ((0 <=? Z.of_nat num + 1)%Z && (Z.of_nat num + 1 <? Z.of_nat (S num))%Z) with false in Hy by lia.
        replace ((- Z.of_nat (S num) <=? Z.of_nat num + 1)%Z && (Z.of_nat num + 1 <? 0)%Z) with false in Hy by lia.
        discriminate Hy. }
      rewrite Hc. apply Nat.ltb_ge in Hc. destruct (S num <? n) eqn:E; [|reflexivity]. apply Nat.ltb_lt in E. lia.
Qed.
(** C252.  Sub-buffers of size zero pass the check although nothing can be added: a plain buffer of
    size zero is rejected, VectorReplayBuffer(0, n) is not. *)
Lemma C252_zero_refuted_lemma : forall (Ob A Inf R : Type) (r0 : R) radd (last_frame : Ob -> Ob) o (env_num : nat), 0 < env_num ->
  validate_buffer env_num (Plain 0) = Err ValueError /\
  exists ns, vec_sizes 0 env_num = Ok ns /\ validate_buffer env_num (Managed ns) = Ok tt /\
    forall x : list Z * list (trans Ob A Inf R), step_ok env_num x -> run_adds r0 radd last_frame o (Managed ns) [x] = Err ZeroDivisionError.
Proof.
  intros Ob A Inf R r0 radd lf o n Hn. split; [reflexivity|]. exists (repeat 0 n). split; [|split].
  - unfold vec_sizes. apply Nat.ltb_lt in Hn. rewrite Hn. cbn [guard]. do 2 f_equal. apply Nat.div_small. apply Nat.ltb_lt in Hn. lia.
  - unfold validate_buffer. rewrite repeat_length. cbn [andb]. replace (n <? n) with false by (symmetry; apply Nat.ltb_irrefl). reflexivity.
  - intros [ids ts] (Hl & Hne & _ & Hi). cbn [fst snd] in *. destruct ids as [|i ids]; [contradiction|]. destruct ts as [|t ts]; [discriminate|].
    cbn [run_adds foldM fst snd]. unfold m_add. rewrite Hl, Nat.leb_refl. cbn [guard combine add_loop]. rewrite m_bufs_init, repeat_length.
    pose proof (Hi i (or_introl eq_refl)) as Hr. unfold norm_index. replace ((0 <=? i)%Z && (i <? Z.of_nat n)%Z) with true by lia. cbn [bind].
    unfold m_init at 1. cbn [m_bufs]. rewrite nth_error_map, nth_error_repeat by lia. cbn [option_map]. reflexivity.
Qed.

(** C253.  With a buffer size greater than zero the collectors of an experiment can be created; the
    training collector adds noise, has the configured settings and room for buffer_size transitions
    (less than one more for every environment), the test collector adds no noise and has the default
    room for every environment; both buffers take whatever their environments hand over. *)
Lemma C253_collectors_lemma : forall (Ob A Inf R : Type) (r0 : R) radd (last_frame : Ob -> Ob) o (t : trans Ob A Inf R)
    (dflt buffer_size n_train n_test : nat) (cfg : bset_) (reset : bool),
  0 < dflt -> 0 < buffer_size -> 0 < n_train -> 0 < n_test ->
  exists train test, create_collectors dflt buffer_size n_train n_test cfg reset = Ok (train, test) /\
    co_noise train = true /\ co_noise test = false /\ co_opts train = cfg /\ co_reset train = reset /\ co_reset test = reset /\
    buffer_size <= capacity (co_buffer train) < buffer_size + n_train /\ capacity (co_buffer test) = dflt * n_test /\
    (forall l : list (list Z * list (trans Ob A Inf R)), Forall (step_ok n_train) l -> run_adds r0 radd last_frame o (co_buffer train) l = Ok tt) /\
    (forall l : list (list Z * list (trans Ob A Inf R)), Forall (step_ok n_test) l -> run_adds r0 radd last_frame o (co_buffer test) l = Ok tt).
Proof.
  intros Ob A Inf R r0 radd lf o t dflt bs ntr nte cfg reset Hd Hb Htr Hte.
  assert (HS : forall x k, list_sum (repeat x k) = k * x) by (intros x k; induction k as [|k IH]; [reflexivity|]; cbn [repeat]; change (list_sum (x :: repeat x k)) with (x + list_sum (repeat x k)); rewrite IH; reflexivity).
  assert (Hrep : forall x n, 0 < x -> roomy (Managed (repeat x n))) by (intros x n Hx y Hy; apply repeat_spec in Hy; now subst).
  assert (Hval : forall x n, validate_buffer n (Managed (repeat x n)) = Ok tt).
  { intros x n. unfold validate_buffer. rewrite repeat_length. cbn [andb]. now rewrite Nat.ltb_irrefl. }
  assert (Htest : base_init dflt nte None = Ok (Managed (repeat dflt nte))).
  { unfold base_init, vec_sizes. pose proof Hte as Hte'. apply Nat.ltb_lt in Hte'. rewrite Hte'. cbn [guard bind].
    replace ((dflt * nte + nte - 1) / nte) with dflt; [now rewrite Hval|]. apply (Nat.div_unique _ _ _ (nte - 1)); lia. }
  set (q := (bs + ntr - 1) / ntr).
  assert (Hq : bs <= ntr * q < bs + ntr).
  { pose proof (Nat.div_mod (bs + ntr - 1) ntr ltac:(lia)) as E. pose proof (Nat.mod_upper_bound (bs + ntr - 1) ntr ltac:(lia)) as U. fold q in E.
    set (w := ntr * q) in *. set (v := (bs + ntr - 1) mod ntr) in *. clearbody w v. lia. }
  set (bt := if 1 <? ntr then Managed (repeat q ntr) else Plain bs).
  assert (Hbt : validate_buffer ntr bt = Ok tt /\ roomy bt /\ bs <= capacity bt < bs + ntr).
  { unfold bt. destruct (1 <? ntr) eqn:E.
    - split; [apply Hval|]. split; [|unfold capacity; rewrite HS; exact Hq]. apply Hrep. destruct q; [rewrite Nat.mul_0_r in Hq; lia|lia].
    - split; [|split; [exact Logic.I|cbn; lia]]. unfold validate_buffer. cbn [andb]. apply Nat.eqb_neq in Hb as Hb' || idtac. destruct (bs =? 0) eqn:E0; [apply Nat.eqb_eq in E0; lia|]. now rewrite E. }
  destruct Hbt as (V & Rm & C).
  assert (Htrain : (let* b := if 1 <? ntr then let* ns := vec_sizes bs ntr in Ok (Managed ns) else Ok (Plain bs) in base_init dflt ntr (Some b)) = Ok bt).
  { revert V. unfold bt. destruct (1 <? ntr) eqn:E; intro V.
    - unfold vec_sizes. pose proof Htr as Htr'. apply Nat.ltb_lt in Htr'. rewrite Htr'. cbn [guard bind]. unfold base_init. cbn [bind]. fold q. now rewrite V.
    - cbn [bind]. unfold base_init. cbn [bind]. now rewrite V. }
  exists (mkColl bt cfg true reset), (mkColl (Managed (repeat dflt nte)) (mkBset 1 false false) false reset).
  split.
  { unfold create_collectors. revert Htrain. generalize bt. clear -Htest. intros bt. destruct (1 <? ntr); [destruct (vec_sizes bs ntr) as [ns|e]|]; cbn [bind]; intro Htrain; try discriminate;
      rewrite Htrain; cbn [bind]; rewrite Htest; reflexivity. }
  cbn [co_noise co_opts co_reset co_buffer]. do 5 (split; [reflexivity|]). split; [exact C|]. split; [unfold capacity; rewrite HS; apply Nat.mul_comm|]. split.
  - now apply (proj1 (C252_validate_lemma Ob A Inf R r0 radd lf o t ntr bt Htr Rm)).
  - now apply (proj1 (C252_validate_lemma Ob A Inf R r0 radd lf o t nte (Managed (repeat dflt nte)) Hte (Hrep dflt nte Hd))).
Qed.
(** C253.  A buffer size of zero is rejected for one training environment, but not for several. *)
Lemma C253_zero_refuted_lemma : forall (dflt n_train n_test : nat) (cfg : bset_) (reset : bool), 0 < n_test ->
  create_collectors dflt 0 1 n_test cfg reset = Err ValueError /\
  (1 < n_train -> exists train test, create_collectors dflt 0 n_train n_test cfg reset = Ok (train, test) /\ capacity (co_buffer train) = 0).
Proof.
  intros dflt ntr nte cfg reset Hte. split; [reflexivity|]. intro Htr. unfold create_collectors.
  pose proof Htr as Htr'. apply Nat.ltb_lt in Htr'. rewrite Htr'. unfold vec_sizes at 1. replace (0 <? ntr) with true by (symmetry; apply Nat.ltb_lt; lia).
  cbn [guard bind]. replace ((0 + ntr - 1) / ntr) with 0 by (symmetry; apply Nat.div_small; lia). unfold base_init at 1. cbn [bind].
  unfold validate_buffer at 1. rewrite repeat_length, Nat.ltb_irrefl. cbn [andb bind].
  unfold base_init, vec_sizes. replace (0 <? nte) with true by (symmetry; apply Nat.ltb_lt; lia). cbn [guard bind].
  unfold validate_buffer. rewrite repeat_length, Nat.ltb_irrefl. cbn [andb bind]. do 2 eexists. split; [reflexivity|]. cbn [co_buffer capacity].
  clear. induction ntr as [|n IH]; [reflexivity|exact IH].
Qed.

(** ** Actions *)
Section ActProofs.
Context {Ob P H D S : Type}.
Variables (tanh atanh : Qc -> Qc) (eps : Qc) (is_box : bool) (m : bound_method) (scaling : bool) (low high : list Qc).
Variable policy : Ob -> bval -> option H -> res (pout P H D).
Variable noise : list (list Qc) -> Ob -> bval -> list (list Qc).
Variable sample : S -> nat -> list Qc.
Notation compute := (compute_action tanh atanh eps is_box m scaling low high policy noise sample).
Lemma act_policy explore sp ids obs obj infos hidden c : compute explore false sp ids obs obj infos hidden = Ok c ->
  exists info r, info_batch obj infos = Ok info /\ policy obs info hidden = Ok r /\
    c_act c = (if explore then noise (po_act r) obs info else po_act r) /\
    map_action tanh is_box m scaling low high (c_act c) = Ok (c_norm c) /\
    c_hidden c = po_state r /\ snd (c_policy c) = po_state r /\ c_dist c = po_dist r /\
    po_policy r = match po_policy r with None => None | Some _ => Some (fst (c_policy c)) end /\ (po_policy r = None -> fst (c_policy c) = None).
Proof.
  unfold compute_action. destruct (info_batch obj infos) as [info|e]; [|discriminate]. cbn [bind]. destruct (policy obs info hidden) as [r|e] eqn:Er; [|discriminate]. cbn [bind].
  destruct (map_action _ _ _ _ _ _ _) as [norm|e] eqn:En; [|discriminate]. cbn [bind].
  destruct (po_policy r) as [[p|]|] eqn:Ep; cbn [bind]; intro E; try discriminate; injection E as <-; exists info, r; cbn; rewrite Ep; repeat split; try assumption; discriminate.
Qed.
Lemma samples_nth sp ids l : sample_all sample sp ids = Ok l -> length l = length ids /\
  forall j i, nth_error ids j = Some i -> exists s, (match sp with Each ss => nth_error ss i = Some s | Single s' => s = s' end) /\ nth_error l j = Some (sample s j).
Proof.
  destruct sp as [ss|s]; cbn [sample_all].
  - intro E. pose proof (mapM_length _ _ _ E) as Hl. rewrite combine_length, seq_length, Nat.min_id in Hl. split; [exact Hl|]. intros j i Hj.
    assert (Hc : nth_error (combine (seq 0 (length ids)) ids) j = Some (j, i)).
    { assert (j < length ids) as Hlt by (apply nth_error_Some; congruence). clear -Hj Hlt. assert (G : forall s k, nth_error ids k = Some i -> nth_error (combine (seq s (length ids)) ids) k = Some (s + k, i)).
      { clear. induction ids as [|x ids IH]; intros s k Hk; [destruct k; discriminate|]. destruct k; cbn in *; [injection Hk as ->; now rewrite Nat.add_0_r|]. rewrite (IH (Datatypes.S s) k Hk). do 2 f_equal. lia. }
      apply (G 0 j Hj). }
    destruct (mapM_nth _ _ _ _ _ E Hc) as (y & Hy & Ey). cbn [fst snd] in Ey. destruct (nth_error ss i) as [s|] eqn:Es; [|discriminate]. injection Ey as <-. exists s. auto.
  - intros [= <-]. rewrite map_length, seq_length. split; [reflexivity|]. intros j i Hj. exists s. split; [reflexivity|].
    assert (j < length ids) as Hlt by (apply nth_error_Some; congruence). rewrite nth_error_map_seq. apply Nat.ltb_lt in Hlt. rewrite Hlt. reflexivity.
Qed.
End ActProofs.

(** C254.  Actions of the policy: what is executed is the image of what is stored, the noise is added
    to what is stored, the hidden state is returned and saved with the transition. *)
Lemma C254_policy_lemma : forall (Ob P H D S : Type) tanh atanh eps is_box m scaling low high (policy : Ob -> bval -> option H -> res (pout P H D)) noise (sample : S -> nat -> list Qc)
    explore sp ids obs obj infos hidden c,
  compute_action tanh atanh eps is_box m scaling low high policy noise sample explore false sp ids obs obj infos hidden = Ok c ->
  exists info r, info_batch obj infos = Ok info /\ policy obs info hidden = Ok r /\
    c_act c = (if explore then noise (po_act r) obs info else po_act r) /\
    map_action tanh is_box m scaling low high (c_act c) = Ok (c_norm c) /\
    c_hidden c = po_state r /\ snd (c_policy c) = po_state r /\ c_dist c = po_dist r /\
    po_policy r = match po_policy r with None => None | Some _ => Some (fst (c_policy c)) end /\ (po_policy r = None -> fst (c_policy c) = None).
Proof. intros Ob P H D S tanh atanh eps is_box m scaling low high policy noise sample explore sp ids obs obj infos hidden c. apply act_policy. Qed.
(** C254 (restricted: the actions can be mapped back, in particular no clipping without scaling).
    Random actions: what is executed are samples from the action spaces of the environments in
    question and what is stored is mapped to it; policy, observations, infos and hidden states are
    not used. *)
Lemma C254_random_partial_lemma : forall (Ob P H D S : Type) tanh atanh eps is_box m scaling low high (policy : Ob -> bval -> option H -> res (pout P H D)) noise (sample : S -> nat -> list Qc)
    explore sp ids obs obj infos hidden c,
  compute_action tanh atanh eps is_box m scaling low high policy noise sample explore true sp ids obs obj infos hidden = Ok c ->
  length (c_norm c) = length ids /\
  (forall j i, nth_error ids j = Some i -> exists s, (match sp with Each ss => nth_error ss i = Some s | Single s' => s = s' end) /\ nth_error (c_norm c) j = Some (sample s j)) /\
  (reachable_actions eps is_box m scaling low high (c_norm c) ->
   (m = BTanh -> forall x, (-(1) < x)%Qc -> (x < 1)%Qc -> tanh (atanh x) = x) ->
   map_action tanh is_box m scaling low high (c_act c) = Ok (c_norm c)) /\
  c_hidden c = None /\ c_dist c = None /\ c_policy c = (None, None) /\
  forall (policy' : Ob -> bval -> option H -> res (pout P H D)) noise' explore' obs' obj' infos' hidden',
    compute_action tanh atanh eps is_box m scaling low high policy' noise' sample explore' true sp ids obs' obj' infos' hidden' = Ok c.
Proof.
  intros Ob P H D S tanh atanh eps is_box m scaling low high policy noise sample explore sp ids obs obj infos hidden c Hc.
  assert (Hany : forall (policy' : Ob -> bval -> option H -> res (pout P H D)) noise' explore' obs' obj' infos' hidden',
    compute_action tanh atanh eps is_box m scaling low high policy' noise' sample explore' true sp ids obs' obj' infos' hidden' = Ok c) by (intros; exact Hc).
  unfold compute_action in Hc. destruct (sample_all sample sp ids) as [norm|e] eqn:Es; [|discriminate]. cbn [bind] in Hc.
  destruct (map_action_inverse _ _ _ _ _ _ _ _) as [act|e] eqn:Ei; [|discriminate]. injection Hc as <-. cbn [c_norm c_act c_hidden c_dist c_policy].
  destruct (samples_nth sample sp ids norm Es) as [Hl Hn]. split; [exact Hl|]. split; [exact Hn|]. split; [|repeat split; exact Hany].
  intros HR HT. destruct is_box; [|unfold map_action_inverse in Ei; cbn in Ei; injection Ei as <-; reflexivity]. specialize (HR eq_refl).
  destruct scaling.
  - destruct HR as (R1 & R2 & R3 & R4 & R5 & R6 & R7).
    destruct (C25_roundtrip_partial_lemma tanh atanh eps m low high norm R1 R2 R3 R4 R5 R6 R7 HT) as (raw & E1 & E2). congruence.
  - subst m. unfold map_action_inverse in Ei. cbn in Ei. injection Ei as <-. unfold map_action. cbn [negb]. f_equal.
    transitivity (map (fun x : list Qc => x) norm); [|apply map_id]. apply map_ext. intro row. transitivity (map (fun x : Qc => x) row); [|apply map_id]. apply map_ext. reflexivity.
Qed.
(** C254.  With clipping and without scaling, a random action outside [-1, 1] is stored as it is
    although the policy's own actions are clipped: mapping the stored action gives another one. *)
Lemma C254_clip_refuted_lemma : forall (Ob P H D : Type) tanh atanh eps low high (policy : Ob -> bval -> option H -> res (pout P H D)) noise explore obs obj infos hidden (a : Qc),
  (1 < a)%Qc ->
  exists c, compute_action tanh atanh eps true BClip false low high policy noise (fun (_ : unit) _ => [a]) explore true (Each [tt]) [0] obs obj infos hidden = Ok c /\
    c_norm c = [[a]] /\ map_action tanh true BClip false low high (c_act c) = Ok [[1%Qc]] /\ [[1%Qc]] <> c_norm c.
Proof.
  intros Ob P H D tanh atanh eps low high policy noise explore obs obj infos hidden a Ha. eexists. split; [reflexivity|]. cbn [c_norm c_act].
  split; [reflexivity|]. split.
  - unfold map_action. cbn [negb map bound1]. do 3 f_equal. unfold clip1, Qcmaxb, Qcminb. destruct (Qcleb_spec 1 a) as [H1|H1]; [|exfalso; qclra]. destruct (Qcleb_spec (-(1))%Qc 1%Qc) as [H2|H2]; [reflexivity|exfalso; qclra].
  - intros [= E]. rewrite <- E in Ha. exact (Qclt_not_eq _ _ Ha eq_refl).
Qed.
(** C254.  A policy whose entry "policy" is not a Batch is refused: RuntimeError, if its actions can be mapped at all. *)
Lemma C254_entry_lemma : forall (Ob P H D S : Type) tanh atanh eps is_box m scaling low high (policy : Ob -> bval -> option H -> res (pout P H D)) (noise : list (list Qc) -> Ob -> bval -> list (list Qc)) (sample : S -> nat -> list Qc)
    (explore : bool) sp ids obs obj infos hidden info r norm,
  info_batch obj infos = Ok info -> policy obs info hidden = Ok r -> po_policy r = Some None ->
  map_action tanh is_box m scaling low high (if explore then noise (po_act r) obs info else po_act r) = Ok norm ->
  compute_action tanh atanh eps is_box m scaling low high policy noise sample explore false sp ids obs obj infos hidden = Err RuntimeError.
Proof.
  intros Ob P H D S tanh atanh eps is_box m scaling low high policy noise sample explore sp ids obs obj infos hidden info r norm Hi Hp He Hn.
  unfold compute_action. rewrite Hi. cbn [bind]. rewrite Hp. cbn [bind]. destruct explore; rewrite Hn; cbn [bind]; rewrite He; reflexivity.
Qed.
