(** * Proofs about action mapping, soft_update, context managers and BasePolicy.update *)
From Verif Require Import Py PyLemmas Num PolicyModel.
Open Scope nat_scope.

(** Entry of a two-dimensional array. *)
Definition entry {A} (r : list (list A)) (i j : nat) : option A :=
  match nth_error r i with Some row => nth_error row j | None => None end.

Lemma map2r_ok {A B C} (f : A -> B -> C) l : forall m, length l = length m ->
  exists r, map2r f l m = Ok r /\ length r = length l
    /\ forall j, nth_error r j = match nth_error l j, nth_error m j with Some a, Some b => Some (f a b) | _, _ => None end.
Proof.
  induction l as [|a l IH]; intros [|b m] H; try discriminate; cbn [map2r].
  - exists []. split; [reflexivity|]. split; [reflexivity|]. intros [|j]; reflexivity.
  - destruct (IH m ltac:(cbn in H; lia)) as (r & E & Hl & Hr). rewrite E. cbn [bind].
    exists (f a b :: r). split; [reflexivity|]. split; [cbn; lia|]. intros [|j]; [reflexivity|apply Hr].
Qed.

Lemma clip1_range a : (-(1) <= clip1 a)%Qc /\ (clip1 a <= 1)%Qc.
Proof.
  unfold clip1, Qcmaxb, Qcminb. destruct (Qcleb_spec 1 a); (match goal with |- context [Qcleb ?x ?y] => destruct (Qcleb_spec x y) end); split; try qclra.
Qed.
Lemma clip1_id a : (-(1) <= a)%Qc -> (a <= 1)%Qc -> clip1 a = a.
Proof.
  intros H1 H2. unfold clip1, Qcmaxb, Qcminb. destruct (Qcleb_spec 1 a); (match goal with |- context [Qcleb ?x ?y] => destruct (Qcleb_spec x y) end); try reflexivity; qclra.
Qed.
Lemma clip1_lo a : (a <= -(1))%Qc -> clip1 a = (-(1))%Qc.
Proof.
  intros H1. unfold clip1, Qcmaxb, Qcminb. destruct (Qcleb_spec 1 a); (match goal with |- context [Qcleb ?x ?y] => destruct (Qcleb_spec x y) end); try reflexivity; qclra.
Qed.
Lemma clip1_hi a : (1 <= a)%Qc -> clip1 a = 1%Qc.
Proof.
  intros H1. unfold clip1, Qcmaxb, Qcminb. destruct (Qcleb_spec 1 a); (match goal with |- context [Qcleb ?x ?y] => destruct (Qcleb_spec x y) end); try reflexivity; qclra.
Qed.
Lemma clip1_mono a b : (a <= b)%Qc -> (clip1 a <= clip1 b)%Qc.
Proof.
  intros H1. unfold clip1, Qcmaxb, Qcminb.
  destruct (Qcleb_spec 1 a), (Qcleb_spec 1 b); repeat match goal with |- context [Qcleb ?x ?y] => destruct (Qcleb_spec x y) end; qclra.
Qed.

Lemma scale1_eq lo hi a : (scale1 lo hi a + scale1 lo hi a = lo + lo + (hi - lo) * (a + 1))%Qc.
Proof. unfold scale1. field. discriminate. Qed.
Lemma scale1_range lo hi a : (lo <= hi)%Qc -> (-(1) <= a)%Qc -> (a <= 1)%Qc -> (lo <= scale1 lo hi a)%Qc /\ (scale1 lo hi a <= hi)%Qc.
Proof.
  intros H H1 H2. pose proof (scale1_eq lo hi a) as E.
  assert (0 <= (hi - lo) * (a + 1))%Qc by qcnra. assert ((hi - lo) * (a + 1) <= hi - lo + (hi - lo))%Qc by qcnra.
  split; qclra.
Qed.
Lemma scale1_lo lo hi : scale1 lo hi (-(1)) = lo.
Proof. unfold scale1. field. discriminate. Qed.
Lemma scale1_hi lo hi : scale1 lo hi 1 = hi.
Proof. unfold scale1. field. discriminate. Qed.
Lemma scale1_mono lo hi a b : (lo <= hi)%Qc -> (a <= b)%Qc -> (scale1 lo hi a <= scale1 lo hi b)%Qc.
Proof.
  intros H H1. pose proof (scale1_eq lo hi a) as E1. pose proof (scale1_eq lo hi b) as E2.
  assert ((hi - lo) * (a + 1) <= (hi - lo) * (b + 1))%Qc by qcnra. qclra.
Qed.
Lemma scale1_inv eps lo hi a : (0 < eps)%Qc -> (eps <= hi - lo)%Qc -> scale1 lo hi (inv1 eps lo hi a) = a.
Proof.
  intros He H. unfold inv1. destruct (Qcltb_spec (hi - lo) eps) as [F|F]; [qclra|].
  unfold scale1. field. split; [intros E; qclra|discriminate].
Qed.
Lemma inv1_range eps lo hi a : (0 < eps)%Qc -> (eps <= hi - lo)%Qc -> (lo <= a)%Qc -> (a <= hi)%Qc ->
  (-(1) <= inv1 eps lo hi a)%Qc /\ (inv1 eps lo hi a <= 1)%Qc.
Proof.
  intros He H H1 H2.
  pose proof (scale1_inv eps lo hi a He H) as E. pose proof (scale1_eq lo hi (inv1 eps lo hi a)) as E2. rewrite E in E2.
  set (x := inv1 eps lo hi a) in *. clearbody x.
  assert (0 <= (hi - lo) * (x + 1))%Qc by qclra. assert ((hi - lo) * (x + 1) <= (hi - lo) + (hi - lo))%Qc by qclra.
  split.
  - destruct (Qclt_le_dec x (-(1))) as [F|F]; [|exact F]. exfalso. qcnra.
  - destruct (Qclt_le_dec 1 x) as [F|F]; [|exact F]. exfalso. qcnra.
Qed.

Lemma forallb_entry {A} (f : A -> bool) r : (forall i j a, entry r i j = Some a -> f a = true) -> forallb (forallb f) r = true.
Proof.
  intros H. apply forallb_forall. intros row Hrow. apply forallb_forall. intros a Ha.
  apply In_nth_error in Hrow as [i Hi]. apply In_nth_error in Ha as [j Hj]. apply (H i j). unfold entry. rewrite Hi. exact Hj.
Qed.

Lemma entry_map {A B} (f : A -> B) r i j : entry (map (map f) r) i j = option_map f (entry r i j).
Proof. unfold entry. rewrite nth_error_map. destruct (nth_error r i); [|reflexivity]. cbn. apply nth_error_map. Qed.

Lemma rows_ok (f : Qc -> Qc -> Qc -> Qc) low high act : length low = length high ->
  (forall row, In row act -> length row = length low) ->
  exists r, mapM (fun row => let* lh := map2r pair low high in map2r (fun l a => f (fst l) (snd l) a) lh row) act = Ok r
    /\ length r = length act /\ (forall row, In row r -> length row = length low)
    /\ forall i j, entry r i j = match entry act i j, nth_error low j, nth_error high j with
                                 | Some a, Some lo, Some hi => Some (f lo hi a) | _, _, _ => None end.
Proof.
  intros Hl Hrows. destruct (map2r_ok pair low high Hl) as (lh & Elh & Hlh & Hn). rewrite Elh. cbn [bind].
  induction act as [|row act IH]; cbn [mapM].
  - exists []. split; [reflexivity|]. split; [reflexivity|]. split; [intros row []|]. intros i j. unfold entry. destruct i; reflexivity.
  - destruct (map2r_ok (fun l a => f (fst l) (snd l) a) lh row) as (r1 & E1 & Hl1 & Hn1).
    { rewrite Hlh. symmetry. apply Hrows. left; reflexivity. }
    rewrite E1. cbn [bind]. destruct (IH ltac:(intros r Hr; apply Hrows; right; exact Hr)) as (r & E & Hlr & Hrl & Hen).
    rewrite E. cbn [bind]. exists (r1 :: r). split; [reflexivity|]. split; [cbn; lia|].
    split; [intros row' [<-|Hr]; [lia|apply Hrl, Hr]|].
    intros [|i] j.
    + unfold entry. cbn [nth_error]. rewrite Hn1, Hn. destruct (nth_error row j), (nth_error low j), (nth_error high j); reflexivity.
    + apply Hen.
Qed.

Lemma concat_nonempty {A} (act : list (list A)) : act <> [] -> (forall row, In row act -> row <> []) ->
  (length (concat act) =? 0) = false.
Proof.
  intros H Hr. destruct act as [|row act]; [contradiction|]. specialize (Hr row (or_introl eq_refl)).
  destruct row; [contradiction|]. reflexivity.
Qed.

(** C25.  With a Box space and action scaling, whatever the network output: the mapped action is
    defined, every entry is inside its column's bounds, outputs at or beyond -1 / +1 give exactly
    the bounds under "clip", and the map is monotone.  [tanh] is any monotone function into
    [-1, 1]. *)
Lemma C25_in_bounds_lemma : forall tanh m low high act,
  (forall x, (-(1) <= tanh x)%Qc /\ (tanh x <= 1)%Qc) -> (forall x y, (x <= y)%Qc -> (tanh x <= tanh y)%Qc) ->
  m <> BNone -> length low = length high -> low <> [] -> act <> [] ->
  (forall j lo hi, nth_error low j = Some lo -> nth_error high j = Some hi -> (lo <= hi)%Qc) ->
  (forall row, In row act -> length row = length low) ->
  exists r, map_action tanh true m true low high act = Ok r
    /\ length r = length act /\ (forall row, In row r -> length row = length low)
    /\ forall i j a lo hi, entry act i j = Some a -> nth_error low j = Some lo -> nth_error high j = Some hi ->
         exists x, entry r i j = Some x /\ (lo <= x)%Qc /\ (x <= hi)%Qc
           /\ (m = BClip -> ((a <= -(1))%Qc -> x = lo) /\ ((1 <= a)%Qc -> x = hi))
           /\ forall i' a' x', entry act i' j = Some a' -> entry r i' j = Some x' -> (a <= a')%Qc -> (x <= x')%Qc.
Proof.
  intros tanh m low high act Ht Htm Hm Hl Hl0 Ha0 Hb Hrows. unfold map_action. cbn [negb].
  set (act' := map (map (bound1 tanh m)) act).
  assert (Hrange : forall x, (-(1) <= bound1 tanh m x)%Qc /\ (bound1 tanh m x <= 1)%Qc).
  { intros x. destruct m; cbn [bound1]; [apply clip1_range|apply Ht|contradiction]. }
  rewrite concat_nonempty.
  2:{ unfold act'. destruct act; [contradiction|discriminate]. }
  2:{ intros row Hrow E. subst row. apply in_map_iff in Hrow as (row & E & Hrow). apply Hrows in Hrow.
      destruct row; [|discriminate]. destruct low; [contradiction|discriminate]. }
  rewrite forallb_entry.
  2:{ intros i j a E. unfold act' in E. rewrite entry_map in E. destruct (entry act i j) as [a0|]; [|discriminate].
      injection E as <-. destruct (Hrange a0) as [R1 R2].
      destruct (Qcleb_spec (-(1)) (bound1 tanh m a0)); [|qclra]. destruct (Qcleb_spec (bound1 tanh m a0) 1); [reflexivity|qclra]. }
  cbn [negb].
  destruct (rows_ok scale1 low high act' Hl) as (r & E & Hlr & Hrl & Hen).
  { intros row Hrow. apply in_map_iff in Hrow as (row' & <- & Hrow). rewrite map_length. apply Hrows, Hrow. }
  exists r. split; [exact E|]. split; [rewrite Hlr; apply map_length|]. split; [exact Hrl|].
  assert (Hval : forall i j a lo hi, entry act i j = Some a -> nth_error low j = Some lo -> nth_error high j = Some hi ->
            entry r i j = Some (scale1 lo hi (bound1 tanh m a))).
  { intros i j a lo hi E1 E2 E3. rewrite Hen. unfold act'. rewrite entry_map, E1, E2, E3. reflexivity. }
  intros i j a lo hi E1 E2 E3. exists (scale1 lo hi (bound1 tanh m a)).
  pose proof (Hb j lo hi E2 E3) as Hle. destruct (Hrange a) as [R1 R2].
  split; [apply Hval; assumption|]. destruct (scale1_range lo hi _ Hle R1 R2) as [S1 S2].
  split; [exact S1|]. split; [exact S2|]. split.
  - intros ->. cbn [bound1]. split; intros H; [rewrite clip1_lo by exact H; apply scale1_lo|rewrite clip1_hi by exact H; apply scale1_hi].
  - intros i' a' x' E1' Ex' Haa. rewrite (Hval i' j a' lo hi E1' E2 E3) in Ex'. injection Ex' as <-.
    apply scale1_mono; [exact Hle|]. destruct m; cbn [bound1]; [apply clip1_mono, Haa|apply Htm, Haa|exact Haa].
Qed.

Lemma list2_ext {A} (r s : list (list A)) : length r = length s ->
  (forall i row row', nth_error r i = Some row -> nth_error s i = Some row' -> length row = length row') ->
  (forall i j a, entry s i j = Some a -> entry r i j = Some a) -> r = s.
Proof.
  revert s. induction r as [|x r IH]; intros [|y s] Hl Hr He; try discriminate; [reflexivity|]. f_equal.
  - apply nth_error_ext. intros j. specialize (Hr 0 x y eq_refl eq_refl).
    destruct (nth_error y j) as [a|] eqn:E; [apply (He 0 j a); exact E|]. apply nth_error_None in E. apply nth_error_None. lia.
  - apply IH; [cbn in Hl; lia| |].
    + intros i row row' H1 H2. apply (Hr (S i) row row' H1 H2).
    + intros i j a H. apply (He (S i) j a H).
Qed.

(** C25 (restricted: every interval at least [eps] wide).  [map_action] undoes
    [map_action_inverse] on the whole Box, for bound method clip or None; for tanh on the open
    box, if [atanh] inverts [tanh] on (-1, 1). *)
Lemma C25_roundtrip_partial_lemma : forall tanh atanh eps m low high act,
  (0 < eps)%Qc -> length low = length high -> low <> [] -> act <> [] ->
  (forall j lo hi, nth_error low j = Some lo -> nth_error high j = Some hi -> (eps <= hi - lo)%Qc) ->
  (forall row, In row act -> length row = length low) ->
  (forall i j a lo hi, entry act i j = Some a -> nth_error low j = Some lo -> nth_error high j = Some hi ->
     (lo <= a)%Qc /\ (a <= hi)%Qc /\ (m = BTanh -> (lo < a)%Qc /\ (a < hi)%Qc)) ->
  (m = BTanh -> forall x, (-(1) < x)%Qc -> (x < 1)%Qc -> tanh (atanh x) = x) ->
  exists raw, map_action_inverse atanh eps true m true low high act = Ok raw
    /\ map_action tanh true m true low high raw = Ok act.
Proof.
  intros tanh atanh eps m low high act He Hl Hl0 Ha0 Hb Hrows Hin Hinv.
  unfold map_action_inverse. cbn [negb].
  destruct (rows_ok (inv1 eps) low high act Hl Hrows) as (r & E & Hlr & Hrl & Hen). rewrite E. cbn [bind].
  set (raw := match m with BTanh => map (map atanh) r | _ => r end). exists raw. split; [reflexivity|].
  assert (Hraw : forall i j a lo hi, entry act i j = Some a -> nth_error low j = Some lo -> nth_error high j = Some hi ->
     exists y, entry raw i j = Some y /\ bound1 tanh m y = inv1 eps lo hi a).
  { intros i j a lo hi E1 E2 E3. destruct (Hin i j a lo hi E1 E2 E3) as (B1 & B2 & B3).
    pose proof (Hb j lo hi E2 E3) as Hw. destruct (inv1_range eps lo hi a He Hw B1 B2) as [R1 R2].
    assert (Er : entry r i j = Some (inv1 eps lo hi a)) by (rewrite Hen, E1, E2, E3; reflexivity).
    destruct m; unfold raw; cbn [bound1].
    - exists (inv1 eps lo hi a). split; [exact Er|apply clip1_id; assumption].
    - exists (atanh (inv1 eps lo hi a)). rewrite entry_map, Er. split; [reflexivity|].
      destruct (B3 eq_refl) as [B4 B5].
      pose proof (scale1_inv eps lo hi a He Hw) as Es. pose proof (scale1_eq lo hi (inv1 eps lo hi a)) as Eq. rewrite Es in Eq.
      set (x := inv1 eps lo hi a) in *. apply Hinv; [reflexivity| |].
      + destruct (Qclt_le_dec (-(1)) x) as [F|F]; [exact F|]. exfalso.
        assert ((hi - lo) * (x + 1) <= 0)%Qc by qcnra. qclra.
      + destruct (Qclt_le_dec x 1) as [F|F]; [exact F|]. exfalso.
        assert (hi - lo + (hi - lo) <= (hi - lo) * (x + 1))%Qc by qcnra. qclra.
    - exists (inv1 eps lo hi a). split; [exact Er|reflexivity]. }
  assert (Hrawlen : length raw = length act) by (unfold raw; destruct m; rewrite ?map_length; exact Hlr).
  assert (Hrawrows : forall row, In row raw -> length row = length low).
  { unfold raw. intros row. destruct m; try apply Hrl. intros Hrow. apply in_map_iff in Hrow as (row' & <- & Hrow).
    rewrite map_length. apply Hrl, Hrow. }
  assert (Hcol : forall i j a, entry act i j = Some a -> exists lo hi, nth_error low j = Some lo /\ nth_error high j = Some hi).
  { intros i j a E1. unfold entry in E1. destruct (nth_error act i) as [row|] eqn:Ei; [|discriminate].
    apply nth_error_In in Ei. apply Hrows in Ei. assert (j < length row) by (apply nth_error_Some; congruence).
    destruct (nth_error low j) eqn:F1; [|apply nth_error_None in F1; lia]. destruct (nth_error high j) eqn:F2; [|apply nth_error_None in F2; lia]. eauto. }
  assert (Hback : forall i j y, entry raw i j = Some y -> exists a, entry act i j = Some a).
  { intros i j y Ey. unfold entry in *. destruct (nth_error raw i) as [row|] eqn:Ei; [|discriminate].
    assert (Hlt : i < length act) by (rewrite <- Hrawlen; apply nth_error_Some; congruence).
    destruct (nth_error act i) as [row'|] eqn:Ei'; [|apply nth_error_None in Ei'; lia].
    apply nth_error_In in Ei. apply Hrawrows in Ei. apply nth_error_In in Ei'. apply Hrows in Ei'.
    assert (j < length row) by (apply nth_error_Some; congruence).
    destruct (nth_error row' j) eqn:F; [eauto|apply nth_error_None in F; lia]. }
  unfold map_action. cbn [negb]. set (act' := map (map (bound1 tanh m)) raw).
  rewrite concat_nonempty.
  2:{ unfold act'. destruct raw; [destruct act; [contradiction|discriminate]|discriminate]. }
  2:{ intros row Hrow Er. subst row. apply in_map_iff in Hrow as (row & Er & Hrow). apply Hrawrows in Hrow.
      destruct row; [|discriminate]. destruct low; [contradiction|discriminate]. }
  rewrite forallb_entry.
  2:{ intros i j x Ex. unfold act' in Ex. rewrite entry_map in Ex. destruct (entry raw i j) as [y|] eqn:Ey; [|discriminate].
      injection Ex as <-. destruct (Hback i j y Ey) as (a & Ea). destruct (Hcol i j a Ea) as (lo & hi & E2 & E3).
      destruct (Hraw i j a lo hi Ea E2 E3) as (y' & Ey' & Eb). rewrite Ey in Ey'. injection Ey' as <-. rewrite Eb.
      destruct (Hin i j a lo hi Ea E2 E3) as (B1 & B2 & _).
      destruct (inv1_range eps lo hi a He (Hb j lo hi E2 E3) B1 B2) as [R1 R2].
      destruct (Qcleb_spec (-(1)) (inv1 eps lo hi a)); [|qclra]. destruct (Qcleb_spec (inv1 eps lo hi a) 1); [reflexivity|qclra]. }
  cbn [negb].
  destruct (rows_ok scale1 low high act' Hl) as (r2 & Er2 & Hlr2 & Hrl2 & Hen2).
  { intros row Hrow. apply in_map_iff in Hrow as (row' & <- & Hrow). rewrite map_length. apply Hrawrows, Hrow. }
  rewrite Er2. f_equal. apply list2_ext.
  - rewrite Hlr2. unfold act'. rewrite map_length. exact Hrawlen.
  - intros i row row' H1 H2. apply nth_error_In in H1. apply nth_error_In in H2. rewrite (Hrl2 _ H1), (Hrows _ H2). reflexivity.
  - intros i j a Ea. destruct (Hcol i j a Ea) as (lo & hi & E2 & E3). rewrite Hen2. unfold act'. rewrite entry_map.
    destruct (Hraw i j a lo hi Ea E2 E3) as (y & Ey & Eb). rewrite Ey, E2, E3. cbn [option_map]. rewrite Eb.
    f_equal. apply scale1_inv; [exact He|apply (Hb j lo hi E2 E3)].
Qed.

(** C25.  For a column narrower than eps = 2^-23 (but not empty) the round trip fails: the upper
    end of the interval is not mapped back to itself. *)
Lemma C25_narrow_box_refuted_lemma : exists lo hi raw back,
  let eps := Q2Qc (1 # 8388608) in
  (lo < hi)%Qc /\ map_action_inverse (fun x => x) eps true BClip true [lo] [hi] [[hi]] = Ok [[raw]]
  /\ map_action (fun x => x) true BClip true [lo] [hi] [[raw]] = Ok [[back]] /\ back <> hi.
Proof.
  exists (Q2Qc 0), (Q2Qc (1 # 16777216)). eexists _, _. cbv zeta.
  split; [vm_compute; reflexivity|]. split; [reflexivity|]. split; [vm_compute; reflexivity|].
  intros E. apply (f_equal this) in E. vm_compute in E. discriminate.
Qed.

(** C25.  Without bounding, an output outside [-1, 1] is rejected rather than sent. *)
Lemma C25_unbounded_rejected_lemma : forall tanh low high act i j a,
  entry act i j = Some a -> (a < -(1))%Qc \/ (1 < a)%Qc ->
  map_action tanh true BNone true low high act = Err AssertionError.
Proof.
  intros tanh low high act i j a E H. unfold map_action. cbn [negb bound1].
  assert (Em : map (map (fun a => a)) act = act).
  { rewrite (map_ext _ (fun x => x)) by (intros x; apply map_id). apply map_id. }
  change (bound1 tanh BNone) with (fun a : Qc => a). rewrite Em.
  unfold entry in E. destruct (nth_error act i) as [row|] eqn:Ei; [|discriminate].
  apply nth_error_In in Ei. apply nth_error_In in E.
  assert (Hc : In a (concat act)) by (apply in_concat; eauto).
  destruct (Nat.eqb_spec (length (concat act)) 0) as [F|_]; [destruct (concat act); [contradiction|discriminate]|].
  destruct (forallb _ act) eqn:F; [exfalso|reflexivity].
  rewrite forallb_forall in F. specialize (F row Ei). rewrite forallb_forall in F. specialize (F a E).
  apply andb_true_iff in F as [F1 F2].
  destruct (Qcleb_spec (-(1)) a); [|discriminate]. destruct (Qcleb_spec a 1); [|discriminate].
  destruct H; qclra.
Qed.

(** ** soft_update *)
Lemma soft_ok tau tgt : forall src, length tgt = length src ->
  (forall i t s, nth_error tgt i = Some t -> nth_error src i = Some s -> length t = length s) ->
  exists r, soft_update tau tgt src = (r, None) /\ length r = length tgt
    /\ (forall i t s, nth_error r i = Some t -> nth_error src i = Some s -> length t = length s)
    /\ forall i j, entry r i j = match entry tgt i j, entry src i j with
                                 | Some t, Some s => Some (tau * s + (1 - tau) * t)%Qc | _, _ => None end.
Proof.
  induction tgt as [|t tgt IH]; intros [|s src] Hl Hs; try discriminate; cbn [soft_update].
  - exists []. repeat split; intros [|i]; try discriminate; intros; reflexivity.
  - destruct (IH src ltac:(cbn in Hl; lia) ltac:(intros i t' s' H1 H2; apply (Hs (S i) t' s' H1 H2))) as (r & E & Hlr & Hsh & Hen).
    rewrite E. eexists. split; [reflexivity|]. split; [cbn; lia|].
    pose proof (Hs 0 t s eq_refl eq_refl) as Hts. split.
    + intros [|i] t' s' H1 H2; cbn in H1, H2; [injection H1 as <-; injection H2 as <-|apply (Hsh i t' s' H1 H2)].
      rewrite map_length, combine_length. lia.
    + intros [|i] j; [|apply Hen]. unfold entry. cbn [nth_error]. rewrite nth_error_map. clear - Hts. revert s j Hts.
      induction t as [|x t IH]; intros [|y s] [|j] H; try discriminate; try reflexivity. apply (IH s j). cbn in H. lia.
Qed.

Fixpoint soft_updates (n : nat) (tau : Qc) (tgt src : list (list Qc)) : list (list Qc) * option exn :=
  match n with
  | O => (tgt, None)
  | S n => match soft_update tau tgt src with
           | (r, None) => soft_updates n tau r src
           | x => x
           end
  end.

(** C26.  Any number of soft updates towards fixed source parameters of the same shapes: every
    parameter's gap to the source is scaled by (1 - tau)^n; tau = 1 copies, tau = 0 keeps, and
    for 0 <= tau <= 1 every parameter stays between its old value and the source. *)
Lemma C26_soft_update_lemma : forall n tau tgt src, length tgt = length src ->
  (forall i t s, nth_error tgt i = Some t -> nth_error src i = Some s -> length t = length s) ->
  exists r, soft_updates n tau tgt src = (r, None) /\ length r = length tgt
    /\ forall i j t s, entry tgt i j = Some t -> entry src i j = Some s ->
         exists x, entry r i j = Some x
           /\ (x - s = Qcpower (1 - tau) n * (t - s))%Qc
           /\ (n = 1 -> x = (tau * s + (1 - tau) * t)%Qc)
           /\ (tau = 1%Qc -> 0 < n -> x = s) /\ (tau = 0%Qc -> x = t)
           /\ ((0 <= tau)%Qc -> (tau <= 1)%Qc -> ((t <= s)%Qc -> (t <= x)%Qc /\ (x <= s)%Qc) /\ ((s <= t)%Qc -> (s <= x)%Qc /\ (x <= t)%Qc)).
Proof.
  induction n as [|n IH]; intros tau tgt src Hl Hs; cbn [soft_updates].
  - exists tgt. split; [reflexivity|]. split; [reflexivity|]. intros i j t s E1 E2. exists t. split; [exact E1|].
    split; [cbn; ring|]. split; [discriminate|]. split; [lia|]. split; [reflexivity|]. intros _ _. split; intros H; split; qclra.
  - destruct (soft_ok tau tgt src Hl Hs) as (r1 & E & Hl1 & Hs1 & Hen). rewrite E.
    destruct (IH tau r1 src ltac:(lia) Hs1) as (r & Er & Hlr & Hr). exists r. split; [exact Er|]. split; [lia|].
    intros i j t s E1 E2. assert (E3 : entry r1 i j = Some (tau * s + (1 - tau) * t)%Qc) by (rewrite Hen, E1, E2; reflexivity).
    destruct (Hr i j _ s E3 E2) as (x & Ex & G & _ & G1 & G0 & Gb). exists x. split; [exact Ex|].
    assert (Gx : (x - s = Qcpower (1 - tau) (S n) * (t - s))%Qc) by (rewrite G; cbn [Qcpower]; ring).
    split; [exact Gx|]. split.
    { intros H. assert (n = 0) by lia. subst n. cbn [Qcpower] in G.
      transitivity (x - s + s)%Qc; [ring|]. rewrite G. ring. }
    split.
    { intros -> _. assert (Hz : (1 - 1 = 0)%Qc) by ring. cbn [Qcpower] in Gx. rewrite Hz in Gx.
      transitivity (x - s + s)%Qc; [ring|]. rewrite Gx. ring. }
    split; [intros ->; rewrite (G0 eq_refl); ring|].
    intros T0 T1. destruct (Gb T0 T1) as [B1 B2].
    set (y := (tau * s + (1 - tau) * t)%Qc) in *.
    assert (Hy : y = (t + tau * (s - t))%Qc) by (unfold y; ring).
    split; intros H.
    + assert (0 <= tau * (s - t))%Qc by qcnra. assert (tau * (s - t) <= s - t)%Qc by qcnra.
      assert (t <= y)%Qc by (rewrite Hy; qclra). assert (y <= s)%Qc by (rewrite Hy; qclra).
      destruct (B1 H3) as [B3 B4]. split; qclra.
    + assert (tau * (s - t) <= 0)%Qc by qcnra. assert (s - t <= tau * (s - t))%Qc by qcnra.
      assert (y <= t)%Qc by (rewrite Hy; qclra). assert (s <= y)%Qc by (rewrite Hy; qclra).
      destruct (B2 H3) as [B3 B4]. split; qclra.
Qed.

(** C26.  Modules with a different number of parameters: ValueError. *)
Lemma C26_mismatch_lemma : forall tau tgt src, length tgt <> length src -> snd (soft_update tau tgt src) = Some ValueError.
Proof.
  intros tau tgt. induction tgt as [|t tgt IH]; intros [|s src] H; cbn [soft_update]; try reflexivity; [cbn in H; lia|].
  specialize (IH src ltac:(cbn in H; lia)). destruct (soft_update tau tgt src) as [r e]. exact IH.
Qed.

(** ** Context managers *)
Inductive homogeneous (b : bool) : module_ -> Prop :=
| homog ch : Forall (homogeneous b) ch -> homogeneous b (Mod b ch).

Fixpoint train_id b m {struct m} : homogeneous b m -> train b m = m.
Proof.
  destruct m as [t ch]. intros H. inversion H as [ch' Hf]; subst. cbn [train]. f_equal. clear H.
  induction ch as [|c ch IH]; [reflexivity|]. inversion Hf; subst. cbn [map]. f_equal; [apply train_id; assumption|apply IH; assumption].
Qed.
Fixpoint train_train a b m {struct m} : train a (train b m) = train a m.
Proof.
  destruct m as [t ch]. cbn [train]. f_equal. induction ch as [|c ch IH]; [reflexivity|]. cbn [map].
  f_equal; [apply train_train|apply IH].
Qed.

(** C47.  Whatever the body does (also when it raises, and whatever it does to the flags
    itself), both context managers put the policy's own flag back, return the body's result and
    change nothing else. *)
Lemma C47_restored_lemma : forall (X T : Type) (en : bool) (body : blk X T) (s : pstate X),
  let '(s1, r1) := with_train_mode en body s in
  let '(s2, r2) := within_training_step en body s in
  training (p_mod s1) = training (p_mod s) /\ r1 = snd (body (set_mod s (train en (p_mod s))))
  /\ p_within s2 = p_within s /\ r2 = snd (body (set_within s en))
  /\ p_ext s1 = p_ext (fst (body (set_mod s (train en (p_mod s))))) /\ p_ext s2 = p_ext (fst (body (set_within s en)))
  /\ p_within s1 = p_within (fst (body (set_mod s (train en (p_mod s)))))
  /\ p_mod s2 = p_mod (fst (body (set_within s en))).
Proof.
  intros X T en body s. unfold with_train_mode, within_training_step.
  destruct (body (set_mod s (train en (p_mod s)))) as [s1 r1]. destruct (body (set_within s en)) as [s2 r2].
  cbn [fst snd set_mod set_within p_mod p_within p_ext]. repeat split.
  destruct (p_mod s1) as [t ch]. reflexivity.
Qed.

(** C68 (restricted: all modules of the tree in the same mode before, and the body changes modes
    only through [train]): the modes of the whole tree are put back. *)
Lemma C68_homogeneous_partial_lemma : forall (X T : Type) (en : bool) (body : blk X T) (s : pstate X),
  homogeneous (training (p_mod s)) (p_mod s) ->
  (exists b, p_mod (fst (body (set_mod s (train en (p_mod s))))) = train b (p_mod s)) ->
  p_mod (fst (with_train_mode en body s)) = p_mod s.
Proof.
  intros X T en body s Hh [b Hb]. unfold with_train_mode.
  destruct (body (set_mod s (train en (p_mod s)))) as [s1 r1]. cbn [fst set_mod p_mod] in *.
  rewrite Hb, train_train. apply train_id, Hh.
Qed.

(** C47.  Nesting to any depth: a chain of context managers around any body restores both flags. *)
Fixpoint nested {X T} (l : list (bool * bool)) (body : blk X T) : blk X T :=
  match l with
  | [] => body
  | (true, en) :: l => with_train_mode en (nested l body)
  | (false, en) :: l => within_training_step en (nested l body)
  end.
Lemma C47_nested_lemma : forall (X T : Type) (l : list (bool * bool)) (body : blk X T) (s : pstate X),
  let '(s', r) := nested l body s in
  (In true (map fst l) -> training (p_mod s') = training (p_mod s))
  /\ (In false (map fst l) -> p_within s' = p_within s).
Proof.
  intros X T l body s.
  assert (H : forall s, (In true (map fst l) -> training (p_mod (fst (nested l body s))) = training (p_mod s))
             /\ (In false (map fst l) -> p_within (fst (nested l body s)) = p_within s)).
  { clear s. induction l as [|[[] en] l IH]; intros s; cbn [nested map fst In].
    - split; intros [].
    - unfold with_train_mode. specialize (IH (set_mod s (train en (p_mod s)))).
      destruct (nested l body _) as [s1 r1]. cbn [fst] in IH |- *. destruct IH as [_ IH]. split.
      + intros _. cbn [set_mod p_mod]. destruct (p_mod s1). reflexivity.
      + intros [F|F]; [discriminate|]. cbn [set_mod p_within]. apply IH, F.
    - unfold within_training_step. specialize (IH (set_within s en)).
      destruct (nested l body _) as [s1 r1]. cbn [fst] in IH |- *. destruct IH as [IH _]. split.
      + intros [F|F]; [discriminate|]. cbn [set_within p_mod]. apply IH, F.
      + intros _. reflexivity. }
  specialize (H s). destruct (nested l body s) as [s' r]. exact H.
Qed.

(** C68.  A module tree with mixed modes is not put back: a child in evaluation mode inside a
    module in training mode ends up in training mode. *)
Lemma C68_submodule_modes_refuted_lemma : exists (s s' : pstate unit),
  with_train_mode false (fun s => (s, Ok tt)) s = (s', Ok tt) /\ p_mod s' <> p_mod s.
Proof.
  exists (mkP (Mod true [Mod false []]) false false tt). eexists. split; [reflexivity|]. discriminate.
Qed.

(** ** update *)

(** C27.  update() outside a training step raises and touches nothing; without a buffer it
    touches nothing; when no callback raises, it calls sample, process_fn, learn, post_process_fn
    in this order, with the sampled indices and the processed batch; process_fn runs with
    [updating] set, learn with the module in training mode, post_process_fn with the mode put
    back; the scheduler is stepped exactly once if there is one, and [updating] ends False. *)
Lemma C27_update_lemma : forall (X B St : Type) sample process_fn learn post_process_fn lr_step ss hb hs (s : pstate X),
  let '(s', r, ev) := @p_update X B St sample process_fn learn post_process_fn lr_step ss hb hs s in
  (p_within s = false -> s' = s /\ r = Err RuntimeError /\ ev = [])
  /\ (p_within s = true -> hb = false -> s' = s /\ r = Ok None /\ ev = [])
  /\ (p_within s = true -> hb = true -> forall stat, r = Ok stat ->
      p_updating s' = false
      /\ exists b indices b' st s1 s2 s2t s3 s3r s4,
         stat = Some st
         /\ sample ss s = (s1, Ok (b, indices))
         /\ process_fn b indices (set_updating s1 true) = (s2, Ok b')
         /\ learn b' s2t = (s3, Ok st) /\ training (p_mod s2t) = true /\ p_ext s2t = p_ext s2
         /\ training (p_mod s3r) = training (p_mod s2) /\ p_ext s3r = p_ext s3
         /\ post_process_fn b' indices s3r = (s4, Ok tt)
         /\ (if hs then exists s5, lr_step s4 = (s5, Ok tt) /\ p_ext s' = p_ext s5 else p_ext s' = p_ext s4)
         /\ ev = [ESample ss; EProcess b indices; ELearn b' true; EPost b' indices] ++ (if hs then [ESched] else [])).
Proof.
  intros X B St sample process_fn learn post_process_fn lr_step ss hb hs s. unfold p_update.
  destruct (p_within s) eqn:Ew; cbn [negb].
  2:{ split; [auto|]. split; intros; discriminate. }
  destruct hb; cbn [negb].
  2:{ split; [discriminate|]. split; [auto|intros; discriminate]. }
  destruct (sample ss s) as [s1 [[b indices]|e]] eqn:E1.
  2:{ split; [discriminate|]. split; [discriminate|]. intros; discriminate. }
  destruct (process_fn b indices (set_updating s1 true)) as [s2 [b'|e]] eqn:E2.
  2:{ split; [discriminate|]. split; [discriminate|]. intros; discriminate. }
  unfold with_train_mode. set (s2t := set_mod s2 (train true (p_mod s2))).
  assert (Em : training (train true (p_mod s2)) = true) by (destruct (p_mod s2); reflexivity). rewrite Em.
  destruct (learn b' s2t) as [s3 [st|e]] eqn:E3.
  2:{ split; [discriminate|]. split; [discriminate|]. intros; discriminate. }
  set (s3r := set_mod s3 (train (training (p_mod s2)) (p_mod s3))).
  destruct (post_process_fn b' indices s3r) as [s4 [[]|e]] eqn:E4.
  2:{ split; [discriminate|]. split; [discriminate|]. intros; discriminate. }
  assert (Hr : training (p_mod s3r) = training (p_mod s2)) by (unfold s3r; cbn; destruct (p_mod s3); reflexivity).
  destruct hs.
  - destruct (lr_step s4) as [s5 [[]|e]] eqn:E5.
    2:{ split; [discriminate|]. split; [discriminate|]. intros; discriminate. }
    split; [discriminate|]. split; [discriminate|]. intros _ _ stat Hs. injection Hs as <-. split; [reflexivity|].
    exists b, indices, b', st, s1, s2, s2t, s3, s3r, s4. do 9 (split; [first [reflexivity|assumption]|]).
    split; [exists s5; split; [exact E5|reflexivity]|reflexivity].
  - split; [discriminate|]. split; [discriminate|]. intros _ _ stat Hs. injection Hs as <-. split; [reflexivity|].
    exists b, indices, b', st, s1, s2, s2t, s3, s3r, s4. do 9 (split; [first [reflexivity|assumption]|]).
    split; [reflexivity|]. rewrite app_nil_r. reflexivity.
Qed.

(** C27.  An exception in any callback is passed on, no later callback is called, and the
    module's training flag is what the callbacks left (an exception in learn does not leave the
    module in training mode). *)
Lemma C27_exception_lemma : forall (X B St : Type) sample process_fn learn post_process_fn lr_step ss hs (s : pstate X) s' e ev,
  @p_update X B St sample process_fn learn post_process_fn lr_step ss true hs s = (s', Err e, ev) -> p_within s = true ->
  (exists b indices b' k, 2 <= k /\ ev = firstn k [ESample ss; EProcess b indices; ELearn b' true; EPost b' indices; ESched]
     /\ (k = 2 -> exists s1, sample ss s = (s1, Ok (b, indices)) /\ process_fn b indices (set_updating s1 true) = (s', Err e))
     /\ (k = 3 -> exists s2 s3, learn b' (set_mod s2 (train true (p_mod s2))) = (s3, Err e) /\ training (p_mod s') = training (p_mod s2) /\ p_ext s' = p_ext s3)
     /\ (k = 4 -> exists s3, post_process_fn b' indices s3 = (s', Err e))
     /\ (k = 5 -> hs = true /\ exists s4, lr_step s4 = (s', Err e)) /\ k <= 5)
  \/ (exists s1, sample ss s = (s1, Err e) /\ ev = [ESample ss]).
Proof.
  intros X B St sample process_fn learn post_process_fn lr_step ss hs s s' e ev. unfold p_update. intros H Ew. rewrite Ew in H. cbn [negb] in H.
  destruct (sample ss s) as [s1 [[b indices]|e1]] eqn:E1.
  2:{ right. injection H as <- <- <-. exists s1. auto. }
  left.
  destruct (process_fn b indices (set_updating s1 true)) as [s2 [b'|e2]] eqn:E2.
  2:{ injection H as <- <- <-. exists b, indices, b, 2. split; [lia|]. split; [reflexivity|].
      split; [intros _; exists s1; split; [reflexivity|exact E2]|]. repeat (split; [lia|]). lia. }
  unfold with_train_mode in H. set (s2t := set_mod s2 (train true (p_mod s2))) in *.
  assert (Em : training (train true (p_mod s2)) = true) by (destruct (p_mod s2); reflexivity). rewrite Em in H.
  exists b, indices, b'.
  destruct (learn b' s2t) as [s3 [st|e3]] eqn:E3.
  2:{ injection H as <- <- <-. exists 3. split; [lia|]. split; [reflexivity|].
      split; [lia|]. split.
      - intros _. exists s2, s3. split; [exact E3|]. split; [|reflexivity]. cbn. destruct (p_mod s3); reflexivity.
      - repeat (split; [lia|]). lia. }
  set (s3r := set_mod s3 (train (training (p_mod s2)) (p_mod s3))) in *.
  destruct (post_process_fn b' indices s3r) as [s4 [[]|e4]] eqn:E4.
  2:{ injection H as <- <- <-. exists 4. split; [lia|]. split; [reflexivity|].
      split; [lia|]. split; [lia|]. split; [intros _; exists s3r; exact E4|]. split; lia. }
  destruct hs; [|discriminate].
  destruct (lr_step s4) as [s5 [[]|e5]] eqn:E5; [discriminate|].
  injection H as <- <- <-. exists 5. split; [lia|]. split; [reflexivity|].
  split; [lia|]. split; [lia|]. split; [lia|]. split; [|lia]. intros _. split; [reflexivity|]. exists s4. exact E5.
Qed.

(** C27.  After an exception in learn, [updating] stays True. *)
Lemma C27_updating_left_set_refuted_lemma : exists (s s' : pstate unit) ev,
  @p_update unit unit unit (fun _ s => (s, Ok (tt, []))) (fun b _ s => (s, Ok b)) (fun _ s => (s, Err RuntimeError))
     (fun _ _ s => (s, Ok tt)) (fun s => (s, Ok tt)) (Some 4%Z) true false s = (s', Err RuntimeError, ev)
  /\ p_updating s = false /\ p_updating s' = true.
Proof.
  exists (mkP (Mod false []) true false tt). do 2 eexists. split; [reflexivity|]. split; reflexivity.
Qed.
