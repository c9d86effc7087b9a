(** * Proofs about the action wrappers *)
From Verif Require Import Py PyLemmas Num WrapModel.
Open Scope nat_scope.

(** Value of a digit list: the first digit is the most significant. *)
Fixpoint radix_value (nvec digits : list nat) : nat :=
  match nvec, digits with
  | n :: nvec, d :: digits => d * fold_right Nat.mul 1 nvec + radix_value nvec digits
  | _, _ => 0
  end.

Lemma prod_skipn nvec i : i < length nvec -> fold_right Nat.mul 1 (skipn i nvec) = nth i nvec 0 * fold_right Nat.mul 1 (skipn (S i) nvec).
Proof.
  revert i. induction nvec as [|n l IH]; intros [|i] H; cbn in H; try lia; [reflexivity|]. apply (IH i). lia.
Qed.

Lemma bases_spec nvec : forall k, k < length nvec ->
  let b := fold_left (fun b i => upd b i (nth (i - 1) b 0 * nth (length nvec - i) nvec 0)) (seq 1 k) (repeat 1 (length nvec)) in
  length b = length nvec /\ forall i, i <= k -> nth i b 0 = fold_right Nat.mul 1 (skipn (length nvec - i) nvec).
Proof.
  induction k as [|k IH]; intros Hk; cbv zeta.
  - split; [apply repeat_length|]. intros i Hi. assert (i = 0) by lia. subst i. rewrite Nat.sub_0_r, skipn_all. cbn [seq fold_left fold_right].
    destruct nvec; [cbn in Hk; lia|reflexivity].
  - destruct (IH ltac:(lia)) as [Hl Hn]. cbv zeta in Hl, Hn. rewrite seq_S, fold_left_app. cbn [fold_left].
    set (b := fold_left _ (seq 1 k) _) in *. split; [rewrite upd_length; exact Hl|].
    intros i Hi. replace (1 + k - 1) with k by lia. replace (1 + k) with (S k) by lia. destruct (Nat.eq_dec i (S k)) as [->|Hne].
    + rewrite nth_upd_same by lia. rewrite (Hn k) by lia.
      rewrite (prod_skipn nvec (length nvec - S k)) by lia. replace (S (length nvec - S k)) with (length nvec - k) by lia. lia.
    + rewrite <- (Hn i) by lia. apply nth_upd_other. lia.
Qed.

Fixpoint tails (nvec : list nat) : list nat :=
  match nvec with [] => [] | _ :: l => fold_right Nat.mul 1 l :: tails l end.
Lemma tails_nth nvec : forall k, nth_error (tails nvec) k = if k <? length nvec then Some (fold_right Nat.mul 1 (skipn (S k) nvec)) else None.
Proof.
  induction nvec as [|n l IH]; intros [|k]; try reflexivity. cbn [tails nth_error]. rewrite IH. reflexivity.
Qed.
Lemma tails_length nvec : length (tails nvec) = length nvec.
Proof. induction nvec; cbn; congruence. Qed.

Lemma rev_bases nvec : rev (md_bases nvec) = tails nvec.
Proof.
  destruct nvec as [|n l]; [reflexivity|]. set (v := n :: l).
  destruct (bases_spec v (length v - 1) ltac:(cbn; lia)) as [Hl Hn]. fold (md_bases v) in Hl, Hn.
  apply nth_error_ext. intros k. rewrite tails_nth. destruct (Nat.ltb_spec k (length v)) as [H|H].
  - rewrite nth_error_nth' with (d := 0) by (rewrite rev_length, Hl; exact H). f_equal.
    rewrite rev_nth by lia. rewrite Hl, Hn by lia. f_equal. f_equal. lia.
  - apply nth_error_None. rewrite rev_length. lia.
Qed.

Lemma action_loop tl : forall acc act,
  fold_left (fun st b => (fst st ++ [snd st / b], snd st mod b)) tl (acc, act)
  = (acc ++ fst (fold_left (fun st b => (fst st ++ [snd st / b], snd st mod b)) tl ([], act)),
     snd (fold_left (fun st b => (fst st ++ [snd st / b], snd st mod b)) tl ([], act))).
Proof.
  induction tl as [|b tl IH]; intros acc act; cbn [fold_left fst snd]; [rewrite app_nil_r; reflexivity|].
  rewrite IH. rewrite (IH ([] ++ _)). cbn [fst snd]. rewrite <- app_assoc. reflexivity.
Qed.
Lemma md_action_cons n l act : md_action (n :: l) act = act / md_size l :: md_action l (act mod md_size l).
Proof.
  unfold md_action. rewrite !rev_bases. cbn [tails fold_left fst snd]. rewrite action_loop. reflexivity.
Qed.

(** C41.  Every discrete action below prod(nvec) gives a point of the product space, the one
    whose mixed-radix value is the action. *)
Lemma C41_decode_lemma : forall nvec act, (forall n, In n nvec -> 0 < n) -> act < md_size nvec ->
  length (md_action nvec act) = length nvec
  /\ (forall i n d, nth_error nvec i = Some n -> nth_error (md_action nvec act) i = Some d -> d < n)
  /\ radix_value nvec (md_action nvec act) = act.
Proof.
  induction nvec as [|n l IH]; intros act Hpos Hact.
  - cbn in *. split; [reflexivity|]. split; [intros [|i]; discriminate|lia].
  - rewrite md_action_cons. cbn [md_size fold_right] in Hact. fold (md_size l) in Hact.
    assert (Hm : 0 < md_size l).
    { clear - Hpos. assert (H : forall k, In k l -> 0 < k) by (intros k Hk; apply Hpos; right; exact Hk). clear Hpos.
      induction l as [|k l IH]; cbn; [lia|]. apply Nat.mul_pos_pos; [apply H; left; reflexivity|]. apply IH. intros j Hj. apply H. right. exact Hj. }
    destruct (IH (act mod md_size l) ltac:(intros k Hk; apply Hpos; right; exact Hk) ltac:(apply Nat.mod_upper_bound; lia)) as (H1 & H2 & H3).
    split; [cbn; lia|]. split.
    + intros [|i] n' d E1 E2; cbn in E1, E2; [|apply (H2 i n' d E1 E2)]. injection E1 as <-. injection E2 as <-.
      apply Nat.div_lt_upper_bound; lia.
    + cbn [radix_value]. rewrite H3. fold (md_size l). rewrite Nat.mul_comm. symmetry. apply Nat.div_mod. lia.
Qed.

(** C41.  Every point of the product space is reached, by the action that is its mixed-radix
    value; with C41_decode: the map is a bijection. *)
Lemma C41_encode_lemma : forall nvec digits, length digits = length nvec ->
  (forall i n d, nth_error nvec i = Some n -> nth_error digits i = Some d -> d < n) ->
  radix_value nvec digits < md_size nvec /\ md_action nvec (radix_value nvec digits) = digits.
Proof.
  induction nvec as [|n l IH]; intros [|d digits] Hl Hd; try discriminate.
  - split; [cbn; lia|reflexivity].
  - destruct (IH digits ltac:(cbn in Hl; lia) ltac:(intros i n' d' E1 E2; apply (Hd (S i) n' d' E1 E2))) as [H1 H2].
    pose proof (Hd 0 n d eq_refl eq_refl) as H3. rewrite md_action_cons. cbn [radix_value]. fold (md_size l).
    change (md_size (n :: l)) with (n * md_size l). set (m := md_size l) in *. set (r := radix_value l digits) in *. split; [nia|].
    f_equal.
    + symmetry. apply (Nat.div_unique _ _ _ r); lia.
    + transitivity (md_action l r); [|exact H2]. f_equal. symmetry. apply (Nat.mod_unique _ _ d r); lia.
Qed.

(** ** ContinuousToDiscrete *)
Lemma nq_S n : (nq (S n) = nq n + 1)%Qc.
Proof. unfold nq. apply Qc_is_canon. rewrite this_plus, !this_Q2Qc. rewrite Nat2Z.inj_succ. unfold Z.succ. rewrite inject_Z_plus. reflexivity. Qed.
Lemma nq_mono a b : a <= b -> (nq a <= nq b)%Qc.
Proof. induction 1; [apply Qcle_refl|]. rewrite nq_S. qclra. Qed.
Lemma nq_lt a b : a < b -> (nq a < nq b)%Qc.
Proof. intros H. assert (H' : (nq (S a) <= nq b)%Qc) by (apply nq_mono; lia). rewrite nq_S in H'. qclra. Qed.

Lemma linspace_nth lo hi a i : nth_error (linspace lo hi a) i = if i <? a then Some (if a =? 1 then lo else lo + nq i * ((hi - lo) / nq (a - 1)))%Qc else None.
Proof. unfold linspace. rewrite nth_error_map_seq. destruct (i <? a); reflexivity. Qed.

Lemma linspace_ok lo hi a i : (lo <= hi)%Qc -> i < a ->
  exists x, nth_error (linspace lo hi a) i = Some x /\ (lo <= x)%Qc /\ (x <= hi)%Qc
    /\ (i = 0 -> x = lo) /\ (1 < a -> S i = a -> x = hi)
    /\ (x = lo + (hi - lo) * (nq i / nq (a - 1)))%Qc.
Proof.
  intros Hle Hi. rewrite linspace_nth. destruct (Nat.ltb_spec i a); [|lia]. eexists. split; [reflexivity|].
  destruct (Nat.eqb_spec a 1) as [->|Ha].
  - assert (i = 0) by lia. subst i. split; [qclra|]. split; [exact Hle|]. split; [reflexivity|]. split; [lia|].
    change (nq 0) with 0%Qc. unfold Qcdiv. ring.
  - assert (Hn : (0 < nq (a - 1))%Qc) by (apply (nq_lt 0); lia).
    assert (Hn0 : nq (a - 1) <> 0%Qc) by (intros E; rewrite E in Hn; qclra).
    set (d := ((hi - lo) / nq (a - 1))%Qc). assert (Ed : (d * nq (a - 1) = hi - lo)%Qc) by (unfold d; field; exact Hn0).
    assert (Hd : (0 <= d)%Qc) by (destruct (Qclt_le_dec d 0) as [F|F]; [exfalso; qcnra|exact F]).
    assert (H0 : (0 <= nq i)%Qc) by (apply (nq_mono 0); lia). assert (H1 : (nq i <= nq (a - 1))%Qc) by (apply nq_mono; lia).
    split; [assert (0 <= nq i * d)%Qc by qcnra; qclra|]. split; [assert (nq i * d <= d * nq (a - 1))%Qc by qcnra; qclra|].
    split; [intros ->; change (nq 0) with 0%Qc; ring|]. split.
    + intros _ E. replace i with (a - 1) by lia. rewrite Qcmult_comm, Ed. ring.
    + unfold d. field. exact Hn0.
Qed.

Lemma cd_row_ok low : forall high l act, length high = length low -> length l = length low -> length act = length low ->
  (forall j a n, nth_error act j = Some a -> nth_error l j = Some n -> a < n) ->
  exists r, cd_row (map (fun x => linspace (fst (fst x)) (snd (fst x)) (snd x)) (combine (combine low high) l)) (map Z.of_nat act) = Ok r
    /\ length r = length low
    /\ forall j a n lo hi, nth_error act j = Some a -> nth_error l j = Some n -> nth_error low j = Some lo -> nth_error high j = Some hi ->
         nth_error r j = nth_error (linspace lo hi n) a.
Proof.
  induction low as [|lo low IH]; intros [|hi high] [|n l] [|a act] H1 H2 H3 Hr; try discriminate.
  - exists []. split; [reflexivity|]. split; [reflexivity|]. intros [|j]; discriminate.
  - cbn [map combine cd_row fst snd].
    destruct (IH high l act ltac:(cbn in H1; lia) ltac:(cbn in H2; lia) ltac:(cbn in H3; lia) ltac:(intros j a' n' E1 E2; apply (Hr (S j) a' n' E1 E2))) as (r & E & Hl & Hn).
    pose proof (Hr 0 a n eq_refl eq_refl) as Ha.
    assert (Ex : exists x, nth_error (linspace lo hi n) a = Some x).
    { rewrite linspace_nth. destruct (Nat.ltb_spec a n); [eauto|lia]. }
    destruct Ex as (x & Ex). rewrite (zget_nth_error _ _ _ Ex). cbn [bind]. rewrite E. cbn [bind].
    exists (x :: r). split; [reflexivity|]. split; [cbn; lia|].
    intros [|j] a' n' lo' hi' E1 E2 E3 E4; cbn in E1, E2, E3, E4.
    + injection E1 as <-. injection E2 as <-. injection E3 as <-. injection E4 as <-. symmetry. exact Ex.
    + apply (Hn j a' n' lo' hi' E1 E2 E3 E4).
Qed.

(** C42.  Actions that are neither a vector nor a matrix are refused. *)
Lemma C42_dimensions_lemma : forall low high p c, cd_init low high p = Ok c -> cd_action c AOther = Err AssertionError.
Proof. reflexivity. Qed.

(** C42.  Every action of the MultiDiscrete space is mapped to a point of the Box; index 0 is
    low, the last index high (if the dimension has at least two points), and the points are
    equally spaced in between (so strictly increasing when low < high). *)
Lemma C42_mesh_lemma : forall low high p c acts, length high = length low -> cd_init low high p = Ok c ->
  (forall j lo hi, nth_error low j = Some lo -> nth_error high j = Some hi -> (lo <= hi)%Qc) ->
  (forall act, In act acts -> length act = length (cd_space c)
     /\ forall j a n, nth_error act j = Some a -> nth_error (cd_space c) j = Some n -> a < n) ->
  length (cd_space c) = length low
  /\ exists r, cd_action c (A2 (map (map Z.of_nat) acts)) = Ok r /\ length r = length acts
     /\ (forall act, acts = [act] -> cd_action c (A1 (map Z.of_nat act)) = Ok r)
     /\ forall i act row, nth_error acts i = Some act -> nth_error r i = Some row -> length row = length low
        /\ forall j a n lo hi, nth_error act j = Some a -> nth_error (cd_space c) j = Some n ->
             nth_error low j = Some lo -> nth_error high j = Some hi ->
             exists x, nth_error row j = Some x /\ (lo <= x)%Qc /\ (x <= hi)%Qc
               /\ (a = 0 -> x = lo) /\ (1 < n -> S a = n -> x = hi)
               /\ (x = lo + (hi - lo) * (nq a / nq (n - 1)))%Qc.
Proof.
  intros low high p c acts Hl Hc Hle Hacts. unfold cd_init in Hc. set (l := match p with PInt a => repeat a (length low) | PList l => l end) in *.
  destruct (Nat.eqb_spec (length l) (length low)) as [El|]; [|discriminate]. injection Hc as <-. cbn [cd_space cd_mesh negb] in *.
  split; [exact El|]. unfold cd_action. cbn [cd_mesh].
  set (mesh := map _ _).
  assert (Hrows : exists r, mapM (cd_row mesh) (map (map Z.of_nat) acts) = Ok r /\ length r = length acts
     /\ forall i act row, nth_error acts i = Some act -> nth_error r i = Some row -> cd_row mesh (map Z.of_nat act) = Ok row).
  { clear - Hacts Hl El. induction acts as [|act acts IH]; cbn [map mapM].
    - exists []. split; [reflexivity|]. split; [reflexivity|]. intros [|i]; discriminate.
    - destruct (Hacts act (or_introl eq_refl)) as [H1 H2].
      destruct (cd_row_ok low high l act Hl El ltac:(lia) H2) as (row & E & _). fold mesh in E. rewrite E. cbn [bind].
      destruct (IH ltac:(intros a Ha; apply Hacts; right; exact Ha)) as (r & Er & Hlr & Hr). rewrite Er. cbn [bind].
      exists (row :: r). split; [reflexivity|]. split; [cbn; lia|]. intros [|i] a' row' E1 E2; cbn in E1, E2; [congruence|apply (Hr i a' row' E1 E2)]. }
  destruct Hrows as (r & Er & Hlr & Hr). exists r. split; [exact Er|]. split; [exact Hlr|]. split.
  { intros act ->. cbn [map mapM] in Er. destruct (cd_row mesh (map Z.of_nat act)) as [row|]; [|discriminate]. cbn [bind] in Er |- *. exact Er. }
  intros i act row E1 E2. destruct (Hacts act (nth_error_In _ _ E1)) as [H1 H2].
  destruct (cd_row_ok low high l act Hl El ltac:(lia) H2) as (row' & E & Hlen & Hn). fold mesh in E.
  rewrite (Hr i act row E1 E2) in E. injection E as <-. split; [exact Hlen|].
  intros j a n lo hi F1 F2 F3 F4. rewrite (Hn j a n lo hi F1 F2 F3 F4). apply linspace_ok; [apply (Hle j lo hi F3 F4)|apply (H2 j a n F1 F2)].
Qed.

(** C42.  Strict monotonicity of the points. *)
Lemma C42_increasing_lemma : forall lo hi n a b x y, (lo < hi)%Qc -> a < b ->
  nth_error (linspace lo hi n) a = Some x -> nth_error (linspace lo hi n) b = Some y -> (x < y)%Qc.
Proof.
  intros lo hi n a b x y Hlt Hab Ex Ey. rewrite linspace_nth in Ex, Ey.
  destruct (Nat.ltb_spec a n); [|discriminate]. destruct (Nat.ltb_spec b n); [|discriminate].
  destruct (Nat.eqb_spec n 1); [lia|]. injection Ex as <-. injection Ey as <-.
  assert (Hn : (0 < nq (n - 1))%Qc) by (apply (nq_lt 0); lia).
  assert (Hn0 : nq (n - 1) <> 0%Qc) by (intros E; rewrite E in Hn; qclra).
  set (d := ((hi - lo) / nq (n - 1))%Qc). assert (Ed : (d * nq (n - 1) = hi - lo)%Qc) by (unfold d; field; exact Hn0).
  assert (Hd : (0 < d)%Qc) by (destruct (Qclt_le_dec 0 d) as [F|F]; [exact F|exfalso; qcnra]).
  assert (Hm : (nq a < nq b)%Qc) by (apply nq_lt; lia). assert (nq a * d < nq b * d)%Qc by qcnra. qclra.
Qed.
