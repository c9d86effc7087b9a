(** * Proofs about the evaluation plots *)
From Verif Require Import Py PyLemmas Num StatModel StatProofs EvalModel EvalProofs RliModel RliSpec.
From Coq Require Import Permutation.
Open Scope nat_scope.

(** ** Sorting *)
Lemma insert_perm x l : Permutation (insert x l) (x :: l).
Proof.
  induction l as [|y l IH]; [reflexivity|]. cbn. destruct (Qcleb x y); [reflexivity|].
  rewrite IH. apply perm_swap.
Qed.
Lemma sort_perm l : Permutation (sort l) l.
Proof. induction l as [|x l IH]; [reflexivity|]. cbn. rewrite insert_perm. now constructor. Qed.
Lemma insert_comm x y l : insert x (insert y l) = insert y (insert x l).
Proof.
  assert (E : forall a b : Qc, (a <= b)%Qc -> (b <= a)%Qc -> a = b) by (intros; now apply Qcle_antisym).
  induction l as [|h l IH]; cbn.
  - destruct (Qcleb_spec x y), (Qcleb_spec y x); try reflexivity; [rewrite (E x y) by assumption; reflexivity|qclra].
  - destruct (Qcleb_spec y h) as [A|A]; destruct (Qcleb_spec x h) as [B|B]; cbn.
    + destruct (Qcleb_spec x y) as [C|C]; destruct (Qcleb_spec y x) as [D|D]; cbn.
      * now rewrite (E x y) by assumption.
      * destruct (Qcleb_spec y h); [reflexivity|qclra].
      * destruct (Qcleb_spec x h); [reflexivity|qclra].
      * qclra.
    + destruct (Qcleb_spec x y); [qclra|]. destruct (Qcleb_spec x h); [qclra|]. destruct (Qcleb_spec y h); [reflexivity|qclra].
    + destruct (Qcleb_spec x h); [|qclra]. destruct (Qcleb_spec y x); [qclra|]. destruct (Qcleb_spec y h); [qclra|reflexivity].
    + destruct (Qcleb_spec x h); [qclra|]. destruct (Qcleb_spec y h); [qclra|]. now rewrite IH.
Qed.
Lemma sort_of_perm l l' : Permutation l l' -> sort l = sort l'.
Proof. induction 1 as [|x l l' _ IH|x y l|l l' l'' _ IH1 _ IH2]; cbn; [reflexivity|now rewrite IH|apply insert_comm|congruence]. Qed.
Lemma sort_length l : length (sort l) = length l.
Proof. apply Permutation_length, sort_perm. Qed.
Lemma insert_map (f : Qc -> Qc) x l : (forall a b, Qcleb (f a) (f b) = Qcleb a b) -> insert (f x) (map f l) = map f (insert x l).
Proof. intro H. induction l as [|y l IH]; [reflexivity|]. cbn. rewrite H. destruct (Qcleb x y); [reflexivity|]. cbn. now rewrite IH. Qed.
Lemma sort_map (f : Qc -> Qc) l : (forall a b, Qcleb (f a) (f b) = Qcleb a b) -> sort (map f l) = map f (sort l).
Proof. intro H. induction l as [|x l IH]; [reflexivity|]. cbn. now rewrite IH, insert_map. Qed.
Lemma insert_last x l : (forall y, In y l -> (y <= x)%Qc) -> insert x l = l ++ [x] \/ (exists y, In y l /\ y = x).
Proof.
  induction l as [|y l IH]; intro H; [now left|]. cbn. destruct (Qcleb_spec x y) as [A|A].
  - right. exists y. split; [now left|]. apply Qcle_antisym; [apply H; now left|exact A].
  - destruct IH as [IH|(z & Hz & E)]; [intros z Hz; apply H; now right| |].
    + left. cbn. now rewrite IH.
    + right. exists z. split; [now right|exact E].
Qed.
Fixpoint asc (l : list Qc) : Prop := match l with x :: (y :: _) as l' => (x <= y)%Qc /\ asc l' | _ => True end.
Lemma insert_asc x l : asc l -> asc (insert x l).
Proof.
  induction l as [|y l IH]; [intros _; exact Logic.I|]. intro H. cbn [insert]. destruct (Qcleb_spec x y) as [A|A]; [split; assumption|].
  destruct l as [|z l]; [cbn; split; [apply Qclt_le_weak, A|exact Logic.I]|]. destruct H as [H1 H2]. specialize (IH H2). cbn [insert] in *.
  destruct (Qcleb x z); cbn in *; [split; [apply Qclt_le_weak, A|exact IH]|split; [exact H1|exact IH]].
Qed.
Lemma sort_asc l : asc (sort l).
Proof. induction l as [|x l IH]; [exact Logic.I|]. now apply insert_asc. Qed.
Lemma asc_tail x l : asc (x :: l) -> asc l.
Proof. destruct l; [easy|]. now intros [_ H]. Qed.
Lemma asc_head x l : asc (x :: l) -> forall y, In y l -> (x <= y)%Qc.
Proof.
  revert x. induction l as [|z l IH]; intros x H y Hy; [destruct Hy|]. destruct H as [H1 H2].
  destruct Hy as [<-|Hy]; [exact H1|]. apply Qcle_trans with z; [exact H1|]. now apply IH.
Qed.
(** Inserting an upper bound into an ascending list appends it (equal elements are the same). *)
Lemma insert_top x l : asc l -> (forall y, In y l -> (y <= x)%Qc) -> insert x l = l ++ [x].
Proof.
  induction l as [|y l IH]; intros Ha H; [reflexivity|]. cbn. destruct (Qcleb_spec x y) as [A|A].
  - assert (E : forall z, In z (y :: l) -> z = x).
    { intros z Hz. apply Qcle_antisym; [now apply H|]. apply Qcle_trans with y; [exact A|]. destruct Hz as [<-|Hz]; [apply Qcle_refl|]. now apply asc_head with (l := l). }
    clear -E. assert (R : forall m : list Qc, (forall z, In z m -> z = x) -> x :: m = m ++ [x]).
    { induction m as [|z m IHm]; intro H; [reflexivity|]. cbn. rewrite (H z) by now left. f_equal. apply IHm. intros z' Hz'. apply H. now right. }
    exact (R (y :: l) E).
  - cbn. f_equal. apply IH; [now apply asc_tail in Ha|]. intros z Hz. apply H. now right.
Qed.

(** ** The interquartile mean *)
Definition kept (l : list Qc) : list Qc := firstn (length l - length l / 4 - length l / 4) (skipn (length l / 4) (sort l)).
Lemma quarter n : 0 < n -> n / 4 + n / 4 < n.
Proof. intro H. assert (n / 4 <= n / 2) by (apply Nat.div_le_compat_l; lia). pose proof (Nat.div_mod n 4 ltac:(lia)) as E. set (c := n / 4) in *. set (m := n mod 4) in *. clearbody c m. lia. Qed.
Lemma kept_length l : length (kept l) = length l - length l / 4 - length l / 4.
Proof.
  unfold kept. rewrite firstn_length, skipn_length, sort_length. set (c := length l / 4). clearbody c. lia.
Qed.
Lemma kept_nonempty l : l <> [] -> kept l <> [].
Proof.
  intros H E. pose proof (kept_length l) as L. rewrite E in L. change (length (@nil Qc)) with 0 in L.
  assert (P : 0 < length l) by (destruct l; [contradiction|cbn; lia]). pose proof (quarter _ P) as Q. set (c := length l / 4) in *. clearbody c. lia.
Qed.
Lemma in_firstn {X} n (l : list X) x : In x (firstn n l) -> In x l.
Proof. revert l. induction n as [|n IH]; intros [|y l] H; cbn in *; try contradiction. destruct H as [H|H]; auto. Qed.
Lemma in_skipn {X} n (l : list X) x : In x (skipn n l) -> In x l.
Proof. revert l. induction n as [|n IH]; intros [|y l] H; cbn in *; auto. Qed.
Lemma kept_in l x : In x (kept l) -> In x l.
Proof. intro H. apply in_firstn, in_skipn in H. apply (Permutation_in _ (sort_perm l)), H. Qed.
Lemma iqm_kept l : iqm l = np_mean (kept l).
Proof. reflexivity. Qed.

(** C317. The interquartile mean of the runs lies between the smallest and the largest of them, does not depend on their order, follows
    every change of unit, and is the mean if there are fewer than four runs. *)
Lemma C317_iqm_lemma : forall l : list Qc, l <> [] ->
  (forall lo hi, (forall x, In x l -> (lo <= x)%Qc /\ (x <= hi)%Qc) -> (lo <= iqm l)%Qc /\ (iqm l <= hi)%Qc)
  /\ (forall l', Permutation l l' -> iqm l' = iqm l)
  /\ (forall a b, (0 < a)%Qc -> iqm (map (fun x => (a * x + b)%Qc) l) = (a * iqm l + b)%Qc)
  /\ (length l < 4 -> iqm l = np_mean l).
Proof.
  intros l Hl. rewrite !iqm_kept. pose proof (kept_nonempty l Hl) as Hk. split; [|split; [|split]].
  - intros lo hi H. apply mean_le; [exact Hk|]. intros x Hx. apply H. now apply kept_in.
  - intros l' P. unfold iqm. rewrite <- (Permutation_length P), <- (sort_of_perm _ _ P). reflexivity.
  - intros a b Ha. unfold iqm. rewrite map_length, sort_map, skipn_map, firstn_map; [now apply mean_affine|].
    intros x y. destruct (Qcleb_spec x y) as [A|A]; destruct (Qcleb_spec (a * x + b) (a * y + b)) as [B|B]; try reflexivity; exfalso.
    + assert (H : (a * x <= a * y)%Qc) by (rewrite (Qcmult_comm a x), (Qcmult_comm a y); apply Qcmult_le_compat_r; [exact A|now apply Qclt_le_weak]). qclra.
    + assert (H : (a * y < a * x)%Qc) by (rewrite (Qcmult_comm a x), (Qcmult_comm a y); apply Qcmult_lt_compat_r; [exact Ha|exact A]). qclra.
  - intro H. unfold kept. rewrite Nat.div_small by exact H. rewrite !Nat.sub_0_r. cbn [skipn]. rewrite <- (sort_length l) at 1. rewrite firstn_all.
    unfold np_mean. rewrite sort_length. f_equal. pose proof (sort_perm l) as P. clear -P. induction P as [|x l l' _ IH|x y l|a b c _ IH1 _ IH2]; cbn; [reflexivity|now rewrite IH|ring|congruence].
Qed.
(** C317. The best run among four or more does not count: however much larger its return is, the interquartile mean is the same. *)
Lemma C317_outlier_lemma : forall (l : list Qc) (m m' : Qc), 3 <= length l ->
  (forall x, In x l -> (x <= m)%Qc /\ (x <= m')%Qc) -> iqm (m :: l) = iqm (m' :: l).
Proof.
  intros l m m' Hl H. unfold iqm. cbn [length sort].
  assert (E : forall z, (forall x, In x l -> (x <= z)%Qc) -> insert z (sort l) = sort l ++ [z]).
  { intros z Hz. apply insert_top; [apply sort_asc|]. intros y Hy. apply Hz. apply (Permutation_in _ (sort_perm l)), Hy. }
  rewrite !E by (intros; apply H; assumption). set (n := length l) in *. assert (Hc : 1 <= S n / 4) by (apply Nat.div_le_lower_bound; lia).
  pose proof (quarter (S n) ltac:(lia)) as Hq. set (c := S n / 4) in *. clearbody c.
  assert (F : forall z, firstn (S n - c - c) (skipn c (sort l ++ [z])) = firstn (S n - c - c) (skipn c (sort l))).
  { intro z. rewrite skipn_app, firstn_app, skipn_length, sort_length. fold n. replace (S n - c - c - (n - c)) with 0 by lia. now rewrite firstn_O, app_nil_r. }
  now rewrite !F.
Qed.
(** C317. The curve has one value for each column, the interquartile mean of the returns of all runs in that column. *)
Lemma C317_curve_lemma : forall (t : list (list Qc)) (n k : nat), table t n k ->
  length (iqm_curve t) = k /\
  forall j, j < k -> nth_error (iqm_curve t) j = Some (iqm (map (fun row => nth j row 0%Qc) t)).
Proof.
  intros t n k (Hn & Hp & Hk). unfold iqm_curve. assert (E : match t with [] => 0 | row :: _ => length row end = k).
  { destruct t as [|row t]; [cbn in Hn; lia|]. apply Hk. now left. }
  rewrite E. split; [now rewrite map_length, seq_length|]. intros j Hj. rewrite nth_error_map, nth_error_nth' with (d := 0) by (now rewrite seq_length). cbn [option_map]. now rewrite seq_nth by exact Hj.
Qed.

(** ** Thresholds and profiles *)
Lemma linspace_nth lo hi n i : i < n -> nth_error (linspace lo hi n) i = Some (lo + sq i * ((hi - lo) / sq (n - 1)))%Qc.
Proof. intro H. unfold linspace. rewrite nth_error_map, nth_error_nth' with (d := 0) by (now rewrite seq_length). cbn [option_map]. now rewrite seq_nth by exact H. Qed.
Lemma linspace_length lo hi n : length (linspace lo hi n) = n.
Proof. unfold linspace. now rewrite map_length, seq_length. Qed.
Lemma sq_mono a b : a <= b -> (sq a <= sq b)%Qc.
Proof. intro H. replace b with (a + (b - a)) by lia. rewrite sq_plus. pose proof (sq_nonneg (b - a)). qclra. Qed.
Lemma table_ends t lo hi : table_min t = Ok lo -> table_max t = Ok hi -> least lo (concat t) /\ greatest hi (concat t).
Proof.
  unfold table_min, table_max. intros A B. assert (N : concat t <> []) by (intro E; rewrite E in A; discriminate).
  destruct (concat t) as [|x l] eqn:E; [contradiction|]. injection A as <-. injection B as <-. split; [exact (min_spec (x :: l) N)|exact (max_spec (x :: l) N)].
Qed.
(** C316. Without given thresholds there are 101, evenly spaced, from the smallest to the largest return of the scope. *)
Lemma C316_thresholds_lemma : forall dir (r : result) name s n returns steps th,
  rliable_data dir r name None s = Ok (n, returns, steps, th) ->
  returns = scope_returns r s /\ steps = scope_steps r s /\ length th = 101 /\ ascending th /\
  exists lo hi, least lo (concat returns) /\ greatest hi (concat returns) /\ nth_error th 0 = Some lo /\ nth_error th 100 = Some hi /\
    forall i x y, nth_error th i = Some x -> nth_error th (S i) = Some y -> ((y - x) * sq 100 = hi - lo)%Qc.
Proof.
  intros dir r name s n returns steps th H. unfold rliable_data in H.
  assert (E : exists lo hi, table_min returns = Ok lo /\ table_max returns = Ok hi /\ th = linspace lo hi 101 /\ returns = scope_returns r s /\ steps = scope_steps r s).
  { destruct s; cbn [bind] in H; try discriminate; (destruct (table_min _) as [lo|] eqn:A; [|discriminate]); cbn [bind] in H; (destruct (table_max _) as [hi|] eqn:B; [|discriminate]);
      cbn [bind] in H; injection H as <- <- <- <-; exists lo, hi; auto. }
  destruct E as (lo & hi & A & B & -> & Hr & Hs). destruct (table_ends _ _ _ A B) as [L G].
  assert (Hle : (lo <= hi)%Qc) by (apply L, G). clear H A B.
  assert (S100 : sq (101 - 1) = sq 100) by reflexivity. pose proof (sq_pos 100 ltac:(lia)) as P. pose proof (sq_neq 100 ltac:(lia)) as NZ.
  set (d := ((hi - lo) / sq 100)%Qc). assert (Hd : (d * sq 100 = hi - lo)%Qc) by (unfold d; field; exact NZ).
  assert (Hn : forall i, i < 101 -> nth_error (linspace lo hi 101) i = Some (lo + sq i * d)%Qc) by (intros i Hi; rewrite linspace_nth by exact Hi; rewrite S100; reflexivity).
  assert (Hlt : forall i x, nth_error (linspace lo hi 101) i = Some x -> i < 101) by (intros i x Hx; rewrite <- (linspace_length lo hi 101); apply nth_error_Some; congruence).
  assert (Hd0 : (0 <= d)%Qc).
  { destruct (Qcleb_spec 0 d) as [X|X]; [exact X|]. exfalso. assert (Y : (d * sq 100 < 0 * sq 100)%Qc) by (apply Qcmult_lt_compat_r; assumption). rewrite Hd in Y.
    replace (0 * sq 100)%Qc with 0%Qc in Y by ring. clear -Y Hle. qclra. }
  clearbody d. clear S100.
  split; [exact Hr|]. split; [exact Hs|]. split; [apply linspace_length|]. split.
  - intros i j x y Hij Hx Hy. pose proof (Hlt _ _ Hy) as Lj. rewrite Hn in Hx by (clear -Hij Lj; lia). rewrite Hn in Hy by exact Lj. injection Hx as <-. injection Hy as <-.
    assert (M : (sq i * d <= sq j * d)%Qc) by (apply Qcmult_le_compat_r; [now apply sq_mono|exact Hd0]). clear -M. revert M. generalize (sq i * d)%Qc (sq j * d)%Qc. intros u v M. qclra.
  - exists lo, hi. split; [exact L|]. split; [exact G|]. split; [|split].
    + rewrite Hn by (clear; lia). f_equal. change (sq 0) with 0%Qc. ring.
    + rewrite Hn by (clear; lia). f_equal. rewrite (Qcmult_comm (sq 100)), Hd. ring.
    + intros i x y Hx Hy. pose proof (Hlt _ _ Hy) as Lj. rewrite Hn in Hx by (clear -Lj; lia). rewrite Hn in Hy by exact Lj. injection Hx as <-. injection Hy as <-. rewrite sq_S, <- Hd. ring.
Qed.
Definition above (t : Qc) (l : list Qc) : list Qc := filter (fun x => Qcltb t x) l.
Lemma above_mono t u l : (t <= u)%Qc -> length (above u l) <= length (above t l).
Proof.
  intro H. unfold above. induction l as [|x l IH]; [apply le_n|]. cbn [filter]. destruct (Qcltb_spec u x) as [A|A]; destruct (Qcltb_spec t x) as [B|B]; cbn [length]; try lia.
  exfalso. clear -H A B. qclra.
Qed.
Lemma above_length t l : length (above t l) <= length l.
Proof. unfold above. induction l as [|x l IH]; [apply le_n|]. cbn [filter]. destruct (Qcltb t x); cbn [length]; lia. Qed.
(** C316. The profile gives for each threshold the fraction of the runs whose final score is larger: it lies between 0 and 1, is 1 below and
    0 from the largest score on, and falls with the threshold. *)
Lemma C316_profile_lemma : forall scores th : list Qc, scores <> [] ->
  length (profile scores th) = length th /\
  (forall i t y, nth_error th i = Some t -> nth_error (profile scores th) i = Some y ->
     (y * sq (length scores) = sq (length (filter (fun x => Qcltb t x) scores)))%Qc /\ (0 <= y)%Qc /\ (y <= 1)%Qc
     /\ ((forall x, In x scores -> (t < x)%Qc) <-> y = 1%Qc) /\ ((forall x, In x scores -> (x <= t)%Qc) <-> y = 0%Qc))
  /\ (ascending th -> descending (profile scores th)).
Proof.
  intros scores th Hne. assert (P : (0 < sq (length scores))%Qc) by (apply sq_pos; destruct scores; [contradiction|cbn; lia]).
  assert (NZ : sq (length scores) <> 0%Qc) by (apply sq_neq; destruct scores; [contradiction|cbn; lia]).
  assert (Hn : forall i t, nth_error th i = Some t -> nth_error (profile scores th) i = Some (sq (length (above t scores)) / sq (length scores))%Qc).
  { intros i t Ht. unfold profile. rewrite nth_error_map, Ht. reflexivity. }
  assert (Hdiv : forall a : Qc, (a / sq (length scores) * sq (length scores) = a)%Qc) by (intro a; field; exact NZ).
  assert (Hle : forall a b : Qc, (a <= b)%Qc -> (a / sq (length scores) <= b / sq (length scores))%Qc).
  { intros a b H. unfold Qcdiv. apply Qcmult_le_compat_r; [exact H|]. destruct (Qcleb_spec 0 (/ sq (length scores))) as [X|X]; [exact X|]. exfalso.
    assert (Y : (/ sq (length scores) * sq (length scores) < 0 * sq (length scores))%Qc) by (apply Qcmult_lt_compat_r; assumption).
    rewrite Qcmult_inv_l in Y by exact NZ. replace (0 * sq (length scores))%Qc with 0%Qc in Y by ring. clear -Y. qclra. }
  assert (H1 : (sq (length scores) / sq (length scores) = 1)%Qc) by (field; exact NZ).
  assert (H0 : (sq 0 / sq (length scores) = 0)%Qc) by (change (sq 0) with 0%Qc; unfold Qcdiv; ring).
  split; [apply map_length|]. split.
  - intros i t y Ht Hy. rewrite (Hn _ _ Ht) in Hy. injection Hy as <-. fold (above t scores). split; [apply Hdiv|]. split; [apply Qcle_trans with (sq 0 / sq (length scores))%Qc; [rewrite H0; apply Qcle_refl|apply Hle, sq_mono; clear; lia]|].
    split; [apply Qcle_trans with (sq (length scores) / sq (length scores))%Qc; [apply Hle, sq_mono, above_length|rewrite H1; apply Qcle_refl]|].
    assert (Inj : forall a b, (sq a / sq (length scores) = sq b / sq (length scores))%Qc -> a = b).
    { intros a b E. assert (E' : sq a = sq b) by (rewrite <- (Hdiv (sq a)), <- (Hdiv (sq b)), E; reflexivity). clear -E'.
      destruct (Nat.lt_trichotomy a b) as [L|[L|L]]; [|exact L|]; exfalso.
      - replace b with (a + (b - a)) in E' by lia. rewrite sq_plus in E'. pose proof (sq_pos (b - a) ltac:(lia)). qclra.
      - replace a with (b + (a - b)) in E' by lia. rewrite sq_plus in E'. pose proof (sq_pos (a - b) ltac:(lia)). qclra. }
    split; split.
    + intro H. assert (E : above t scores = scores); [|rewrite E; exact H1]. clear -H. induction scores as [|x l IH]; [reflexivity|]. cbn.
      destruct (Qcltb_spec t x) as [A|A]; [f_equal; apply IH; intros z Hz; apply H; now right|]. exfalso. specialize (H x (or_introl eq_refl)). qclra.
    + intro H. assert (H' : (sq (length (above t scores)) / sq (length scores) = sq (length scores) / sq (length scores))%Qc) by (rewrite H1; exact H). clear H. rename H' into H. apply Inj in H. clear -H. induction scores as [|x l IH]; [intros ? []|]. intros z Hz.
      pose proof (above_length t l) as X. unfold above in *. cbn [filter] in H. destruct (Qcltb_spec t x) as [A|A]; cbn [length] in H; [|lia]. destruct Hz as [<-|Hz]; [exact A|]. apply IH; [lia|exact Hz].
    + intro H. assert (E : above t scores = []); [|rewrite E; exact H0]. clear -H. induction scores as [|x l IH]; [reflexivity|]. cbn.
      destruct (Qcltb_spec t x) as [A|A]; [exfalso; specialize (H x (or_introl eq_refl)); qclra|]. apply IH. intros z Hz. apply H. now right.
    + intro H. assert (H' : (sq (length (above t scores)) / sq (length scores) = sq 0 / sq (length scores))%Qc) by (rewrite H0; exact H). clear H. rename H' into H. apply Inj in H. clear -H. induction scores as [|x l IH]; [intros ? []|]. cbn in H. intros z Hz.
      destruct (Qcltb_spec t x) as [A|A]; cbn in H; [discriminate|]. destruct Hz as [<-|Hz]; [exact A|]. now apply IH.
  - intros Ha i j x y Hij Hx Hy. unfold profile in Hx, Hy. rewrite nth_error_map in Hx, Hy.
    destruct (nth_error th i) as [t|] eqn:Ti; [|discriminate]. destruct (nth_error th j) as [u|] eqn:Tj; [|discriminate]. cbn in Hx, Hy. injection Hx as <-. injection Hy as <-.
    apply Hle, sq_mono, above_mono. eapply Ha; eauto.
Qed.

(** ** The figures *)
Lemma final_ok t n k : table t n (S k) -> final_scores t = Ok (map (fun row => nth k row 0%Qc) t).
Proof.
  intros (_ & _ & H). unfold final_scores. clear n. induction t as [|row t IH]; [reflexivity|]. cbn [mapM map].
  assert (L : length row = S k) by (apply H; now left). destruct (exists_last (l := row)) as (l & x & ->); [intro E; rewrite E in L; discriminate|].
  rewrite app_length in L. cbn in L. rewrite rev_app_distr. cbn [rev app bind]. rewrite IH by (intros; apply H; now right). cbn [bind].
  rewrite app_nth2 by lia. replace (k - length l) with 0 by lia. reflexivity.
Qed.
Lemma basename_last (b : list char) : ~ In Slash b -> basename b = b.
Proof.
  destruct b as [|c b]; [reflexivity|]. intro H. cbn [basename]. assert (E : existsb (char_eqb Slash) (c :: b) = false); [|now rewrite E].
  apply not_true_is_false. intro X. apply existsb_exists in X as (y & Hy & E). destruct y; [contradiction|discriminate].
Qed.
Lemma basename_slash (a b : list char) : basename (a ++ Slash :: b) = basename b.
Proof.
  induction a as [|c a IH]; [reflexivity|]. cbn [app basename]. assert (E : existsb (char_eqb Slash) (c :: a ++ Slash :: b) = true); [|now rewrite E].
  apply existsb_exists. exists Slash. split; [right; apply in_or_app; right; now left|reflexivity].
Qed.
(** C318. Both figures show the returns of the requested scope: the curve of the interquartile means over the steps of that scope and the
    profile of the returns in the last column, under the given name, or that of the experiment directory (a path that does not end with a slash). *)
Lemma C318_figures_partial_lemma : forall (parent base : list char) (r : result) name th save show s colors (w : world) n k,
  s <> OtherScope -> table (scope_returns r s) n (S k) -> ~ In Slash base -> base <> [] ->
  exists w' f g thr, eval_results (parent ++ Slash :: base) r name th save show s colors w = (w', Ok (f, g)) /\
    g_x f = scope_steps r s /\ g_y f = iqm_curve (scope_returns r s) /\ g_y g = profile (map (fun row => nth k row 0%Qc) (scope_returns r s)) thr /\ g_x g = thr /\
    (forall t, th = Some t -> thr = t) /\ g_name f = match name with Some m => m | None => base end /\ g_name g = g_name f.
Proof.
  intros parent base r name th save show s colors w n k Hs Ht Hb _. unfold eval_results, rliable_data.
  assert (E : match s with Test => Ok (r_steps r, r_test r) | Train => Ok (r_steps_train r, r_train r) | OtherScope => Err ValueError end = Ok (scope_steps r s, scope_returns r s)) by (destruct s; [reflexivity|reflexivity|contradiction]).
  rewrite E. cbn [bind]. pose proof (final_ok _ _ _ Ht) as F.
  assert (T : exists thr, match th with Some th => Ok th | None => let* lo := table_min (scope_returns r s) in let* hi := table_max (scope_returns r s) in Ok (linspace lo hi 101) end = Ok thr /\ forall t, th = Some t -> thr = t).
  { destruct th as [t|]; [exists t; split; [reflexivity|congruence]|]. unfold table_min, table_max. destruct Ht as (Hl & Hp & Hc). destruct (scope_returns r s) as [|row rows]; [cbn in Hl; lia|].
    pose proof (Hc row (or_introl eq_refl)) as L. destruct row as [|x row]; [discriminate|]. cbn [concat app]. eexists. split; [reflexivity|discriminate]. }
  destruct T as (thr & T & T'). rewrite T. cbn [bind]. rewrite F. rewrite basename_slash, (basename_last base Hb). do 4 eexists. split; [reflexivity|]. cbn [g_x g_y g_name]. auto 8.
Qed.
(** C318. The colours given by the caller are not used in the performance profile. *)
Lemma C318_colors_refuted_lemma : forall dir (r : result) name th save show s (colors : list char -> option nat) (w w' : world) f g,
  eval_results dir r name th save show s (Some colors) w = (w', Ok (f, g)) -> g_color f = colors (g_name f) /\ g_color g = None.
Proof.
  intros dir r name th save show s colors w w' f g H. unfold eval_results in H. destruct (rliable_data dir r name th s) as [[[[n ret] st] t]|]; [|discriminate].
  destruct (final_scores ret); [|discriminate]. injection H as _ <- <-. split; reflexivity.
Qed.
(** C318. A directory given with a slash at its end: the legend is empty. *)
Lemma C318_name_refuted_lemma : forall (dir : list char) (r : result) th save show s colors (w w' : world) f g,
  eval_results (dir ++ [Slash]) r None th save show s colors w = (w', Ok (f, g)) -> g_name f = [] /\ g_name g = [].
Proof.
  intros dir r th save show s colors w w' f g H. unfold eval_results, rliable_data in H. rewrite basename_slash in H.
  destruct (match s with Test => _ | Train => _ | OtherScope => _ end) as [[st ret]|]; [|discriminate]. cbn [bind] in H. destruct (match th with Some _ => _ | None => _ end) as [t|]; [|discriminate]. cbn [bind] in H.
  destruct (final_scores ret); [|discriminate]. injection H as _ <- <-. split; reflexivity.
Qed.
(** C319. With one scope: the result is what was loaded, files are written exactly if [save_plots], figures shown exactly if [show_plots]. *)
Lemma C319_scope_partial_lemma : forall dir entries show save s max (w w' : world) r,
  load_and_eval dir entries show save (Some s) max w = (w', Ok r) ->
  load entries max = Ok r /\ exists f g, g_y f = iqm_curve (scope_returns r s) /\
    (w_iqm w', w_profile w') = (if save then (Some f, Some g) else (w_iqm w, w_profile w)) /\ w_shown w' = w_shown w ++ (if show then [f; g] else []).
Proof.
  intros dir entries show save s max w w' r H. unfold load_and_eval in H. destruct (load entries max) as [r'|]; [|discriminate].
  unfold eval_results in H. destruct (rliable_data dir r' None None s) as [[[[n ret] st] t]|] eqn:D; [|discriminate].
  destruct (C316_thresholds_lemma _ _ _ _ _ _ _ _ D) as (-> & _).
  destruct (final_scores (scope_returns r' s)) as [fin|]; [|destruct save, show; discriminate].
  destruct save, show; cbn in H; injection H as <- <-; (split; [reflexivity|]); exists (mkFig n None st (iqm_curve (scope_returns r' s))), (mkFig n None t (profile fin t)); (split; [reflexivity|]); (split; [reflexivity|]); cbn; rewrite ?app_nil_r, <- ?app_assoc; reflexivity.
Qed.
(** C319. "both": whatever the flags are, the figures of both scopes are shown and files are written; the files show the training data only. *)
Lemma C319_both_refuted_lemma : forall dir entries show save max (w w' : world) r,
  load_and_eval dir entries show save None max w = (w', Ok r) ->
  exists f g f' g', g_y f = iqm_curve (r_test r) /\ g_y f' = iqm_curve (r_train r) /\
    w_iqm w' = Some f' /\ w_profile w' = Some g' /\ w_shown w' = w_shown w ++ [f; g; f'; g'].
Proof.
  intros dir entries show save max w w' r H. unfold load_and_eval in H. destruct (load entries max) as [r'|]; [|discriminate].
  unfold eval_results in H. destruct (rliable_data dir r' None None Test) as [[[[n ret] st] t]|] eqn:D; [|discriminate].
  destruct (C316_thresholds_lemma _ _ _ _ _ _ _ _ D) as (-> & _).
  destruct (final_scores (scope_returns r' Test)) as [fin|]; [|discriminate].
  destruct (rliable_data dir r' None None Train) as [[[[n' ret'] st'] t']|] eqn:D'; [|discriminate].
  destruct (C316_thresholds_lemma _ _ _ _ _ _ _ _ D') as (-> & _).
  destruct (final_scores (scope_returns r' Train)) as [fin'|]; [|discriminate]. cbn in H. injection H as <- <-.
  exists (mkFig n None st (iqm_curve (scope_returns r' Test))), (mkFig n None t (profile fin t)), (mkFig n' None st' (iqm_curve (scope_returns r' Train))), (mkFig n' None t' (profile fin' t')).
  repeat match goal with |- _ /\ _ => split end; try reflexivity. cbn. rewrite <- !app_assoc. reflexivity.
Qed.
