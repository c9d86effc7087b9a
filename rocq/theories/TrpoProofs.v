(** * Proofs about conjugate gradients, flat parameters and the line search *)
From Verif Require Import Py PyLemmas Num TrpoModel DqnModel DqnProofs.
Open Scope nat_scope.

(** ** Vector algebra *)
Lemma vadd_length u v : length u = length v -> length (vadd u v) = length u.
Proof. revert v. induction u as [|a u IH]; intros [|b v] H; try discriminate; [reflexivity|]. cbn. f_equal. apply IH. injection H; auto. Qed.
Lemma vscale_length c u : length (vscale c u) = length u.
Proof. apply map_length. Qed.
Lemma vsub_length u v : length u = length v -> length (vsub u v) = length u.
Proof. intros H. unfold vsub. apply vadd_length. rewrite vscale_length. exact H. Qed.
Lemma dot_comm u v : dot u v = dot v u.
Proof. revert v. induction u as [|a u IH]; intros [|b v]; try reflexivity. cbn [dot]. rewrite IH. ring. Qed.
Lemma dot_vadd_r u v w : length v = length w -> dot u (vadd v w) = (dot u v + dot u w)%Qc.
Proof.
  revert v w. induction u as [|a u IH]; intros [|b v] [|c w] H; try discriminate; cbn [dot vadd]; try ring.
  rewrite IH by (injection H; auto). ring.
Qed.
Lemma dot_vscale_r u c v : dot u (vscale c v) = (c * dot u v)%Qc.
Proof. revert v. induction u as [|a u IH]; intros [|b v]; cbn [dot vscale map]; try ring. fold (vscale c v). rewrite IH. ring. Qed.
Lemma dot_vsub_r u v w : length v = length w -> dot u (vsub v w) = (dot u v - dot u w)%Qc.
Proof. intros H. unfold vsub. rewrite dot_vadd_r by (rewrite vscale_length; exact H). rewrite dot_vscale_r. ring. Qed.
Lemma dot_vadd_l u v w : length v = length w -> dot (vadd v w) u = (dot v u + dot w u)%Qc.
Proof. intros H. rewrite dot_comm, dot_vadd_r, (dot_comm u), (dot_comm u) by exact H. reflexivity. Qed.
Lemma dot_vscale_l u c v : dot (vscale c v) u = (c * dot v u)%Qc.
Proof. rewrite dot_comm, dot_vscale_r, dot_comm. reflexivity. Qed.
Lemma dot_vsub_l u v w : length v = length w -> dot (vsub v w) u = (dot v u - dot w u)%Qc.
Proof. intros H. rewrite dot_comm, dot_vsub_r, (dot_comm u), (dot_comm u) by exact H. reflexivity. Qed.
Lemma qcsq_nonneg (a : Qc) : (0 <= a * a)%Qc.
Proof. qcnra. Qed.
Lemma dot_self_nonneg u : (0 <= dot u u)%Qc.
Proof. induction u as [|a u IH]; [apply Qcle_refl|]. cbn [dot]. pose proof (qcsq_nonneg a). qclra. Qed.

(** ** Bessel: at most n pairwise orthogonal non-zero vectors of length n *)
Fixpoint orth (vs : list (list Qc)) : Prop :=
  match vs with [] => True | v :: vs => (0 < dot v v)%Qc /\ (forall w, In w vs -> dot v w = 0%Qc) /\ orth vs end.

Lemma Qcpos_neq (a : Qc) : (0 < a)%Qc -> a <> 0%Qc.
Proof. intros H E. rewrite E in H. qclra. Qed.

Lemma bessel n vs : (forall v, In v vs -> length v = n) -> orth vs -> forall e, length e = n ->
  (qsum (map (fun v => dot e v * dot e v / dot v v)%Qc vs) <= dot e e)%Qc.
Proof.
  induction vs as [|v vs IH]; intros Hl Ho e He; [apply dot_self_nonneg|].
  destruct Ho as (Hp & Hz & Ho). pose proof (Qcpos_neq _ Hp) as Hn.
  assert (Hlv : length v = n) by (apply Hl; left; reflexivity).
  set (c := (dot e v / dot v v)%Qc). set (e' := vsub e (vscale c v)).
  assert (Hs : length e = length (vscale c v)) by (rewrite vscale_length; congruence).
  assert (E1 : dot e' e' = (dot e e - dot e v * dot e v / dot v v)%Qc).
  { unfold e'. rewrite dot_vsub_l, !dot_vsub_r, !dot_vscale_l, !dot_vscale_r, (dot_comm v e) by exact Hs. unfold c. field. exact Hn. }
  assert (E2 : map (fun v => dot e v * dot e v / dot v v)%Qc vs = map (fun v => dot e' v * dot e' v / dot v v)%Qc vs).
  { apply map_ext_in. intros w Hw. unfold e'. rewrite dot_vsub_l, dot_vscale_l, (Hz w Hw) by exact Hs. replace (dot e w - c * 0)%Qc with (dot e w) by ring. reflexivity. }
  cbn [map qsum]. rewrite E2. specialize (IH ltac:(intros; apply Hl; right; assumption) Ho e' ltac:(unfold e'; rewrite vsub_length; auto)).
  rewrite E1 in IH. qclra.
Qed.

Definition unit_vec (n j : nat) : list Qc := map (fun i => if i =? j then 1%Qc else 0%Qc) (seq 0 n).
Lemma unit_vec_length n j : length (unit_vec n j) = n.
Proof. unfold unit_vec. rewrite map_length, seq_length. reflexivity. Qed.
Lemma dot_unit_gen v j s : dot (map (fun i => if i =? j then 1%Qc else 0%Qc) (seq s (length v))) v
  = if (s <=? j) && (j <? s + length v) then nth (j - s) v 0%Qc else 0%Qc.
Proof.
  revert s. induction v as [|a v IH]; intros s.
  - cbn [length seq map dot]. destruct ((s <=? j) && (j <? s + 0)); [destruct (j - s); reflexivity|reflexivity].
  - cbn [length seq map dot]. rewrite IH. destruct (Nat.eqb_spec s j) as [->|N].
    + rewrite (proj2 (Nat.leb_gt (S j) j)) by lia. cbn [andb]. rewrite Nat.leb_refl. cbn [andb]. rewrite (proj2 (Nat.ltb_lt j (j + S (length v)))) by lia.
      rewrite Nat.sub_diag. cbn [nth]. ring.
    + destruct (Nat.leb_spec (S s) j) as [H|H]; cbn [andb].
      * rewrite (proj2 (Nat.leb_le s j)) by lia. cbn [andb]. replace (S s + length v) with (s + S (length v)) by lia.
        destruct (j <? s + S (length v)); [|ring]. replace (j - s) with (S (j - S s)) by lia. cbn [nth]. ring.
      * rewrite (proj2 (Nat.leb_gt s j)) by lia. cbn [andb]. ring.
Qed.
Lemma dot_unit v j : j < length v -> dot (unit_vec (length v) j) v = nth j v 0%Qc.
Proof. intros H. unfold unit_vec. rewrite dot_unit_gen. rewrite Nat.sub_0_r. cbn [Nat.leb Nat.add andb]. rewrite (proj2 (Nat.ltb_lt _ _) H). reflexivity. Qed.
Lemma dot_self_sum v : qsum (map (fun j => nth j v 0%Qc * nth j v 0%Qc)%Qc (seq 0 (length v))) = dot v v.
Proof.
  induction v as [|a v IH]; [reflexivity|]. cbn [length seq map qsum dot nth]. rewrite <- seq_shift, map_map. cbn [nth]. rewrite IH. reflexivity.
Qed.
Lemma dot_unit_self n j : j < n -> dot (unit_vec n j) (unit_vec n j) = 1%Qc.
Proof.
  intros H. pose proof (dot_unit (unit_vec n j) j) as F. rewrite unit_vec_length in F. rewrite F by exact H.
  apply nth_error_nth. unfold unit_vec. rewrite nth_error_map_seq, (proj2 (Nat.ltb_lt j n) H). cbn [Nat.add]. rewrite Nat.eqb_refl. reflexivity.
Qed.
Lemma qsum_const {A} (l : list A) (c : Qc) f : (forall a, In a l -> f a = c) -> qsum (map f l) = (qn (length l) * c)%Qc.
Proof.
  induction l as [|a l IH]; intros H; [cbn; change (qn 0) with 0%Qc; ring|]. cbn [map qsum length]. rewrite (H a) by (left; reflexivity).
  rewrite IH by (intros b Hb; apply H; right; exact Hb). rewrite qn_S. ring.
Qed.
Lemma qsum_le {A} (l : list A) f g : (forall a, In a l -> (f a <= g a)%Qc) -> (qsum (map f l) <= qsum (map g l))%Qc.
Proof.
  induction l as [|a l IH]; intros H; [apply Qcle_refl|]. cbn [map qsum]. pose proof (H a ltac:(left; reflexivity)).
  specialize (IH ltac:(intros b Hb; apply H; right; exact Hb)). qclra.
Qed.
Lemma orth_pos vs : orth vs -> forall v, In v vs -> (0 < dot v v)%Qc.
Proof. induction vs as [|w vs IH]; intros Ho v Hv; [destruct Hv|]. destruct Ho as (H1 & _ & H2). destruct Hv as [->|Hv]; [exact H1|apply IH; assumption]. Qed.

Lemma orth_bound n vs : (forall v, In v vs -> length v = n) -> orth vs -> length vs <= n.
Proof.
  intros Hl Ho.
  assert (E : qsum (map (fun v => qsum (map (fun j => dot (unit_vec n j) v * dot (unit_vec n j) v / dot v v)%Qc (seq 0 n))) vs) = qn (length vs)).
  { rewrite (qsum_const vs 1%Qc); [ring|]. intros v Hv. pose proof (orth_pos _ Ho v Hv) as Hp. specialize (Hl v Hv). subst n.
    rewrite qsum_map_scale with (c := (/ dot v v)%Qc) (f := fun j => (dot (unit_vec (length v) j) v * dot (unit_vec (length v) j) v)%Qc).
    rewrite (map_ext_in _ (fun j => nth j v 0%Qc * nth j v 0%Qc)%Qc).
    - rewrite dot_self_sum. field. apply Qcpos_neq, Hp.
    - intros j Hj. apply in_seq in Hj. rewrite dot_unit by lia. reflexivity. }
  rewrite qsum_swap in E.
  assert (L : (qn (length vs) <= qn n)%Qc).
  { rewrite <- E. apply Qcle_trans with (qsum (map (fun _ : nat => 1%Qc) (seq 0 n))).
    - apply qsum_le. intros j Hj. apply in_seq in Hj. rewrite <- (dot_unit_self n j) by lia. apply (bessel n); [exact Hl|exact Ho|apply unit_vec_length].
    - rewrite (qsum_const _ 1%Qc) by reflexivity. rewrite seq_length. qclra. }
  unfold qn in L. unfold Qcle in L. rewrite !this_Q2Qc in L. rewrite <- Zle_Qle in L. lia.
Qed.

Lemma dot_zero u : dot u u = 0%Qc -> forall v, dot v u = 0%Qc.
Proof.
  induction u as [|a u IH]; intros H v; [destruct v; reflexivity|]. cbn [dot] in H.
  pose proof (qcsq_nonneg a) as Ha. pose proof (dot_self_nonneg u) as Hu.
  assert (Ha0 : (a * a)%Qc = 0%Qc) by qclra. assert (Hu0 : dot u u = 0%Qc) by qclra.
  assert (a = 0%Qc) by (destruct (Qcmult_integral _ _ Ha0); assumption). subst a.
  destruct v as [|b v]; [reflexivity|]. cbn [dot]. rewrite (IH Hu0 v). ring.
Qed.
Lemma vsub_vadd u v w : length u = length v -> length v = length w -> vsub u (vadd v w) = vsub (vsub u v) w.
Proof.
  revert v w. induction u as [|a u IH]; intros [|b v] [|c w] H1 H2; try discriminate; [reflexivity|].
  unfold vsub in *. cbn [vadd vscale map]. fold (vscale (-(1))%Qc (vadd v w)) (vscale (-(1))%Qc v) (vscale (-(1))%Qc w).
  f_equal; [ring|]. apply IH; [injection H1; auto|injection H2; auto].
Qed.

(** The operator is linear, symmetric and positive definite on vectors of length [n]. *)
Definition linear_op (n : nat) (A : list Qc -> list Qc) : Prop :=
  (forall u, length u = n -> length (A u) = n)
  /\ (forall u v, length u = n -> length v = n -> A (vadd u v) = vadd (A u) (A v))
  /\ (forall c u, length u = n -> A (vscale c u) = vscale c (A u)).
Definition spd (n : nat) (A : list Qc -> list Qc) : Prop :=
  (forall u v, length u = n -> length v = n -> dot u (A v) = dot (A u) v)
  /\ (forall u, length u = n -> (0 < dot u u)%Qc -> (0 < dot u (A u))%Qc).

Section CGProof.
Variables (n : nat) (A : list Qc -> list Qc) (tol : Qc) (b : list Qc).
Hypotheses (HL : linear_op n A) (HS : spd n A) (Htol : (0 < tol)%Qc) (Hb : length b = n).
Record cg_inv (x r p : list Qc) (Rl Pl : list (list Qc)) : Prop := mkInv {
  ci_x : length x = n; ci_r : length r = n; ci_p : length p = n;
  ci_R : forall w, In w Rl -> length w = n; ci_P : forall q, In q Pl -> length q = n;
  ci_res : r = vsub b (A x);
  ci_orth : orth (r :: Rl);
  ci_rp : dot r p = dot r r;
  ci_rP : forall q, In q Pl -> dot r q = 0%Qc;
  ci_conj : forall q, In q Pl -> dot p (A q) = 0%Qc;
  ci_span : forall v, length v = n -> (forall q, In q (p :: Pl) -> dot v q = 0%Qc) -> forall w, In w (r :: Rl) -> dot v w = 0%Qc;
  ci_krylov : forall v, length v = n -> (forall w, In w (r :: Rl) -> dot v w = 0%Qc) -> forall q, In q Pl -> dot v (A q) = 0%Qc }.

Lemma cg_run k : forall x r p Rl Pl, cg_inv x r p Rl Pl ->
  exists x', cg_loop A tol k x r p (dot r r) = Ok x' /\ length x' = n
    /\ (n <= k + length Rl -> (dot (vsub b (A x')) (vsub b (A x')) < tol)%Qc).
Proof.
  destruct HL as (L1 & L2 & L3). destruct HS as (S1 & S2).
  induction k as [|k IH]; intros x r p Rl Pl [Cx Cr Cp CR CP Cres Corth Crp CrP Cconj Cspan Ckry].
  - exists x. split; [reflexivity|]. split; [exact Cx|]. intros Hk. exfalso.
    assert (F : length (r :: Rl) <= n) by (apply orth_bound; [intros v [<-|Hv]; [exact Cr|apply CR, Hv]|exact Corth]). cbn in F. lia.
  - cbn [cg_loop]. pose proof (proj1 Corth) as Hrr. cbn [orth] in Hrr.
    assert (Hpp : (0 < dot p p)%Qc).
    { pose proof (dot_self_nonneg p) as F. destruct (Qceqb_spec (dot p p) 0) as [E|E].
      - rewrite (dot_zero p E r) in Crp. rewrite <- Crp in Hrr. qclra.
      - apply Qcle_lt_or_eq in F as [F|F]; [exact F|]. symmetry in F. contradiction. }
    pose proof (S2 p Cp Hpp) as Hd. pose proof (Qcpos_neq _ Hd) as Hdn. pose proof (Qcpos_neq _ Hrr) as Hrn.
    unfold qdiv at 1. destruct (Qceqb_spec (dot p (A p)) 0) as [E|_]; [contradiction|]. cbn [bind].
    set (z := A p) in *. assert (Cz : length z = n) by (apply L1, Cp). set (alpha := (dot r r / dot p z)%Qc).
    assert (Hal : alpha <> 0%Qc).
    { intros E. assert (F : dot r r = 0%Qc) by (transitivity (alpha * dot p z)%Qc; [unfold alpha; field; exact Hdn|rewrite E; ring]). contradiction. }
    set (x' := vadd x (vscale alpha p)). set (r' := vsub r (vscale alpha z)).
    assert (Cx' : length x' = n) by (unfold x'; rewrite vadd_length; [exact Cx|rewrite vscale_length; congruence]).
    assert (Lz : length r = length (vscale alpha z)) by (rewrite vscale_length; congruence).
    assert (Cr' : length r' = n) by (unfold r'; rewrite vsub_length; [exact Cr|exact Lz]).
    assert (Hres : r' = vsub b (A x')).
    { unfold x'. rewrite L2, L3 by (rewrite ?vscale_length; assumption). fold z. rewrite vsub_vadd, <- Cres; [reflexivity| |].
      - rewrite L1; assumption. - rewrite vscale_length, L1 by assumption. congruence. }
    destruct (Qcltb_spec (dot r' r') tol) as [Ht|Ht].
    { exists x'. split; [reflexivity|]. split; [exact Cx'|]. intros _. rewrite <- Hres. exact Ht. }
    assert (Hr'r' : (0 < dot r' r')%Qc) by qclra.
    unfold qdiv. destruct (Qceqb_spec (dot r r) 0) as [E|_]; [contradiction|]. cbn [bind].
    set (beta := (dot r' r' / dot r r)%Qc). set (p' := vadd r' (vscale beta p)).
    assert (Lp : length r' = length (vscale beta p)) by (rewrite vscale_length; congruence).
    assert (Cp' : length p' = n) by (unfold p'; rewrite vadd_length; assumption).
    assert (HrP : forall q, In q (p :: Pl) -> dot r' q = 0%Qc).
    { intros q Hq. unfold r'. rewrite dot_vsub_l, dot_vscale_l by exact Lz. destruct Hq as [<-|Hq].
      - rewrite Crp. unfold alpha. rewrite (dot_comm z p). field. exact Hdn.
      - rewrite (CrP q Hq). unfold z. rewrite <- S1 by (auto; apply CP, Hq). rewrite (Cconj q Hq). ring. }
    assert (HrR : forall w, In w (r :: Rl) -> dot r' w = 0%Qc) by (apply Cspan; [exact Cr'|exact HrP]).
    destruct (IH x' r' p' (r :: Rl) (p :: Pl)) as (xf & Ef & Lf & Gf).
    { constructor; try assumption.
      - intros w [<-|Hw]; [exact Cr|apply CR, Hw].
      - intros q [<-|Hq]; [exact Cp|apply CP, Hq].
      - cbn [orth]. split; [exact Hr'r'|]. split; [exact HrR|exact Corth].
      - unfold p'. rewrite dot_vadd_r, dot_vscale_r by exact Lp. rewrite (HrP p ltac:(left; reflexivity)). ring.
      - intros q Hq. unfold p'. rewrite dot_vadd_l, dot_vscale_l by exact Lp. destruct Hq as [<-|Hq].
        + fold z. assert (Er : dot r' r' = (dot r' r - alpha * dot r' z)%Qc) by (unfold r' at 2; rewrite dot_vsub_r, dot_vscale_r by exact Lz; reflexivity).
          rewrite (HrR r ltac:(left; reflexivity)) in Er.
          assert (Ez : dot r' z = (- dot r' r' / alpha)%Qc) by (rewrite Er; field; exact Hal).
          rewrite Ez. unfold beta, alpha. field. auto.
        + rewrite (Cconj q Hq), (Ckry r' Cr' HrR q Hq). ring.
      - intros v Hv Hq w [<-|Hw].
        + pose proof (Hq p' ltac:(left; reflexivity)) as F. unfold p' in F. rewrite dot_vadd_r, dot_vscale_r in F by exact Lp.
          rewrite (Hq p ltac:(right; left; reflexivity)) in F. rewrite <- F. ring.
        + apply Cspan; [exact Hv| |exact Hw]. intros q Hq'. apply Hq. right. exact Hq'.
      - intros v Hv Hw q [<-|Hq].
        + pose proof (Hw r' ltac:(left; reflexivity)) as F. unfold r' in F. rewrite dot_vsub_r, dot_vscale_r in F by exact Lz.
          rewrite (Hw r ltac:(right; left; reflexivity)) in F. fold z.
          assert (G : (alpha * dot v z)%Qc = 0%Qc) by (rewrite <- F at 1; ring || qclra).
          destruct (Qcmult_integral _ _ G); [contradiction|assumption].
        + apply Ckry; [exact Hv| |exact Hq]. intros w Hw'. apply Hw. right. exact Hw'. }
    exists xf. split; [exact Ef|]. split; [exact Lf|]. intros Hk. apply Gf. cbn [length]. lia.
Qed.
End CGProof.

(** C73 (restricted: non-zero gradient).  For a linear, symmetric, positive definite operator
    the loop never divides by zero; if nsteps is at least the dimension, the result solves
    A x = b up to a squared residual below the tolerance. *)
Lemma C73_cg_partial_lemma : forall n A tol b nsteps, linear_op n A -> spd n A -> (0 < tol)%Qc -> length b = n -> (0 < dot b b)%Qc ->
  exists x, conjugate_gradients A tol b nsteps = Ok x /\ length x = n
    /\ (n <= nsteps -> (dot (vsub b (A x)) (vsub b (A x)) < tol)%Qc).
Proof.
  intros n A tol b nsteps HL HS Ht Hb Hbb. destruct HL as (L1 & L2 & L3).
  assert (Ez : map (fun _ => 0%Qc) b = vscale 0 b) by (unfold vscale; apply map_ext; intros; ring).
  assert (Hsub : forall u v, length u = length v -> vsub u (vscale 0 v) = u).
  { clear. unfold vsub. induction u as [|a u IH]; intros [|c v] H; try discriminate; [reflexivity|]. cbn [vscale map vadd]. f_equal; [ring|]. apply IH. injection H; auto. }
  destruct (cg_run n A tol b (conj L1 (conj L2 L3)) HS Ht Hb nsteps (map (fun _ => 0%Qc) b) b b [] []) as (x & E & Hx & G).
  - constructor; try assumption; try (solve [intros ? []]); try reflexivity.
    + rewrite map_length. exact Hb.
    + rewrite Ez, L3 by exact Hb. rewrite Hsub; [reflexivity|]. rewrite L1 by exact Hb. exact Hb.
    + cbn [orth]. split; [exact Hbb|]. split; [intros ? []|exact Logic.I].
    + intros v _ Hq w Hw. apply Hq, Hw.
    + intros v _ _ q [].
  - exists x. split; [exact E|]. split; [exact Hx|]. intros Hn. apply G. cbn [length]. lia.
Qed.

(** C73.  With a zero gradient the first division is 0/0: the result is not the solution 0. *)
Lemma C73_zero_gradient_refuted_lemma : forall mvp tol b nsteps, (forall a, In a b -> a = 0%Qc) -> 0 < nsteps ->
  conjugate_gradients mvp tol b nsteps = Err ZeroDivisionError.
Proof.
  intros mvp tol b nsteps Hb Hn. unfold conjugate_gradients. destruct nsteps as [|k]; [lia|]. cbn [cg_loop].
  assert (E : dot b (mvp b) = 0%Qc).
  { generalize (mvp b). induction b as [|a b IH]; intros m; [reflexivity|]. destruct m as [|c m]; [reflexivity|]. cbn [dot].
    rewrite (Hb a) by (left; reflexivity). rewrite IH by (intros a' Ha; apply Hb; right; exact Ha). ring. }
  unfold qdiv. rewrite E. destruct (Qceqb_spec 0 0) as [_|N]; [reflexivity|contradiction].
Qed.

(** ** Flat parameters *)
Lemma set_get ps : forall pre, (forall p, In p ps -> length (p_data p) = shape_size (p_shape p)) ->
  set_from_flat ps (pre ++ get_flat ps) (length pre) = Ok ps.
Proof.
  induction ps as [|p ps IH]; intros pre H; [reflexivity|]. cbn [set_from_flat]. unfold get_flat. cbn [map concat]. fold (get_flat ps).
  assert (Hp : length (p_data p) = shape_size (p_shape p)) by (apply H; left; reflexivity).
  rewrite skipn_app, skipn_all, Nat.sub_diag. cbn [skipn app]. rewrite <- Hp, firstn_app, firstn_all, Nat.sub_diag. cbn [firstn]. rewrite app_nil_r, Nat.eqb_refl.
  rewrite <- app_length, app_assoc, IH by (intros q Hq; apply H; right; exact Hq). cbn [bind]. destruct p; reflexivity.
Qed.
Lemma set_ok ps : forall flat k, k + length (get_flat ps) = length flat -> (forall p, In p ps -> length (p_data p) = shape_size (p_shape p)) ->
  exists ps', set_from_flat ps flat k = Ok ps' /\ get_flat ps' = skipn k flat /\ map p_shape ps' = map p_shape ps
    /\ (forall p, In p ps' -> length (p_data p) = shape_size (p_shape p)).
Proof.
  induction ps as [|p ps IH]; intros flat k Hk H.
  - exists []. cbn [set_from_flat]. split; [reflexivity|]. cbn in Hk. split; [rewrite skipn_all2 by lia; reflexivity|]. split; [reflexivity|intros ? []].
  - cbn [set_from_flat]. assert (Hp : length (p_data p) = shape_size (p_shape p)) by (apply H; left; reflexivity).
    unfold get_flat in Hk. cbn [map concat] in Hk. fold (get_flat ps) in Hk. rewrite app_length in Hk. set (sz := shape_size (p_shape p)) in *.
    assert (Hl : length (firstn sz (skipn k flat)) = sz) by (rewrite firstn_length, skipn_length; lia).
    rewrite Hl, Nat.eqb_refl. destruct (IH flat (k + sz) ltac:(lia) ltac:(intros q Hq; apply H; right; exact Hq)) as (ps' & E & G1 & G2 & G3).
    rewrite E. cbn [bind]. eexists. split; [reflexivity|]. unfold get_flat. cbn [map concat p_data p_shape]. fold (get_flat ps').
    split; [|split; [f_equal; exact G2|intros q [<-|Hq]; [exact Hl|apply G3, Hq]]].
    rewrite G1. transitivity (firstn sz (skipn k flat) ++ skipn sz (skipn k flat)); [|apply firstn_skipn]. f_equal.
    clear. revert flat. induction k as [|k IH]; intros flat; [reflexivity|]. destruct flat; [cbn [Nat.add skipn]; rewrite skipn_nil; reflexivity|]. apply IH.
Qed.

Lemma shape_size_prod sh : shape_size sh = fold_right Nat.mul 1 sh.
Proof. unfold shape_size. apply fold_symmetric; intros; [apply Nat.mul_assoc|apply Nat.mul_comm]. Qed.

(** C74.  _set_from_flat_params undoes torch.cat of the flattened parameters, and writes any
    flat vector of the right length so that reading it back gives it, with all shapes kept. *)
Lemma C74_flat_round_trip_lemma : forall ps, (forall p, In p ps -> length (p_data p) = fold_right Nat.mul 1 (p_shape p)) ->
  set_from_flat ps (get_flat ps) 0 = Ok ps
  /\ (forall flat, length flat = length (get_flat ps) ->
       exists ps', set_from_flat ps flat 0 = Ok ps' /\ get_flat ps' = flat /\ map p_shape ps' = map p_shape ps).
Proof.
  intros ps H'. assert (H : forall p, In p ps -> length (p_data p) = shape_size (p_shape p)) by (intros p Hp; rewrite shape_size_prod; apply H', Hp).
  split; [apply (set_get ps []), H|]. intros flat Hl. destruct (set_ok ps flat 0 ltac:(cbn; lia) H) as (ps' & E & G1 & G2 & _). eauto.
Qed.

(** ** Line search *)
Section SearchProof.
Context {P : Type}.
Variables (trial : Qc -> P) (kl loss : P -> option Qc) (max_kl coeff : Qc) (actor_loss : option Qc) (mb : nat).
Notation ok := (acceptable kl loss max_kl actor_loss).
Fixpoint qpow (c : Qc) (k : nat) : Qc := match k with O => 1%Qc | S k => (c * qpow c k)%Qc end.

Lemma line_first k : forall n i a s, i + n = mb -> k < n -> ok (trial (s * qpow coeff k)%Qc) = true ->
  (forall j, j < k -> ok (trial (s * qpow coeff j)%Qc) = false) ->
  line_loop trial kl loss max_kl coeff actor_loss mb n i a s = (trial (s * qpow coeff k), s * qpow coeff k)%Qc.
Proof.
  induction k as [|k IH]; intros n i a s Hn Hk Hok Hno; (destruct n as [|n]; [lia|]); cbn [line_loop].
  - cbn [qpow] in *. replace (s * 1)%Qc with s in * by ring. rewrite Hok. reflexivity.
  - pose proof (Hno 0 ltac:(lia)) as H0. cbn [qpow] in H0. replace (s * 1)%Qc with s in H0 by ring. rewrite H0.
    rewrite (proj2 (Nat.ltb_lt _ _)) by lia. cbn [qpow] in *. replace (s * (coeff * qpow coeff k))%Qc with (s * coeff * qpow coeff k)%Qc in * by ring.
    apply IH; [lia|lia|exact Hok|]. intros j Hj. specialize (Hno (S j) ltac:(lia)). cbn [qpow] in Hno.
    replace (s * coeff * qpow coeff j)%Qc with (s * (coeff * qpow coeff j))%Qc by ring. exact Hno.
Qed.
Lemma line_fail n : forall i a s, i + S n = mb -> (forall j, j <= n -> ok (trial (s * qpow coeff j)%Qc) = false) ->
  line_loop trial kl loss max_kl coeff actor_loss mb (S n) i a s = (trial (s * qpow coeff n), 0)%Qc.
Proof.
  induction n as [|n IH]; intros i a s Hn Hno; cbn [line_loop]; pose proof (Hno 0 ltac:(lia)) as H0; cbn [qpow] in H0; replace (s * 1)%Qc with s in H0 by ring; rewrite H0.
  - rewrite (proj2 (Nat.ltb_ge _ _)) by lia. cbn [line_loop qpow]. replace (s * 1)%Qc with s by ring. reflexivity.
  - rewrite (proj2 (Nat.ltb_lt _ _)) by lia. cbn [qpow]. replace (s * (coeff * qpow coeff n))%Qc with (s * coeff * qpow coeff n)%Qc by ring.
    apply (IH (i + 1) (trial s)); [lia|]. intros j Hj. specialize (Hno (S j) ltac:(lia)). cbn [qpow] in Hno.
    replace (s * coeff * qpow coeff j)%Qc with (s * (coeff * qpow coeff j))%Qc by ring. exact Hno.
Qed.
End SearchProof.

(** C49 (restricted: one of the tried steps is acceptable, or no step is tried).  The actor gets
    the first acceptable trial, with its step size; without trials it keeps its parameters. *)
Lemma C49_first_acceptable_partial_lemma : forall (P : Type) (trial : Qc -> P) kl loss max_kl coeff actor_loss mb actor s,
  (forall k, k < mb -> acceptable kl loss max_kl actor_loss (trial (s * qpow coeff k)%Qc) = true ->
     (forall j, j < k -> acceptable kl loss max_kl actor_loss (trial (s * qpow coeff j)%Qc) = false) ->
     exists v w, kl (trial (s * qpow coeff k)%Qc) = Some v /\ (v < max_kl)%Qc
       /\ loss (trial (s * qpow coeff k)%Qc) = Some w /\ (exists l, actor_loss = Some l /\ (w < l)%Qc)
       /\ line_search trial kl loss max_kl coeff actor_loss mb actor s = (trial (s * qpow coeff k), s * qpow coeff k)%Qc)
  /\ line_search trial kl loss max_kl coeff actor_loss 0 actor s = (actor, s).
Proof.
  intros P trial kl loss max_kl coeff actor_loss mb actor s. split; [|reflexivity]. intros k Hk Hok Hno.
  pose proof (line_first trial kl loss max_kl coeff actor_loss mb k mb 0 actor s eq_refl Hk Hok Hno) as E.
  unfold acceptable in Hok. apply andb_prop in Hok as [H1 H2]. unfold olt in H1, H2.
  destruct (kl _) as [v|]; [|discriminate]. destruct (loss _) as [w|]; [|discriminate]. destruct actor_loss as [l|]; [|discriminate].
  exists v, w. split; [reflexivity|]. split; [destruct (Qcltb_spec v max_kl); [assumption|discriminate]|]. split; [reflexivity|].
  split; [exists l; split; [reflexivity|destruct (Qcltb_spec w l); [assumption|discriminate]]|exact E].
Qed.

(** C49.  If every trial is rejected, the actor is left with the parameters of the last rejected
    trial although the reported step size is 0. *)
Lemma C49_failed_search_refuted_lemma : forall (P : Type) (trial : Qc -> P) kl loss max_kl coeff actor_loss mb actor s, 0 < mb ->
  (forall j, j < mb -> acceptable kl loss max_kl actor_loss (trial (s * qpow coeff j)%Qc) = false) ->
  line_search trial kl loss max_kl coeff actor_loss mb actor s = (trial (s * qpow coeff (mb - 1)), 0)%Qc.
Proof.
  intros P trial kl loss max_kl coeff actor_loss mb actor s Hmb H. unfold line_search. destruct mb as [|n]; [lia|].
  rewrite (line_fail trial kl loss max_kl coeff actor_loss (S n) n 0 actor s eq_refl) by (intros j Hj; apply H; lia).
  replace (S n - 1) with n by lia. reflexivity.
Qed.
