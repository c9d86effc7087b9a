(** * Proofs about the learning of NPG and TRPO *)
From Verif Require Import Py Num PyLemmas TrpoModel TrpoProofs NpgModel NpgSpec.
Open Scope nat_scope.
Open Scope list_scope.

Lemma Qcmult_lt_0_compat (a b : Qc) : (0 < a)%Qc -> (0 < b)%Qc -> (0 < a * b)%Qc.
Proof. intros. qcnra. Qed.
Lemma Qcmult_le_0_compat (a b : Qc) : (0 <= a)%Qc -> (0 <= b)%Qc -> (0 <= a * b)%Qc.
Proof. intros. qcnra. Qed.
Lemma vadd_swap (u v w z : list Qc) : vadd (vadd u v) (vadd w z) = vadd (vadd u w) (vadd v z).
Proof.
  revert v w z. induction u as [|a u IH]; intros [|b v] [|c w] [|d z]; try reflexivity; cbn [vadd]. f_equal; [ring|apply IH].
Qed.
Lemma vscale_vadd c u v : vscale c (vadd u v) = vadd (vscale c u) (vscale c v).
Proof. revert v. induction u as [|a u IH]; intros [|b v]; try reflexivity. cbn [vadd vscale map]. f_equal; [ring|apply IH]. Qed.
Lemma vscale_vscale c d u : vscale c (vscale d u) = vscale (c * d)%Qc u.
Proof. unfold vscale. rewrite map_map. apply map_ext. intros. ring. Qed.
Lemma damping_pos : (0 < damping)%Qc.
Proof. reflexivity. Qed.
Lemma tol_pos : (0 < residual_tol)%Qc.
Proof. reflexivity. Qed.
Lemma mvp_dot n H u v : semidefinite n H -> length u = n -> length v = n -> dot u (MVP H v) = (dot u (H v) + damping * dot u v)%Qc.
Proof.
  intros (S1 & _) Hu Hv. unfold MVP. rewrite dot_vadd_r by (rewrite vscale_length, S1; auto). rewrite dot_vscale_r. reflexivity.
Qed.
Lemma mvp_linear n H : semidefinite n H -> linear_op n (MVP H).
Proof.
  intros (S1 & S2 & S3 & _). unfold MVP. split; [|split].
  - intros u Hu. rewrite vadd_length by (rewrite vscale_length, S1; auto). apply S1, Hu.
  - intros u v Hu Hv. rewrite S2 by assumption. rewrite vscale_vadd. apply vadd_swap.
  - intros c u Hu. rewrite S3 by assumption. rewrite vscale_vadd, !vscale_vscale. f_equal. f_equal. ring.
Qed.
Lemma mvp_spd n H : semidefinite n H -> spd n (MVP H).
Proof.
  intros S. split.
  - intros u v Hu Hv. rewrite (mvp_dot n H u v S Hu Hv), (dot_comm (MVP H u) v), (mvp_dot n H v u S Hv Hu).
    destruct S as (_ & _ & _ & S4 & _). rewrite (S4 u v Hu Hv), (dot_comm (H u) v), (dot_comm v u). reflexivity.
  - intros u Hu Hp. rewrite (mvp_dot n H u u S Hu Hu). destruct S as (_ & _ & _ & _ & S5). pose proof (S5 u Hu) as F.
    pose proof damping_pos as D. assert (G : (0 < damping * dot u u)%Qc) by (apply Qcmult_lt_0_compat; assumption). qclra.
Qed.

Section CG.
Variables (n : nat) (A : list Qc -> list Qc) (tol : Qc) (b : list Qc).
Hypotheses (HL : linear_op n A) (HS : spd n A) (Htol : (0 < tol)%Qc) (Hb : length b = n).
Definition quad (x : list Qc) : Qc := (Q2Qc (1 # 2) * dot x (A x) - dot b x)%Qc.
Notation inv := (cg_inv n A b).

Lemma p_pos x r p Rl Pl : inv x r p Rl Pl -> (0 < dot r r)%Qc /\ (0 < dot p p)%Qc /\ (0 < dot p (A p))%Qc.
Proof.
  intros C. destruct C as [Cx Cr Cp CR CP Cres Corth Crp CrP Cconj Cspan Ckry]. pose proof (proj1 Corth) as Hrr. split; [exact Hrr|].
  assert (Hpp : (0 < dot p p)%Qc).
  { pose proof (dot_self_nonneg p) as F. destruct (Qceqb_spec (dot p p) 0) as [E|E].
    - rewrite (dot_zero p E r) in Crp. rewrite <- Crp in Hrr. qclra.
    - apply Qcle_lt_or_eq in F as [F|F]; [exact F|]. symmetry in F. contradiction. }
  split; [exact Hpp|]. apply HS; assumption.
Qed.
(** One step: the invariant is kept (as in TrpoProofs.cg_run). *)
Lemma cg_step x r p Rl Pl : inv x r p Rl Pl ->
  let z := A p in let alpha := (dot r r / dot p z)%Qc in
  let x' := vadd x (vscale alpha p) in let r' := vsub r (vscale alpha z) in
  length x' = n /\ r' = vsub b (A x') /\ (forall w, In w (r :: Rl) -> dot r' w = 0%Qc) /\ dot r' p = 0%Qc /\
  ((tol <= dot r' r')%Qc -> inv x' r' (vadd r' (vscale (dot r' r' / dot r r) p)) (r :: Rl) (p :: Pl)).
Proof.
  intros C z alpha x' r'. destruct (p_pos _ _ _ _ _ C) as (Hrr & Hpp & Hd). destruct HL as (L1 & L2 & L3). destruct HS as (S1 & S2).
  destruct C as [Cx Cr Cp CR CP Cres Corth Crp CrP Cconj Cspan Ckry].
  pose proof (Qcpos_neq _ Hd) as Hdn. pose proof (Qcpos_neq _ Hrr) as Hrn. fold z in Hd, Hdn.
  assert (Cz : length z = n) by (apply L1, Cp).
  assert (Hal : alpha <> 0%Qc).
  { intros E. assert (F : dot r r = 0%Qc) by (transitivity (alpha * dot p z)%Qc; [unfold alpha; field; exact Hdn|rewrite E; ring]). contradiction. }
  assert (Cx' : length x' = n) by (unfold x'; rewrite vadd_length; [exact Cx|rewrite vscale_length; congruence]).
  assert (Lz : length r = length (vscale alpha z)) by (rewrite vscale_length; congruence).
  assert (Cr' : length r' = n) by (unfold r'; rewrite vsub_length; [exact Cr|exact Lz]).
  assert (Hres : r' = vsub b (A x')).
  { unfold x'. rewrite L2, L3 by (rewrite ?vscale_length; assumption). fold z. rewrite vsub_vadd, <- Cres; [reflexivity| |].
    - rewrite L1; assumption. - rewrite vscale_length, L1 by assumption. congruence. }
  assert (HrP : forall q, In q (p :: Pl) -> dot r' q = 0%Qc).
  { intros q Hq. unfold r'. rewrite dot_vsub_l, dot_vscale_l by exact Lz. destruct Hq as [<-|Hq].
    - rewrite Crp. unfold alpha. rewrite (dot_comm z p). field. exact Hdn.
    - rewrite (CrP q Hq). unfold z. rewrite <- S1 by (auto; apply CP, Hq). rewrite (Cconj q Hq). ring. }
  assert (HrR : forall w, In w (r :: Rl) -> dot r' w = 0%Qc) by (apply Cspan; [exact Cr'|exact HrP]).
  split; [exact Cx'|]. split; [exact Hres|]. split; [exact HrR|]. split; [apply HrP; left; reflexivity|]. intros Ht.
  assert (Hr'r' : (0 < dot r' r')%Qc) by qclra.
  set (beta := (dot r' r' / dot r r)%Qc). set (p' := vadd r' (vscale beta p)).
  assert (Lp : length r' = length (vscale beta p)) by (rewrite vscale_length; congruence).
  assert (Cp' : length p' = n) by (unfold p'; rewrite vadd_length; assumption).
  constructor; try assumption.
  - intros w [<-|Hw]; [exact Cr|apply CR, Hw].
  - intros q [<-|Hq]; [exact Cp|apply CP, Hq].
  - cbn [orth]. split; [exact Hr'r'|]. split; [exact HrR|exact Corth].
  - unfold p'. rewrite dot_vadd_r, dot_vscale_r by exact Lp. rewrite (HrP p ltac:(left; reflexivity)). ring.
  - intros q Hq. unfold p'. rewrite dot_vadd_l, dot_vscale_l by exact Lp. destruct Hq as [<-|Hq].
    + fold z. assert (Er : dot r' r' = (dot r' r - alpha * dot r' z)%Qc) by (unfold r' at 2; rewrite dot_vsub_r, dot_vscale_r by exact Lz; reflexivity).
      rewrite (HrR r ltac:(left; reflexivity)) in Er.
      assert (Ez : dot r' z = (- dot r' r' / alpha)%Qc) by (rewrite Er; field; exact Hal).
      rewrite Ez. unfold beta, alpha. field. auto.
    + rewrite (Cconj q Hq), (Ckry r' Cr' HrR q Hq). ring.
  - intros v Hv Hq w [<-|Hw].
    + pose proof (Hq p' ltac:(left; reflexivity)) as F. unfold p' in F. rewrite dot_vadd_r, dot_vscale_r in F by exact Lp.
      rewrite (Hq p ltac:(right; left; reflexivity)) in F. rewrite <- F. ring.
    + apply Cspan; [exact Hv| |exact Hw]. intros q Hq'. apply Hq. right. exact Hq'.
  - intros v Hv Hw q [<-|Hq].
    + pose proof (Hw r' ltac:(left; reflexivity)) as F. unfold r' in F. rewrite dot_vsub_r, dot_vscale_r in F by exact Lz.
      rewrite (Hw r ltac:(right; left; reflexivity)) in F. fold z.
      assert (G : (alpha * dot v z)%Qc = 0%Qc) by (rewrite <- F at 1; ring || qclra).
      destruct (Qcmult_integral _ _ G); [contradiction|assumption].
    + apply Ckry; [exact Hv| |exact Hq]. intros w Hw'. apply Hw. right. exact Hw'.
Qed.
(** The loop makes one step and either stops or goes on. *)
Lemma cg_unfold k x r p Rl Pl : inv x r p Rl Pl ->
  let z := A p in let alpha := (dot r r / dot p z)%Qc in
  let x' := vadd x (vscale alpha p) in let r' := vsub r (vscale alpha z) in
  cg_loop A tol (S k) x r p (dot r r) = if Qcltb (dot r' r') tol then Ok x' else cg_loop A tol k x' r' (vadd r' (vscale (dot r' r' / dot r r) p)) (dot r' r').
Proof.
  intros C z alpha x' r'. destruct (p_pos _ _ _ _ _ C) as (Hrr & Hpp & Hd). cbn [cg_loop]. unfold qdiv at 1.
  destruct (Qceqb_spec (dot p (A p)) 0) as [E|_]; [exfalso; exact (Qcpos_neq _ Hd E)|]. cbn [bind]. fold z. fold alpha. fold x' r'.
  destruct (Qcltb (dot r' r') tol); [reflexivity|]. unfold qdiv. destruct (Qceqb_spec (dot r r) 0) as [E|_]; [exfalso; exact (Qcpos_neq _ Hrr E)|].
  reflexivity.
Qed.
Lemma alpha_gain x r p Rl Pl : inv x r p Rl Pl -> (0 < dot r r / dot p (A p) * dot r r)%Qc.
Proof.
  intros C. destruct (p_pos _ _ _ _ _ C) as (Hrr & Hpp & Hd).
  apply Qcmult_lt_0_compat; [|exact Hrr]. unfold Qcdiv. apply Qcmult_lt_0_compat; [exact Hrr|].
  destruct (Qcltb_spec 0 (/ dot p (A p))) as [F|F]; [exact F|exfalso]. pose proof (Qcmult_inv_r _ (Qcpos_neq _ Hd)) as G. qcnra.
Qed.
Lemma quad_step x r p Rl Pl : inv x r p Rl Pl ->
  quad (vadd x (vscale (dot r r / dot p (A p)) p)) = (quad x - Q2Qc (1 # 2) * (dot r r / dot p (A p) * dot r r))%Qc.
Proof.
  intros C. destruct (p_pos _ _ _ _ _ C) as (Hrr & Hpp & Hd). destruct HL as (L1 & L2 & L3). destruct HS as (S1 & S2).
  destruct C as [Cx Cr Cp _ _ Cres _ Crp _ _ _ _]. pose proof (Qcpos_neq _ Hd) as Hdn.
  set (al := (dot r r / dot p (A p))%Qc). assert (Lp : length x = length (vscale al p)) by (rewrite vscale_length; congruence).
  assert (LA : length (A x) = length (vscale al (A p))) by (rewrite vscale_length, !L1 by assumption; reflexivity).
  unfold quad. rewrite L2, L3 by (rewrite ?vscale_length; assumption).
  rewrite dot_vadd_l, !dot_vadd_r, !dot_vscale_l, !dot_vscale_r by assumption.
  rewrite (S1 x p Cx Cp), (dot_comm (A x) p).
  assert (Hr : (dot r r = dot b p - dot p (A x))%Qc).
  { rewrite <- Crp. rewrite Cres at 1. rewrite dot_vsub_l by (rewrite Hb, L1; auto). rewrite (dot_comm (A x) p). reflexivity. }
  assert (Ea : (al * dot p (A p) = dot r r)%Qc) by (unfold al; field; exact Hdn).
  assert (E1 : (dot p (A x) = dot b p - dot r r)%Qc) by (rewrite Hr; ring). rewrite E1.
  assert (H2 : (Q2Qc (1 # 2) + Q2Qc (1 # 2) = 1)%Qc) by (apply Qc_is_canon; vm_compute; reflexivity).
  set (h := Q2Qc (1 # 2)) in *. clearbody h. set (bp := dot b p) in *. set (rr := dot r r) in *. set (d := dot p (A p)) in *. clearbody bp rr d al.
  transitivity (h * dot x (A x) - dot b x + (h + h) * (al * (bp - rr)) - al * bp + h * (al * (al * d)))%Qc; [ring|]. rewrite Ea, H2.
  transitivity (h * dot x (A x) - dot b x - al * rr * (h + h) + h * (al * rr))%Qc; [rewrite H2; ring|ring].
Qed.
(** Along the loop the model decreases. *)
Lemma quad_run k : forall x r p Rl Pl x', inv x r p Rl Pl -> cg_loop A tol k x r p (dot r r) = Ok x' -> (quad x' <= quad x)%Qc.
Proof.
  induction k as [|k IH]; intros x r p Rl Pl x' C H.
  - injection H as <-. apply Qcle_refl.
  - rewrite (cg_unfold k _ _ _ _ _ C) in H. destruct (cg_step _ _ _ _ _ C) as (_ & _ & _ & _ & C').
    pose proof (quad_step _ _ _ _ _ C) as Q. pose proof (alpha_gain _ _ _ _ _ C) as G.
    assert (Hh : (0 < Q2Qc (1 # 2))%Qc) by reflexivity.
    assert (G2 : (0 < Q2Qc (1 # 2) * (dot r r / dot p (A p) * dot r r))%Qc) by (apply Qcmult_lt_0_compat; assumption).
    destruct (Qcltb_spec (dot (vsub r (vscale (dot r r / dot p (A p)) (A p))) (vsub r (vscale (dot r r / dot p (A p)) (A p)))) tol) as [T|T].
    + injection H as <-. qclra.
    + specialize (C' T). pose proof (IH _ _ _ _ _ _ C' H) as F. qclra.
Qed.
Lemma quad_mono k : forall k' x r p Rl Pl x1 x2, k <= k' -> inv x r p Rl Pl ->
  cg_loop A tol k x r p (dot r r) = Ok x1 -> cg_loop A tol k' x r p (dot r r) = Ok x2 -> (quad x2 <= quad x1)%Qc.
Proof.
  induction k as [|k IH]; intros k' x r p Rl Pl x1 x2 Hk C H1 H2.
  - injection H1 as <-. eapply quad_run; eassumption.
  - destruct k' as [|k']; [inversion Hk|]. rewrite (cg_unfold k _ _ _ _ _ C) in H1. rewrite (cg_unfold k' _ _ _ _ _ C) in H2.
    destruct (cg_step _ _ _ _ _ C) as (_ & _ & _ & _ & C').
    destruct (Qcltb_spec (dot (vsub r (vscale (dot r r / dot p (A p)) (A p))) (vsub r (vscale (dot r r / dot p (A p)) (A p)))) tol) as [T|T].
    + rewrite H1 in H2. injection H2 as <-. apply Qcle_refl.
    + specialize (C' T). exact (IH k' _ _ _ _ _ _ _ (le_S_n _ _ Hk) C' H1 H2).
Qed.
(** The product with the right hand side grows. *)
Lemma gain_run k : forall x r p Rl Pl x', inv x r p Rl Pl -> In b (r :: Rl) -> dot b p = dot r r -> cg_loop A tol k x r p (dot r r) = Ok x' ->
  (dot b x <= dot b x')%Qc /\ (0 < k -> (dot b x + dot r r / dot p (A p) * dot r r <= dot b x')%Qc).
Proof.
  induction k as [|k IH]; intros x r p Rl Pl x' C I B H.
  - injection H as <-. split; [apply Qcle_refl|intros F; inversion F].
  - rewrite (cg_unfold k _ _ _ _ _ C) in H. destruct (cg_step _ _ _ _ _ C) as (_ & _ & O & Op & C').
    pose proof (alpha_gain _ _ _ _ _ C) as G. destruct (p_pos _ _ _ _ _ C) as (Hrr & _ & _).
    assert (E : dot b (vadd x (vscale (dot r r / dot p (A p)) p)) = (dot b x + dot r r / dot p (A p) * dot r r)%Qc).
    { rewrite dot_vadd_r, dot_vscale_r, B; [reflexivity|]. rewrite vscale_length. destruct C; congruence. }
    set (r' := vsub r (vscale (dot r r / dot p (A p)) (A p))) in *.
    destruct (Qcltb_spec (dot r' r') tol) as [T|T].
    + injection H as <-. rewrite E. split; [qclra|intros _; apply Qcle_refl].
    + specialize (C' T). edestruct (IH (vadd x (vscale (dot r r / dot p (A p)) p)) r' (vadd r' (vscale (dot r' r' / dot r r) p)) (r :: Rl) (p :: Pl) x' C') as [F _].
      * right. exact I.
      * rewrite dot_vadd_r, dot_vscale_r.
        -- rewrite (dot_comm b r'), (O b I), B. field. apply Qcpos_neq. exact Hrr.
        -- rewrite vscale_length. destruct C'; destruct C; congruence.
      * exact H.
      * rewrite E in F. split; [qclra|intros _; exact F].
Qed.
Lemma start : (0 < dot b b)%Qc -> inv (map (fun _ => 0%Qc) b) b b [] [].
Proof.
  intros Hbb. destruct HL as (L1 & L2 & L3).
  assert (Ez : map (fun _ => 0%Qc) b = vscale 0 b) by (unfold vscale; apply map_ext; intros; ring).
  assert (Hsub : forall u v, length u = length v -> vsub u (vscale 0 v) = u).
  { clear. unfold vsub. induction u as [|a u IH]; intros [|c v] H; try discriminate; [reflexivity|]. cbn [vscale map vadd]. f_equal; [ring|]. apply IH. injection H; auto. }
  constructor; try assumption; try (solve [intros ? []]); try reflexivity.
  + rewrite map_length. exact Hb.
  + rewrite Ez, L3 by exact Hb. rewrite Hsub; [reflexivity|]. rewrite L1 by exact Hb. exact Hb.
  + cbn [orth]. split; [exact Hbb|]. split; [intros ? []|exact Logic.I].
  + intros v _ Hq w Hw. apply Hq, Hw.
  + intros v _ _ q [].
Qed.
End CG.

Lemma dot_zeros (b : list Qc) : forall u, dot u (map (fun _ => 0%Qc) b) = 0%Qc.
Proof. induction b as [|x b IH]; intros [|a u]; try reflexivity. cbn [map dot]. rewrite IH. ring. Qed.

(** C296. For every positive semidefinite Hessian of the divergence and every non-zero gradient the search direction exists, and after any positive number of iterations it is a direction of descent, of a slope at least that of the best step along the gradient. *)
Lemma C296_descent_lemma : forall (n : nat) (H : list Qc -> list Qc) (g : list Qc) (nsteps : nat), semidefinite n H -> length g = n -> (0 < dot g g)%Qc -> 0 < nsteps ->
  exists d, search_direction H g nsteps = Ok d /\ length d = n /\ (dot g d < 0)%Qc
    /\ (dot g d * (dot g (H g) + Q2Qc (1 # 10) * dot g g) <= - (dot g g * dot g g))%Qc.
Proof.
  intros n H g k S Hg Hgg Hk. pose proof (mvp_linear n H S) as HL. pose proof (mvp_spd n H S) as HS.
  destruct (C73_cg_partial_lemma n (MVP H) residual_tol g k HL HS tol_pos Hg Hgg) as (x & E & Lx & _).
  exists (vscale (-(1))%Qc x). unfold search_direction. rewrite E. cbn [bind]. split; [reflexivity|]. split; [rewrite vscale_length; exact Lx|].
  unfold conjugate_gradients in E.
  pose proof (start n (MVP H) g HL Hg Hgg) as C.
  destruct (gain_run n (MVP H) residual_tol g HL HS tol_pos Hg k _ _ _ _ _ _ C ltac:(left; reflexivity) eq_refl E) as [_ G]. specialize (G Hk).
  rewrite dot_zeros in G. pose proof (alpha_gain n (MVP H) g HS _ _ _ _ _ C) as P.
  destruct (p_pos n (MVP H) g HS _ _ _ _ _ C) as (_ & _ & Hd).
  rewrite dot_vscale_r. pose proof (mvp_dot n H g g S Hg Hg) as D. fold damping. rewrite <- D.
  set (d := dot g (MVP H g)) in *. set (gg := dot g g) in *. set (gx := dot g x) in *. clearbody d gg gx.
  assert (Ea : (gg / d * gg * d = gg * gg)%Qc) by (field; apply Qcpos_neq; exact Hd).
  set (w := (gg / d * gg)%Qc) in *. clearbody w. split; [qclra|].
  assert (F : (0 <= (gx - w) * d)%Qc) by (apply Qcmult_le_0_compat; qclra). qclra.
Qed.

Lemma quad_model n H g x : semidefinite n H -> length x = n -> quad (MVP H) g x = model H g x.
Proof. intros S Hx. unfold quad, model. rewrite (mvp_dot n H x x S Hx Hx). reflexivity. Qed.
(** C297. More iterations of conjugate gradients never make the quadratic model of the loss worse. *)
Lemma C297_iterations_lemma : forall (n : nat) (H : list Qc -> list Qc) (g : list Qc) (k1 k2 : nat), semidefinite n H -> length g = n -> (0 < dot g g)%Qc -> k1 <= k2 ->
  exists x1 x2, search_direction H g k1 = Ok (vscale (-(1))%Qc x1) /\ search_direction H g k2 = Ok (vscale (-(1))%Qc x2) /\ length x1 = n /\ length x2 = n
    /\ (model H g x2 <= model H g x1)%Qc /\ (0 < k1 -> (model H g x1 < 0)%Qc).
Proof.
  intros n H g k1 k2 S Hg Hgg Hk. pose proof (mvp_linear n H S) as HL. pose proof (mvp_spd n H S) as HS.
  destruct (C73_cg_partial_lemma n (MVP H) residual_tol g k1 HL HS tol_pos Hg Hgg) as (x1 & E1 & L1 & _).
  destruct (C73_cg_partial_lemma n (MVP H) residual_tol g k2 HL HS tol_pos Hg Hgg) as (x2 & E2 & L2 & _).
  exists x1, x2. unfold search_direction. rewrite E1, E2. cbn [bind]. split; [reflexivity|]. split; [reflexivity|]. split; [exact L1|]. split; [exact L2|].
  unfold conjugate_gradients in E1, E2. pose proof (start n (MVP H) g HL Hg Hgg) as C.
  rewrite <- (quad_model n H g x1 S L1), <- (quad_model n H g x2 S L2).
  split; [exact (quad_mono n (MVP H) residual_tol g HL HS tol_pos Hg k1 k2 _ _ _ _ _ _ _ Hk C E1 E2)|]. intros P.
  destruct (C73_cg_partial_lemma n (MVP H) residual_tol g 1 HL HS tol_pos Hg Hgg) as (x0 & E0 & L0 & _). unfold conjugate_gradients in E0.
  pose proof (quad_mono n (MVP H) residual_tol g HL HS tol_pos Hg 1 k1 _ _ _ _ _ _ _ P C E0 E1) as F.
  rewrite (cg_unfold n (MVP H) residual_tol g HS 0 _ _ _ _ _ C) in E0. cbn zeta in E0. cbn [cg_loop] in E0.
  assert (X : x0 = vadd (map (fun _ => 0%Qc) g) (vscale (dot g g / dot g (MVP H g)) g)) by (destruct (Qcltb _ _); injection E0 as <-; reflexivity).
  rewrite X in F. rewrite (quad_step n (MVP H) g HL HS Hg _ _ _ _ _ C) in F.
  assert (Z : quad (MVP H) g (map (fun _ => 0%Qc) g) = 0%Qc).
  { unfold quad. rewrite (dot_comm (map _ g)), !dot_zeros. ring. }
  rewrite Z in F. pose proof (alpha_gain n (MVP H) g HS _ _ _ _ _ C) as P2.
  assert (P3 : (0 < Q2Qc (1 # 2) * (dot g g / dot g (MVP H g) * dot g g))%Qc) by (apply Qcmult_lt_0_compat; [reflexivity|exact P2]). qclra.
Qed.

(** C298. The number under the square root of the step size of TRPO is defined, and steps along the search direction keep the damped second order divergence within max_kl exactly up to its root, and then the undamped one strictly below. *)
Lemma C298_trust_lemma : forall (n : nat) (H : list Qc -> list Qc) (g d : list Qc) (nsteps : nat) (max_kl : Qc), semidefinite n H -> length g = n -> (0 < dot g g)%Qc -> 0 < nsteps -> (0 < max_kl)%Qc ->
  search_direction H g nsteps = Ok d ->
  exists q, step_square H max_kl d = Ok q /\ (0 < q)%Qc
    /\ (forall s, (Q2Qc (1 # 2) * (s * s) * (dot d (H d) + Q2Qc (1 # 10) * dot d d) <= max_kl)%Qc <-> (s * s <= q)%Qc)
    /\ (forall s, (s * s <= q)%Qc -> (Q2Qc (1 # 2) * (s * s) * dot d (H d) < max_kl)%Qc).
Proof.
  intros n H g d k mk S Hg Hgg Hk Hm E. destruct (C296_descent_lemma n H g k S Hg Hgg Hk) as (d' & E' & Ld & Hneg & _).
  rewrite E in E'. injection E' as <-.
  assert (Hdd : (0 < dot d d)%Qc).
  { pose proof (dot_self_nonneg d) as F. destruct (Qceqb_spec (dot d d) 0) as [Z|Z].
    - rewrite (dot_zero d Z g) in Hneg. exfalso. qclra.
    - apply Qcle_lt_or_eq in F as [F|F]; [exact F|]. symmetry in F. contradiction. }
  pose proof (proj2 (mvp_spd n H S) d Ld Hdd) as P. unfold step_square, qdiv.
  destruct (Qceqb_spec (dot d (MVP H d)) 0) as [Z|Z]; [exfalso; rewrite Z in P; qclra|].
  pose proof (mvp_dot n H d d S Ld Ld) as D. fold damping.
  assert (DH : (0 <= dot d (H d))%Qc) by (apply S; exact Ld). pose proof damping_pos as Dp.
  assert (Dp2 : (0 < damping * dot d d)%Qc) by (apply Qcmult_lt_0_compat; assumption).
  rewrite <- D.
  set (m := dot d (MVP H d)) in *. set (dh := dot d (H d)) in *. set (dd := dot d d) in *. set (dp := damping) in *. clearbody m dh dd dp.
  exists (Q2Qc 2 * mk / m)%Qc. set (q := (Q2Qc 2 * mk / m)%Qc).
  assert (Eq : (q * m = Q2Qc 2 * mk)%Qc) by (unfold q; field; exact Z). clearbody q.
  assert (H2 : (Q2Qc (1 # 2) * Q2Qc 2 = 1)%Qc) by (apply Qc_is_canon; vm_compute; reflexivity).
  assert (Hp : (0 < Q2Qc 2)%Qc) by reflexivity. assert (Hh : (0 < Q2Qc (1 # 2))%Qc) by reflexivity.
  set (h := Q2Qc (1 # 2)) in *. set (tw := Q2Qc 2) in *. clearbody h tw.
  assert (Em : (mk = h * (q * m))%Qc) by (rewrite Eq; transitivity (h * tw * mk)%Qc; [rewrite H2; ring|ring]).
  assert (Pq : (0 < q)%Qc).
  { destruct (Qcltb_spec 0 q) as [F|F]; [exact F|exfalso]. assert (G : (0 < tw * mk)%Qc) by (apply Qcmult_lt_0_compat; assumption). rewrite <- Eq in G. qcnra. }
  split; [reflexivity|]. split; [exact Pq|].
  assert (A : forall s, (h * (s * s) * m <= mk)%Qc <-> (s * s <= q)%Qc).
  { intros s. rewrite Em. set (t := (s * s)%Qc). clearbody t. split; intros F.
    - destruct (Qcleb_spec t q) as [G|G]; [exact G|exfalso]. assert (W : (0 < h * m)%Qc) by (apply Qcmult_lt_0_compat; assumption).
      assert (W2 : (0 < (t - q) * (h * m))%Qc) by (apply Qcmult_lt_0_compat; [qclra|exact W]). assert (W3 : ((t - q) * (h * m) = h * t * m - h * (q * m))%Qc) by ring. rewrite W3 in W2. qclra.
    - assert (W : (0 < h * m)%Qc) by (apply Qcmult_lt_0_compat; assumption).
      assert (W2 : (0 <= (q - t) * (h * m))%Qc) by (apply Qcmult_le_0_compat; qclra). assert (W3 : ((q - t) * (h * m) = h * (q * m) - h * t * m)%Qc) by ring. rewrite W3 in W2. qclra. }
  split; [exact A|]. intros s F. pose proof (qcsq_nonneg s) as Hs.
  assert (G : (h * (s * s) * dh <= h * (s * s) * m)%Qc).
  { assert (W : (0 <= h * (s * s))%Qc) by (apply Qcmult_le_0_compat; [qclra|exact Hs]). assert (W2 : (0 <= h * (s * s) * (m - dh))%Qc) by (apply Qcmult_le_0_compat; [exact W|qclra]).
    assert (W3 : (h * (s * s) * (m - dh) = h * (s * s) * m - h * (s * s) * dh)%Qc) by ring. rewrite W3 in W2. qclra. }
  destruct (Qceqb_spec (s * s) 0) as [Z0|Z0].
  - rewrite Z0. assert (W : (h * 0 * dh = 0)%Qc) by ring. rewrite W. exact Hm.
  - assert (Ps : (0 < s * s)%Qc) by (apply Qcle_lt_or_eq in Hs as [X|X]; [exact X|congruence]).
    assert (W : (0 < h * (s * s) * (m - dh))%Qc) by (apply Qcmult_lt_0_compat; [apply Qcmult_lt_0_compat; assumption|qclra]).
    assert (W3 : (h * (s * s) * (m - dh) = h * (s * s) * m - h * (s * s) * dh)%Qc) by ring. rewrite W3 in W.
    apply A in F. qclra.
Qed.

Lemma iter_out {C} (f : C -> C) k c : Nat.iter k f (f c) = f (Nat.iter k f c).
Proof. induction k as [|k IH]; [reflexivity|]. change (f (Nat.iter k f (f c)) = f (f (Nat.iter k f c))). rewrite IH. reflexivity. Qed.
Section Learn.
Context {M C : Type}.
Variable grad : M -> list Qc -> list Qc.
Variable hess : M -> list Qc -> list Qc -> list Qc.
Variable loss : M -> list Qc -> option Qc.
Variable kl : M -> list Qc -> list Qc -> option Qc.
Variable vf : M -> C -> option Qc.
Variable cstep : M -> C -> C.
Variable iters : nat.
Lemma critic_loop_fst k : forall m c last, fst (critic_loop vf cstep k m c last) = Nat.iter k (cstep m) c.
Proof. induction k as [|k IH]; intros m c last; [reflexivity|]. cbn [critic_loop]. rewrite IH, iter_out. reflexivity. Qed.
Lemma critic_loop_some k : forall m c last, (0 < k \/ last <> None) -> snd (critic_loop vf cstep k m c last) <> None.
Proof.
  induction k as [|k IH]; intros m c last H; cbn [critic_loop snd]; [destruct H as [H|H]; [inversion H|exact H]|].
  apply IH. right. discriminate.
Qed.
Lemma npg_run step ms : forall a c last s a' c' last' s',
  foldM (npg_minibatch grad hess loss kl vf cstep iters step) ms (a, c, last, s) = Ok (a', c', last', s') ->
  npg_path grad hess step ms a a' /\ c' = critic_after cstep iters ms c
  /\ length (ns_actor s') = length (ns_actor s) + length ms /\ length (ns_vf s') = length (ns_vf s) + length ms /\ length (ns_kl s') = length (ns_kl s) + length ms.
Proof.
  induction ms as [|m ms IH]; intros a c last s a' c' last' s' H.
  - injection H as <- <- _ <-. split; [constructor|]. split; [reflexivity|]. rewrite !Nat.add_0_r. repeat split.
  - cbn [foldM] in H. unfold npg_minibatch at 1 in H. destruct (search_direction (hess m a) (grad m a) 10) as [d|e] eqn:E; [|discriminate]. cbn [bind] in H.
    pose proof (critic_loop_fst iters m c last) as K. destruct (critic_loop vf cstep iters m c last) as [c1 l1]. cbn [fst] in K. destruct l1 as [v|]; [|discriminate].
    cbn [bind] in H. apply IH in H as (P & Q & R1 & R2 & R3). split; [econstructor; eassumption|]. split; [rewrite Q, K; reflexivity|].
    cbn [ns_actor ns_vf ns_kl] in *. rewrite app_length in R1, R2, R3. cbn [length] in *. split; [lia|]. split; lia.
Qed.
Lemma npg_ok step n ms : (forall m a, length a = n -> semidefinite n (hess m a) /\ length (grad m a) = n /\ (0 < dot (grad m a) (grad m a))%Qc) -> 0 < iters ->
  forall a c last s, length a = n -> is_ok (foldM (npg_minibatch grad hess loss kl vf cstep iters step) ms (a, c, last, s)) = true.
Proof.
  intros G I. induction ms as [|m ms IH]; intros a c last s La; [reflexivity|]. cbn [foldM]. unfold npg_minibatch at 1.
  destruct (G m a La) as (S & Lg & Pg). destruct (C296_descent_lemma n _ _ 10 S Lg Pg ltac:(lia)) as (d & -> & Ld & _). cbn [bind].
  pose proof (critic_loop_some iters m c last (or_introl I)) as K. destruct (critic_loop vf cstep iters m c last) as [c1 [v|]]; [|contradiction].
  cbn [bind]. apply IH. rewrite vadd_length; [exact La|]. rewrite vscale_length. congruence.
Qed.
Variable sqrt : Qc -> Qc.
Variables (max_kl coeff : Qc) (mb : nat).
Lemma line_certified (trial : Qc -> list Qc) (k l : list Qc -> option Qc) (l0 : option Qc) n : forall i a s a' t, i + n = mb -> 0 < n ->
  line_loop trial k l max_kl coeff l0 mb n i a s = (a', t) -> t <> 0%Qc -> a' = trial t /\ acceptable k l max_kl l0 a' = true.
Proof.
  induction n as [|n IH]; intros i a s a' t Hi Hn H Ht; [inversion Hn|]. cbn [line_loop] in H.
  destruct (acceptable k l max_kl l0 (trial s)) eqn:E; [injection H as <- <-; split; [reflexivity|exact E]|].
  destruct (Nat.ltb_spec i (mb - 1)) as [F|F].
  - apply (IH (i + 1) (trial s) (s * coeff)%Qc a' t); auto; lia.
  - assert (n = 0) as -> by lia. cbn [line_loop] in H. injection H as _ <-. contradiction.
Qed.
Lemma olt_some a b : olt a b = true -> exists x y, a = Some x /\ b = Some y /\ (x < y)%Qc.
Proof. destruct a as [x|], b as [y|]; try discriminate. cbn. destruct (Qcltb_spec x y) as [H|H]; [|discriminate]. intros _. exists x, y. auto. Qed.
Lemma trpo_run ms : 0 < mb -> forall a c last s a' c' last' s',
  foldM (trpo_minibatch grad hess loss kl vf cstep iters sqrt max_kl coeff mb) ms (a, c, last, s) = Ok (a', c', last', s') ->
  exists ss ks, ts_step s' = ts_step s ++ ss /\ ts_kl s' = ts_kl s ++ ks /\ trpo_path grad hess loss kl max_kl ms a a' ss ks /\ c' = critic_after cstep iters ms c
    /\ length (ts_actor s') = length (ts_actor s) + length ms /\ length (ts_vf s') = length (ts_vf s) + length ms.
Proof.
  intros Hmb. induction ms as [|m ms IH]; intros a c last s a' c' last' s' H.
  - injection H as <- <- _ <-. exists [], []. rewrite !app_nil_r, !Nat.add_0_r. repeat match goal with |- _ /\ _ => split end; try reflexivity. constructor.
  - cbn [foldM] in H. unfold trpo_minibatch at 1 in H. destruct (search_direction (hess m a) (grad m a) 10) as [d|e] eqn:E; [|discriminate]. cbn [bind] in H.
    destruct (step_square (hess m a) max_kl d) as [q|e]; [|discriminate]. cbn [bind] in H.
    destruct (line_search _ _ _ _ _ _ _ _ _) as [a1 sz] eqn:L in H.
    pose proof (critic_loop_fst iters m c last) as K. destruct (critic_loop vf cstep iters m c last) as [c1 l1]. cbn [fst] in K. destruct l1 as [v|]; [|discriminate].
    cbn [bind] in H. apply IH in H as (ss & ks & P1 & P2 & P3 & Q & R1 & R2). cbn [ts_actor ts_vf ts_step ts_kl] in *.
    exists (sz :: ss), (kl m a a1 :: ks). rewrite P1, P2, <- !app_assoc. rewrite app_length in R1, R2. cbn [length app] in *.
    split; [reflexivity|]. split; [reflexivity|]. split; [|split; [rewrite Q, K; reflexivity|split; lia]].
    econstructor; [exact E|reflexivity| |exact P3]. intros Hs. unfold line_search in L.
    apply line_certified in L as [X Y]; [|lia|exact Hmb|exact Hs]. split; [exact X|].
    apply andb_prop in Y as [Y1 Y2]. apply olt_some in Y1 as (x & y & U1 & U2 & U3). injection U2 as <-. split; [exists x; split; assumption|].
    apply olt_some in Y2 as (x1 & y1 & V1 & V2 & V3). exists y1, x1. split; [exact V2|]. split; [exact V1|exact V3].
Qed.
Lemma critic_loop_last k : forall m c last, critic_loop vf cstep (S k) m c last = (Nat.iter (S k) (cstep m) c, Some (vf m (Nat.iter k (cstep m) c))).
Proof.
  induction k as [|k IH]; intros m c last; [reflexivity|]. change (critic_loop vf cstep (S (S k)) m c last) with (critic_loop vf cstep (S k) m (cstep m c) (Some (vf m c))).
  rewrite IH. rewrite !iter_out. reflexivity.
Qed.
Lemma critic_loop_pos : 0 < iters -> forall m c last, critic_loop vf cstep iters m c last = (Nat.iter iters (cstep m) c, Some (vf m (Nat.iter (iters - 1) (cstep m) c))).
Proof. destruct iters as [|k]; intros I m c last; [inversion I|]. rewrite critic_loop_last. cbn [Nat.sub]. rewrite Nat.sub_0_r. reflexivity. Qed.
Definition npg_from step ms st : res (list Qc * C * npg_stats) :=
  let* r := foldM (npg_minibatch grad hess loss kl vf cstep iters step) ms st in let '(a', c', _, s') := r in Ok (a', c', s').
Lemma npg_shift step ms : 0 < iters -> forall a c last s,
  npg_from step ms (a, c, last, s) = let* r := npg_from step ms (a, c, None, mkNS [] [] []) in let '(a', c', s') := r in Ok (a', c', npg_both s s').
Proof.
  intros I. pose proof (critic_loop_pos I) as L. induction ms as [|m ms IH]; intros a c last s.
  - unfold npg_from. cbn [foldM bind]. unfold npg_both. cbn [ns_actor ns_vf ns_kl]. rewrite !app_nil_r. destruct s; reflexivity.
  - unfold npg_from in *. cbn [foldM]. unfold npg_minibatch at 1 3. destruct (search_direction (hess m a) (grad m a) 10) as [d|e]; [|reflexivity]. cbn [bind].
    rewrite !L. cbn [bind]. rewrite IH. symmetry. rewrite IH.
    destruct (foldM _ ms _) as [[[[a1 c1] l1] s1]|e] in |- *; [|reflexivity]. cbn [bind]. unfold npg_both. cbn [ns_actor ns_vf ns_kl app]. rewrite <- !app_assoc. reflexivity.
Qed.
Definition trpo_from ms st : res (list Qc * C * trpo_stats) :=
  let* r := foldM (trpo_minibatch grad hess loss kl vf cstep iters sqrt max_kl coeff mb) ms st in let '(a', c', _, s') := r in Ok (a', c', s').
Lemma trpo_shift ms : 0 < iters -> forall a c last s,
  trpo_from ms (a, c, last, s) = let* r := trpo_from ms (a, c, None, mkTS [] [] [] []) in let '(a', c', s') := r in Ok (a', c', trpo_both s s').
Proof.
  intros I. pose proof (critic_loop_pos I) as L. induction ms as [|m ms IH]; intros a c last s.
  - unfold trpo_from. cbn [foldM bind]. unfold trpo_both. cbn [ts_actor ts_vf ts_step ts_kl]. rewrite !app_nil_r. destruct s; reflexivity.
  - unfold trpo_from in *. cbn [foldM]. unfold trpo_minibatch at 1 3. destruct (search_direction (hess m a) (grad m a) 10) as [d|e]; [|reflexivity]. cbn [bind].
    destruct (step_square (hess m a) max_kl d) as [q|e]; [|reflexivity]. cbn [bind].
    destruct (line_search _ _ _ _ _ _ _ _ _) as [a1 sz].
    rewrite !L. cbn [bind]. rewrite IH. symmetry. rewrite IH.
    destruct (foldM _ ms _) as [[[[a2 c2] l1] s1]|e] in |- *; [|reflexivity]. cbn [bind]. unfold trpo_both. cbn [ts_actor ts_vf ts_step ts_kl app]. rewrite <- !app_assoc. reflexivity.
Qed.
End Learn.

(** C299. NPG makes one natural gradient step of the actor for every minibatch of every repetition, each at the current parameters, and optim_critic_iters steps of the critic, and reports three numbers for each. *)
Lemma C299_npg_lemma : forall (M C : Type) (grad : M -> list Qc -> list Qc) (hess : M -> list Qc -> list Qc -> list Qc) (loss : M -> list Qc -> option Qc)
    (kl : M -> list Qc -> list Qc -> option Qc) (vf : M -> C -> option Qc) (cstep : M -> C -> C) (iters : nat) (step : Qc) (batches : list (list M))
    (a a' : list Qc) (c c' : C) (s : npg_stats),
  npg_learn grad hess loss kl vf cstep iters step batches a c = Ok (a', c', s) ->
  npg_path grad hess step (concat batches) a a' /\ c' = critic_after cstep iters (concat batches) c
  /\ length (ns_actor s) = length (concat batches) /\ length (ns_vf s) = length (concat batches) /\ length (ns_kl s) = length (concat batches).
Proof.
  intros M C grad hess loss kl vf cstep iters step batches a a' c c' s H. unfold npg_learn in H.
  destruct (foldM _ _ _) as [[[[a1 c1] l1] s1]|e] eqn:E in H; [|discriminate]. injection H as <- <- <-. apply npg_run in E. exact E.
Qed.
(** C299. For a minibatch it reports the surrogate loss at the old parameters, the loss of the critic before the last of its steps and the divergence of the new actor from the old. *)
Lemma C299_reports_lemma : forall (M C : Type) (grad : M -> list Qc -> list Qc) (hess : M -> list Qc -> list Qc -> list Qc) (loss : M -> list Qc -> option Qc)
    (kl : M -> list Qc -> list Qc -> option Qc) (vf : M -> C -> option Qc) (cstep : M -> C -> C) (iters : nat) (step : Qc) (m : M)
    (a a' : list Qc) (c c' : C) (s : npg_stats),
  npg_learn grad hess loss kl vf cstep iters step [[m]] a c = Ok (a', c', s) ->
  ns_actor s = [loss m a] /\ ns_kl s = [kl m a a'] /\ ns_vf s = [vf m (Nat.iter (iters - 1) (cstep m) c)].
Proof.
  intros M C grad hess loss kl vf cstep iters step m a a' c c' s H. unfold npg_learn in H. cbn [concat app foldM] in H. unfold npg_minibatch in H.
  destruct (search_direction _ _ _) as [d|e]; [|discriminate]. cbn [bind] in H. destruct iters as [|k]; [discriminate|].
  rewrite critic_loop_last in H. cbn [bind] in H. injection H as <- _ <-. cbn. rewrite Nat.sub_0_r. repeat split.
Qed.
(** C299. Learning from more minibatches is learning from the first and then from the rest, reports included. *)
Lemma C299_compose_lemma : forall (M C : Type) (grad : M -> list Qc -> list Qc) (hess : M -> list Qc -> list Qc -> list Qc) (loss : M -> list Qc -> option Qc)
    (kl : M -> list Qc -> list Qc -> option Qc) (vf : M -> C -> option Qc) (cstep : M -> C -> C) (iters : nat) (step : Qc) (bs bs' : list (list M)) (a : list Qc) (c : C), 0 < iters ->
  npg_learn grad hess loss kl vf cstep iters step (bs ++ bs') a c =
  let* r := npg_learn grad hess loss kl vf cstep iters step bs a c in
  let '(a1, c1, s1) := r in
  let* r' := npg_learn grad hess loss kl vf cstep iters step bs' a1 c1 in
  let '(a2, c2, s2) := r' in Ok (a2, c2, npg_both s1 s2).
Proof.
  intros M C grad hess loss kl vf cstep iters step bs bs' a c I. unfold npg_learn. rewrite concat_app, foldM_app.
  destruct (foldM _ (concat bs) _) as [[[[a1 c1] l1] s1]|e]; [|reflexivity]. cbn [bind].
  exact (npg_shift grad hess loss kl vf cstep iters step (concat bs') I a1 c1 l1 s1).
Qed.
(** C299. With gradients that do not vanish and a positive optim_critic_iters it succeeds. *)
Lemma C299_succeeds_lemma : forall (M C : Type) (grad : M -> list Qc -> list Qc) (hess : M -> list Qc -> list Qc -> list Qc) (loss : M -> list Qc -> option Qc)
    (kl : M -> list Qc -> list Qc -> option Qc) (vf : M -> C -> option Qc) (cstep : M -> C -> C) (iters : nat) (step : Qc) (batches : list (list M)) (n : nat) (a : list Qc) (c : C),
  (forall m b, length b = n -> semidefinite n (hess m b) /\ length (grad m b) = n /\ (0 < dot (grad m b) (grad m b))%Qc) -> 0 < iters -> length a = n ->
  is_ok (npg_learn grad hess loss kl vf cstep iters step batches a c) = true.
Proof.
  intros M C grad hess loss kl vf cstep iters step batches n a c G I La. unfold npg_learn.
  pose proof (npg_ok grad hess loss kl vf cstep iters step n (concat batches) G I a c None (mkNS [] [] []) La) as K.
  destruct (foldM _ _ _) as [[[[a1 c1] l1] s1]|e]; [reflexivity|discriminate K].
Qed.
(** C299. With optim_critic_iters 0 it raises for any data. *)
Lemma C299_zero_lemma : forall (M C : Type) (grad : M -> list Qc -> list Qc) (hess : M -> list Qc -> list Qc -> list Qc) (loss : M -> list Qc -> option Qc)
    (kl : M -> list Qc -> list Qc -> option Qc) (vf : M -> C -> option Qc) (cstep : M -> C -> C) (step : Qc) (batches : list (list M)) (a : list Qc) (c : C),
  concat batches <> [] -> is_ok (npg_learn grad hess loss kl vf cstep 0 step batches a c) = false.
Proof.
  intros M C grad hess loss kl vf cstep step batches a c N. unfold npg_learn. destruct (concat batches) as [|m ms]; [congruence|].
  cbn [foldM]. unfold npg_minibatch at 1. destruct (search_direction _ _ _); reflexivity.
Qed.

(** C300. A step size other than 0 reported by TRPO is that of a step along the search direction to parameters with smaller surrogate loss within the trust region. *)
Lemma C300_certified_lemma : forall (M C : Type) (grad : M -> list Qc -> list Qc) (hess : M -> list Qc -> list Qc -> list Qc) (loss : M -> list Qc -> option Qc)
    (kl : M -> list Qc -> list Qc -> option Qc) (vf : M -> C -> option Qc) (cstep : M -> C -> C) (iters : nat) (sqrt : Qc -> Qc) (max_kl coeff : Qc) (mb : nat)
    (batches : list (list M)) (a a' : list Qc) (c c' : C) (s : trpo_stats), 0 < mb ->
  trpo_learn grad hess loss kl vf cstep iters sqrt max_kl coeff mb batches a c = Ok (a', c', s) ->
  trpo_path grad hess loss kl max_kl (concat batches) a a' (ts_step s) (ts_kl s) /\ c' = critic_after cstep iters (concat batches) c
  /\ length (ts_actor s) = length (concat batches) /\ length (ts_vf s) = length (concat batches).
Proof.
  intros M C grad hess loss kl vf cstep iters sqrt max_kl coeff mb batches a a' c c' s Hm H. unfold trpo_learn in H.
  destruct (foldM _ _ _) as [[[[a1 c1] l1] s1]|e] eqn:E in H; [|discriminate]. injection H as <- <- <-.
  apply trpo_run in E as (ss & ks & P1 & P2 & P3 & Q & R1 & R2); [|exact Hm]. cbn [ts_step ts_kl app] in P1, P2. rewrite P1, P2. split; [exact P3|].
  split; [exact Q|]. split; [exact R1|exact R2].
Qed.

(** C300. Learning from more minibatches is learning from the first and then from the rest, reports included. *)
Lemma C300_compose_lemma : forall (M C : Type) (grad : M -> list Qc -> list Qc) (hess : M -> list Qc -> list Qc -> list Qc) (loss : M -> list Qc -> option Qc)
    (kl : M -> list Qc -> list Qc -> option Qc) (vf : M -> C -> option Qc) (cstep : M -> C -> C) (iters : nat) (sqrt : Qc -> Qc) (max_kl coeff : Qc) (mb : nat) (bs bs' : list (list M)) (a : list Qc) (c : C), 0 < iters ->
  trpo_learn grad hess loss kl vf cstep iters sqrt max_kl coeff mb (bs ++ bs') a c =
  let* r := trpo_learn grad hess loss kl vf cstep iters sqrt max_kl coeff mb bs a c in
  let '(a1, c1, s1) := r in
  let* r' := trpo_learn grad hess loss kl vf cstep iters sqrt max_kl coeff mb bs' a1 c1 in
  let '(a2, c2, s2) := r' in Ok (a2, c2, trpo_both s1 s2).
Proof.
  intros M C grad hess loss kl vf cstep iters sqrt max_kl coeff mb bs bs' a c I. unfold trpo_learn. rewrite concat_app, foldM_app.
  destruct (foldM _ (concat bs) _) as [[[[a1 c1] l1] s1]|e]; [|reflexivity]. cbn [bind].
  exact (trpo_shift grad hess loss kl vf cstep iters sqrt max_kl coeff mb (concat bs') I a1 c1 l1 s1).
Qed.
