(** * Proofs about the learning of NPG and TRPO in other coordinates *)
From Verif Require Import Py Num PyLemmas TatSpec TrpoModel TrpoProofs NpgModel NpgSpec NpgProofs IsoSpec.
Open Scope nat_scope.
Open Scope list_scope.

Lemma zeros_scale (b : list Qc) : map (fun _ => 0%Qc) b = vscale 0 b.
Proof. unfold vscale. apply map_ext. intros. ring. Qed.
Lemma vadd_same (n : nat) (u v : list Qc) : length u = n -> length v = n -> length (vadd u v) = n.
Proof. intros A B. rewrite vadd_length; congruence. Qed.
Lemma vscale_same (n : nat) (c : Qc) (u : list Qc) : length u = n -> length (vscale c u) = n.
Proof. intros. rewrite vscale_length. assumption. Qed.
Lemma vsub_same (n : nat) (u v : list Qc) : length u = n -> length v = n -> length (vsub u v) = n.
Proof. intros A B. unfold vsub. apply vadd_same; [exact A|]. apply vscale_same, B. Qed.

Section Iso.
Variables (n : nat) (f : list Qc -> list Qc).
Hypothesis I : isometry n f.
Lemma f_len u : length u = n -> length (f u) = n. Proof. apply I. Qed.
Lemma f_add u v : length u = n -> length v = n -> f (vadd u v) = vadd (f u) (f v). Proof. apply I. Qed.
Lemma f_scale c u : length u = n -> f (vscale c u) = vscale c (f u). Proof. apply I. Qed.
Lemma f_dot u v : length u = n -> length v = n -> dot (f u) (f v) = dot u v. Proof. apply I. Qed.
Lemma f_sub u v : length u = n -> length v = n -> f (vsub u v) = vsub (f u) (f v).
Proof. intros A B. unfold vsub. rewrite f_add, f_scale; auto. apply vscale_same, B. Qed.

Section CG.
Variables (A A' : list Qc -> list Qc) (tol : Qc).
Hypothesis LA : forall v, length v = n -> length (A v) = n.
Hypothesis EA : forall v, length v = n -> A' (f v) = f (A v).
Lemma cg_loop_iso k : forall x r p d, length x = n -> length r = n -> length p = n ->
  cg_loop A' tol k (f x) (f r) (f p) d = rmap f (cg_loop A tol k x r p d)
  /\ (forall y, cg_loop A tol k x r p d = Ok y -> length y = n).
Proof.
  induction k as [|k IH]; intros x r p d Lx Lr Lp.
  - split; [reflexivity|]. intros y H. injection H as <-. exact Lx.
  - cbn [cg_loop]. rewrite EA by exact Lp. pose proof (LA p Lp) as Lz. rewrite f_dot by assumption.
    destruct (qdiv d (dot p (A p))) as [al|e]; [|split; [reflexivity|discriminate]]. cbn [bind].
    assert (L1 : length (vadd x (vscale al p)) = n) by (apply vadd_same; [|apply vscale_same]; assumption).
    assert (L2 : length (vsub r (vscale al (A p))) = n) by (apply vsub_same; [|apply vscale_same]; assumption).
    assert (E1 : vadd (f x) (vscale al (f p)) = f (vadd x (vscale al p))) by (rewrite f_add, f_scale; auto; apply vscale_same, Lp).
    assert (E2 : vsub (f r) (vscale al (f (A p))) = f (vsub r (vscale al (A p)))) by (rewrite f_sub, f_scale; auto; apply vscale_same, Lz).
    rewrite E1, E2. set (x' := vadd x (vscale al p)) in *. set (r' := vsub r (vscale al (A p))) in *. rewrite f_dot by assumption.
    destruct (Qcltb (dot r' r') tol).
    + split; [reflexivity|]. intros y H. injection H as <-. exact L1.
    + destruct (qdiv (dot r' r') d) as [be|e]; [|split; [reflexivity|discriminate]]. cbn [bind].
      assert (L3 : length (vadd r' (vscale be p)) = n) by (apply vadd_same; [|apply vscale_same]; assumption).
      assert (E3 : vadd (f r') (vscale be (f p)) = f (vadd r' (vscale be p))) by (rewrite f_add, f_scale; auto; apply vscale_same, Lp).
      rewrite E3. apply IH; assumption.
Qed.
Lemma cg_iso b k : length b = n -> conjugate_gradients A' tol (f b) k = rmap f (conjugate_gradients A tol b k)
  /\ (forall y, conjugate_gradients A tol b k = Ok y -> length y = n).
Proof.
  intros Lb. unfold conjugate_gradients. rewrite !zeros_scale. rewrite <- f_scale by exact Lb. rewrite f_dot by assumption.
  apply cg_loop_iso; try assumption. apply vscale_same, Lb.
Qed.
End CG.

Variables (H H' : list Qc -> list Qc).
Hypothesis LH : forall v, length v = n -> length (H v) = n.
Hypothesis EH : forall v, length v = n -> H' (f v) = f (H v).
Lemma mvp_len v : length v = n -> length (MVP H v) = n.
Proof. intros L. unfold MVP. apply vadd_same; [apply LH, L|apply vscale_same, L]. Qed.
Lemma mvp_iso v : length v = n -> MVP H' (f v) = f (MVP H v).
Proof. intros L. unfold MVP. rewrite EH, f_add, f_scale; auto. apply vscale_same, L. Qed.
Lemma direction_iso g k : length g = n -> search_direction H' (f g) k = rmap f (search_direction H g k)
  /\ (forall d, search_direction H g k = Ok d -> length d = n).
Proof.
  intros L. unfold search_direction. destruct (cg_iso (MVP H) (MVP H') residual_tol mvp_len mvp_iso g k L) as [-> G].
  destruct (conjugate_gradients (MVP H) residual_tol g k) as [y|e]; cbn [rmap bind].
  - specialize (G y eq_refl). split; [rewrite f_scale; auto|]. intros d E. injection E as <-. apply vscale_same, G.
  - split; [reflexivity|discriminate].
Qed.
Lemma step_square_iso max_kl d : length d = n -> step_square H' max_kl (f d) = step_square H max_kl d.
Proof. intros L. unfold step_square. rewrite mvp_iso, f_dot; auto. apply mvp_len, L. Qed.
End Iso.

Lemma line_iso {P : Type} (ok : P -> Prop) (f : P -> P) (trial trial' : Qc -> P) (kl kl' loss loss' : P -> option Qc) (max_kl coeff : Qc) (al : option Qc) (mb : nat) :
  (forall s, ok (trial s)) -> (forall s, trial' s = f (trial s)) -> (forall p, ok p -> kl' (f p) = kl p) -> (forall p, ok p -> loss' (f p) = loss p) ->
  forall k i a s, ok a -> line_loop trial' kl' loss' max_kl coeff al mb k i (f a) s
    = (let '(p, t) := line_loop trial kl loss max_kl coeff al mb k i a s in (f p, t))
    /\ ok (fst (line_loop trial kl loss max_kl coeff al mb k i a s)).
Proof.
  intros T E K Ls. induction k as [|k IH]; intros i a s O; [split; [reflexivity|exact O]|].
  cbn [line_loop]. unfold acceptable. rewrite E, K, Ls by apply T.
  destruct (olt (kl (trial s)) (Some max_kl) && olt (loss (trial s)) al); [split; [reflexivity|apply T]|].
  destruct (i <? mb - 1); apply IH; apply T.
Qed.

Section Learn.
Context {M C : Type}.
Variables (n : nat) (f : list Qc -> list Qc) (grad grad' : M -> list Qc -> list Qc) (hess hess' : M -> list Qc -> list Qc -> list Qc) (loss loss' : M -> list Qc -> option Qc)
  (kl kl' : M -> list Qc -> list Qc -> option Qc) (vf : M -> C -> option Qc) (cstep : M -> C -> C) (iters : nat).
Hypothesis I : isometry n f.
Hypothesis S : same_problem n f grad grad' hess hess' loss loss' kl kl'.
Lemma npg_fold (step : Qc) (ms : list M) : forall a c last s, length a = n ->
  foldM (npg_minibatch grad' hess' loss' kl' vf cstep iters step) ms (f a, c, last, s)
  = rmap (fun '(a, c, last, s) => (f a, c, last, s)) (foldM (npg_minibatch grad hess loss kl vf cstep iters step) ms (a, c, last, s)).
Proof.
  induction ms as [|m ms IH]; intros a c last s L; [reflexivity|]. cbn [foldM]. unfold npg_minibatch at 1 3.
  rewrite (sp_grad _ _ _ _ _ _ _ _ _ _ S m a L).
  destruct (direction_iso n f I (hess m a) (hess' m (f a)) (fun v Lv => sp_hlen _ _ _ _ _ _ _ _ _ _ S m a v L Lv) (fun v Lv => sp_hess _ _ _ _ _ _ _ _ _ _ S m a v L Lv)
    (grad m a) 10 (sp_len _ _ _ _ _ _ _ _ _ _ S m a L)) as [-> G].
  destruct (search_direction (hess m a) (grad m a) 10) as [d|e]; [|reflexivity]. specialize (G d eq_refl). cbn [rmap bind].
  assert (L1 : length (vadd a (vscale step d)) = n) by (apply vadd_same; [|apply vscale_same]; assumption).
  assert (E1 : vadd (f a) (vscale step (f d)) = f (vadd a (vscale step d))) by (rewrite (f_add n f I), (f_scale n f I); auto; apply vscale_same, G).
  rewrite E1. destruct (critic_loop vf cstep iters m c last) as [c' last']. destruct last' as [v|]; [|reflexivity]. cbn [bind].
  rewrite (sp_loss _ _ _ _ _ _ _ _ _ _ S m a L), (sp_kl _ _ _ _ _ _ _ _ _ _ S m a _ L L1). apply IH, L1.
Qed.
Lemma trpo_fold (sqrt : Qc -> Qc) (max_kl coeff : Qc) (mb : nat) (ms : list M) : forall a c last s, length a = n ->
  foldM (trpo_minibatch grad' hess' loss' kl' vf cstep iters sqrt max_kl coeff mb) ms (f a, c, last, s)
  = rmap (fun '(a, c, last, s) => (f a, c, last, s)) (foldM (trpo_minibatch grad hess loss kl vf cstep iters sqrt max_kl coeff mb) ms (a, c, last, s)).
Proof.
  induction ms as [|m ms IH]; intros a c last s L; [reflexivity|]. cbn [foldM]. unfold trpo_minibatch at 1 3.
  rewrite (sp_grad _ _ _ _ _ _ _ _ _ _ S m a L).
  assert (LH : forall v, length v = n -> length (hess m a v) = n) by (intros v Lv; exact (sp_hlen _ _ _ _ _ _ _ _ _ _ S m a v L Lv)).
  assert (EH : forall v, length v = n -> hess' m (f a) (f v) = f (hess m a v)) by (intros v Lv; exact (sp_hess _ _ _ _ _ _ _ _ _ _ S m a v L Lv)).
  destruct (direction_iso n f I (hess m a) (hess' m (f a)) LH EH (grad m a) 10 (sp_len _ _ _ _ _ _ _ _ _ _ S m a L)) as [-> G].
  destruct (search_direction (hess m a) (grad m a) 10) as [d|e]; [|reflexivity]. specialize (G d eq_refl). cbn [rmap bind].
  rewrite (step_square_iso n f I (hess m a) (hess' m (f a)) LH EH max_kl d G).
  destruct (step_square (hess m a) max_kl d) as [q|e]; [|reflexivity]. cbn [bind].
  unfold line_search. rewrite (sp_loss _ _ _ _ _ _ _ _ _ _ S m a L).
  destruct (line_iso (fun p => length p = n) f (fun t => vadd a (vscale t d)) (fun t => vadd (f a) (vscale t (f d))) (kl m a) (kl' m (f a)) (loss m) (loss' m) max_kl coeff (loss m a) mb) with (k := mb) (i := 0) (a := a) (s := sqrt q) as [E O].
  - intros t. apply vadd_same; [|apply vscale_same]; assumption.
  - intros t. rewrite (f_add n f I), (f_scale n f I); auto. apply vscale_same, G.
  - intros p Lp. exact (sp_kl _ _ _ _ _ _ _ _ _ _ S m a p L Lp).
  - intros p Lp. exact (sp_loss _ _ _ _ _ _ _ _ _ _ S m p Lp).
  - exact L.
  - rewrite E. destruct (line_loop (fun t => vadd a (vscale t d)) (kl m a) (loss m) max_kl coeff (loss m a) mb mb 0 a (sqrt q)) as [a' size]. cbn [fst] in O.
    destruct (critic_loop vf cstep iters m c last) as [c' last']. destruct last' as [v|]; [|reflexivity]. cbn [bind].
    rewrite (sp_kl _ _ _ _ _ _ _ _ _ _ S m a a' L O). apply IH, O.
Qed.
End Learn.

(** C356. The natural gradient direction in other orthonormal coordinates is the same direction in those coordinates, after any number of iterations. *)
Lemma C356_direction_lemma : forall (n : nat) (f H H' : list Qc -> list Qc) (g : list Qc) (nsteps : nat), isometry n f ->
  (forall v, length v = n -> length (H v) = n) -> (forall v, length v = n -> H' (f v) = f (H v)) -> length g = n ->
  search_direction H' (f g) nsteps = rmap f (search_direction H g nsteps).
Proof. intros n f H H' g k I L E Lg. apply (direction_iso n f I H H' L E g k Lg). Qed.
(** C356. Learning by NPG in other orthonormal coordinates ends at the same parameters in those coordinates, with the same critic and the same reports. *)
Lemma C356_npg_lemma : forall (M C : Type) (n : nat) (f : list Qc -> list Qc) (grad grad' : M -> list Qc -> list Qc) (hess hess' : M -> list Qc -> list Qc -> list Qc)
    (loss loss' : M -> list Qc -> option Qc) (kl kl' : M -> list Qc -> list Qc -> option Qc) (vf : M -> C -> option Qc) (cstep : M -> C -> C) (iters : nat) (step : Qc)
    (batches : list (list M)) (a : list Qc) (c : C), isometry n f -> same_problem n f grad grad' hess hess' loss loss' kl kl' -> length a = n ->
  npg_learn grad' hess' loss' kl' vf cstep iters step batches (f a) c
  = rmap (fun '(a, c, s) => (f a, c, s)) (npg_learn grad hess loss kl vf cstep iters step batches a c).
Proof.
  intros M C n f grad grad' hess hess' loss loss' kl kl' vf cstep iters step batches a c I S L. unfold npg_learn.
  rewrite (npg_fold n f grad grad' hess hess' loss loss' kl kl' vf cstep iters I S step (concat batches) a c None _ L).
  destruct (foldM _ _ _) as [[[[a1 c1] l1] s1]|e]; reflexivity.
Qed.
(** C356. So does learning by TRPO, with the same step sizes. *)
Lemma C356_trpo_lemma : forall (M C : Type) (n : nat) (f : list Qc -> list Qc) (grad grad' : M -> list Qc -> list Qc) (hess hess' : M -> list Qc -> list Qc -> list Qc)
    (loss loss' : M -> list Qc -> option Qc) (kl kl' : M -> list Qc -> list Qc -> option Qc) (vf : M -> C -> option Qc) (cstep : M -> C -> C) (iters : nat) (sqrt : Qc -> Qc)
    (max_kl coeff : Qc) (mb : nat) (batches : list (list M)) (a : list Qc) (c : C), isometry n f -> same_problem n f grad grad' hess hess' loss loss' kl kl' -> length a = n ->
  trpo_learn grad' hess' loss' kl' vf cstep iters sqrt max_kl coeff mb batches (f a) c
  = rmap (fun '(a, c, s) => (f a, c, s)) (trpo_learn grad hess loss kl vf cstep iters sqrt max_kl coeff mb batches a c).
Proof.
  intros M C n f grad grad' hess hess' loss loss' kl kl' vf cstep iters sqrt max_kl coeff mb batches a c I S L. unfold trpo_learn.
  rewrite (trpo_fold n f grad grad' hess hess' loss loss' kl kl' vf cstep iters I S sqrt max_kl coeff mb (concat batches) a c None _ L).
  destruct (foldM _ _ _) as [[[[a1 c1] l1] s1]|e]; reflexivity.
Qed.

Lemma dot_app (u v u' v' : list Qc) : length u = length u' -> dot (u ++ v) (u' ++ v') = (dot u u' + dot v v')%Qc.
Proof.
  revert u'. induction u as [|a u IH]; intros [|b u'] L; try discriminate; cbn [app dot]; [ring|].
  injection L as L. rewrite IH by exact L. ring.
Qed.
Lemma vadd_app (u v u' v' : list Qc) : length u = length u' -> vadd (u ++ v) (u' ++ v') = vadd u u' ++ vadd v v'.
Proof.
  revert u'. induction u as [|a u IH]; intros [|b u'] L; try discriminate; cbn [app vadd]; [reflexivity|].
  injection L as L. rewrite IH by exact L. reflexivity.
Qed.
(** C356. Reversing the order of the parameters is such a change of coordinates. *)
Lemma C356_backwards_lemma : forall (n : nat), isometry n backwards.
Proof.
  intros n. unfold isometry, backwards. split; [intros u L; rewrite rev_length; exact L|]. split; [|split].
  - intros u v. revert n v. induction u as [|a u IH]; intros n [|b v] Lu Lv; cbn [length] in *; try reflexivity; try (rewrite <- Lu in Lv; discriminate).
    destruct n as [|n]; [discriminate|]. injection Lu as Lu. injection Lv as Lv. cbn [vadd rev]. rewrite (IH n v Lu Lv).
    rewrite vadd_app by (rewrite !rev_length; congruence). reflexivity.
  - intros c u _. unfold vscale. symmetry. apply map_rev.
  - intros u v. revert n v. induction u as [|a u IH]; intros n [|b v] Lu Lv; cbn [length] in *; try reflexivity; try (rewrite <- Lu in Lv; discriminate).
    destruct n as [|n]; [discriminate|]. injection Lu as Lu. injection Lv as Lv. cbn [dot rev].
    rewrite dot_app by (rewrite !rev_length; congruence). rewrite (IH n v Lu Lv). cbn [dot]. ring.
Qed.

Lemma vsub_self_scaled (c : Qc) (g : list Qc) : (c <> 0)%Qc -> vsub g (vscale (/ c) (vscale c g)) = vscale 0 g.
Proof.
  intros Hc. unfold vsub, vscale. induction g as [|a g IH]; [reflexivity|]. cbn [map vadd]. f_equal; [field; exact Hc|exact IH].
Qed.
Lemma dot_zero_scaled (u v : list Qc) : dot (vscale 0 u) v = 0%Qc.
Proof. rewrite dot_vscale_l. ring. Qed.
Lemma vadd_zero_scaled (u v : list Qc) : length u = length v -> vadd (vscale 0 u) v = v.
Proof.
  revert v. induction u as [|a u IH]; intros [|b v] L; try discriminate; [reflexivity|]. cbn [vscale map vadd]. injection L as L. f_equal; [ring|apply IH, L].
Qed.
(** C357. If the divergence curves equally in all directions, the search direction is the negative gradient divided by the damped curvature, whatever the number of iterations. *)
Lemma C357_isotropic_lemma : forall (H : list Qc -> list Qc) (k : Qc) (g : list Qc) (nsteps : nat), (forall v, length v = length g -> H v = vscale k v) ->
  (0 <= k)%Qc -> (0 < dot g g)%Qc -> 0 < nsteps -> search_direction H g nsteps = Ok (vscale (- / (k + Q2Qc (1 # 10)))%Qc g).
Proof.
  intros H k g nsteps EH Hk Hg N. unfold search_direction, conjugate_gradients. destruct nsteps as [|j]; [inversion N|]. cbn [cg_loop].
  assert (EM : MVP H g = vscale (k + damping)%Qc g).
  { unfold MVP. rewrite EH by reflexivity. unfold vscale. clear. induction g as [|a g IH]; [reflexivity|]. cbn [map vadd]. f_equal; [ring|exact IH]. }
  rewrite EM, dot_vscale_r. pose proof damping_pos as D. set (c := (k + damping)%Qc). assert (Hc : (0 < c)%Qc) by (unfold c; qclra).
  pose proof (Qcpos_neq _ Hc) as Nc. pose proof (Qcpos_neq _ Hg) as Ng.
  assert (P : (0 < c * dot g g)%Qc) by (apply NpgProofs.Qcmult_lt_0_compat; assumption). unfold qdiv at 1.
  destruct (Qceqb_spec (c * dot g g) 0) as [E|_]; [exfalso; exact (Qcpos_neq _ P E)|]. cbn [bind].
  replace (dot g g / (c * dot g g))%Qc with (/ c)%Qc by (field; auto). rewrite vsub_self_scaled by exact Nc. rewrite dot_zero_scaled.
  destruct (Qcltb_spec 0 residual_tol) as [_|F]; [|exfalso; pose proof tol_pos; qclra]. cbn [bind]. f_equal.
  rewrite zeros_scale, vadd_zero_scaled by (rewrite vscale_length; reflexivity). rewrite vscale_vscale. change (Q2Qc (1 # 10)) with damping. fold c.
  replace (- (1) * / c)%Qc with (- / c)%Qc by ring. reflexivity.
Qed.
(** C357. Learning by NPG is then plain gradient descent, one step for each minibatch, with the step size divided by the damped curvature. *)
Lemma C357_plain_lemma : forall (M C : Type) (grad : M -> list Qc -> list Qc) (hess : M -> list Qc -> list Qc -> list Qc) (loss : M -> list Qc -> option Qc)
    (kl : M -> list Qc -> list Qc -> option Qc) (vf : M -> C -> option Qc) (cstep : M -> C -> C) (iters : nat) (k step : Qc) (n : nat) (batches : list (list M)) (a : list Qc) (c : C),
  (forall m b v, length b = n -> length v = n -> hess m b v = vscale k v) -> (0 <= k)%Qc ->
  (forall m b, length b = n -> length (grad m b) = n /\ (0 < dot (grad m b) (grad m b))%Qc) -> 0 < iters -> length a = n ->
  exists c' s, npg_learn grad hess loss kl vf cstep iters step batches a c
    = Ok (fold_left (descend grad (step / (k + Q2Qc (1 # 10)))%Qc) (concat batches) a, c', s).
Proof.
  intros M C grad hess loss kl vf cstep iters k step n batches a c EH Hk EG Hi La. unfold npg_learn.
  assert (G : forall ms a c last s, length a = n -> exists c' last' s', foldM (npg_minibatch grad hess loss kl vf cstep iters step) ms (a, c, last, s)
    = Ok (fold_left (descend grad (step / (k + Q2Qc (1 # 10)))%Qc) ms a, c', last', s')).
  { induction ms as [|m ms IH]; intros a0 c0 last s L; [exists c0, last, s; reflexivity|]. cbn [foldM fold_left]. unfold npg_minibatch at 1.
    destruct (EG m a0 L) as [Lg Pg].
    rewrite (C357_isotropic_lemma (hess m a0) k (grad m a0) 10) by first [assumption|apply Nat.lt_0_succ|intros v Lv; apply EH; congruence].
    cbn [bind].
    assert (E : vadd a0 (vscale step (vscale (- / (k + Q2Qc (1 # 10)))%Qc (grad m a0))) = descend grad (step / (k + Q2Qc (1 # 10)))%Qc a0 m).
    { unfold descend. rewrite vscale_vscale. do 2 f_equal. unfold Qcdiv. ring. }
    rewrite E.
    assert (K : forall j c l, l <> None \/ 0 < j -> snd (critic_loop vf cstep j m c l) <> None).
    { induction j as [|j IHj]; intros c1 l [Hl|Hl]; cbn [critic_loop snd]; [exact Hl|inversion Hl| |]; apply IHj; left; discriminate. }
    specialize (K iters c0 last (or_intror Hi)). destruct (critic_loop vf cstep iters m c0 last) as [c1 l1]. cbn [snd] in K.
    destruct l1 as [v|]; [|congruence]. apply IH. unfold descend. apply vadd_same; [exact L|]. apply vscale_same, Lg. }
  destruct (G (concat batches) a c None (mkNS [] [] []) La) as (c' & l' & s' & ->). exists c', s'. reflexivity.
Qed.
