(** * Proofs: what PSRL learns does not depend on how the data arrive *)
From Verif Require Import Py PyLemmas Num PsrlModel DqnProofs PsrlProofs.
From Coq Require Import Permutation Qround.
Open Scope nat_scope.

(** The reward variance is a function of the other statistics, once anything was learnt. *)
Lemma learn_var fe loop hm b h m : learn fe loop hm b = Ok (h, m) -> forall s a,
  ps_var m s a = (1 / (ps_count m s a / (ps_sq m s a / ps_count m s a - ps_mean m s a * ps_mean m s a + fe) + 1 / ps_var_prior m s a))%Qc.
Proof. unfold learn. destruct (foldM _ b zero_stats) as [t|]; [|discriminate]. cbn [bind]. unfold observe. intros H. injection H as <- <-. intros s a. reflexivity. Qed.
Lemma learns_var fe loop bs b hm h m : foldM (learn fe loop) (bs ++ [b]) hm = Ok (h, m) -> forall s a,
  ps_var m s a = (1 / (ps_count m s a / (ps_sq m s a / ps_count m s a - ps_mean m s a * ps_mean m s a + fe) + 1 / ps_var_prior m s a))%Qc.
Proof. rewrite foldM_app. destruct (foldM _ bs hm) as [x|]; [|discriminate]. cbn [bind foldM]. destruct (learn fe loop x b) as [[h' m']|] eqn:L; [|discriminate]. cbn [bind]. intros H. injection H as <- <-. exact (learn_var _ _ _ _ _ _ L). Qed.
Lemma learn_updated fe loop hm b h m : learn fe loop hm b = Ok (h, m) -> ps_updated m = false.
Proof. unfold learn. destruct (foldM _ b zero_stats) as [t|]; [|discriminate]. cbn [bind]. unfold observe. intros H. injection H as <- <-. reflexivity. Qed.
Lemma learns_updated fe loop bs : forall hm h m, ps_updated (snd hm) = false -> foldM (learn fe loop) bs hm = Ok (h, m) -> ps_updated m = false.
Proof.
  induction bs as [|b bs IH]; intros hm h m U H; cbn [foldM] in H; [injection H as ->; exact U|].
  destruct (learn fe loop hm b) as [[h1 m1]|] eqn:L; [|discriminate]. cbn [bind] in H. apply (IH (h1, m1) h m); [exact (learn_updated _ _ _ _ _ _ L)|exact H].
Qed.

(** C330.  Two ways of cutting the same transitions into batches, in any order within and across
    the batches, lead to the same posterior: the same transition counts, reward counts, means,
    sums of squares and variances, and the same arrays in the store. *)
Lemma C330_order_lemma : forall (fe : Qc) (loop : bool) (h : store) (addr ns na : nat) (mean0 var0 : table2) (eps : Qc) (batches batches' : list (list row)),
  (0 < eps)%Qc -> batches <> [] -> batches' <> [] -> Permutation (concat batches) (concat batches') ->
  (forall w, In w (concat batches) -> w_obs w < ns /\ w_act w < na /\ w_next w < ns) ->
  exists h1 m1 h2 m2,
    foldM (learn fe loop) batches (h, psrl_init addr ns na mean0 var0 eps) = Ok (h1, m1)
    /\ foldM (learn fe loop) batches' (h, psrl_init addr ns na mean0 var0 eps) = Ok (h2, m2)
    /\ (forall x s a s', h1 x s a s' = h2 x s a s') /\ ps_trans m1 = ps_trans m2 /\ ps_ns m1 = ps_ns m2 /\ ps_na m1 = ps_na m2
    /\ (forall s a, ps_count m1 s a = ps_count m2 s a) /\ (forall s a, ps_mean m1 s a = ps_mean m2 s a)
    /\ (forall s a, ps_sq m1 s a = ps_sq m2 s a) /\ (forall s a, ps_var m1 s a = ps_var m2 s a) /\ ps_updated m1 = ps_updated m2.
Proof.
  intros fe loop h addr ns na mean0 var0 eps bs bs' He N N' P Hb.
  set (m0 := psrl_init addr ns na mean0 var0 eps).
  assert (Hc0 : forall s a, ps_count m0 s a = (ps_eps m0 + n_obs loop s a [])%Qc) by (intros s a; cbn; unfold n_obs, cnt; cbn; change (qn 0) with 0%Qc; ring).
  destruct (learn_seq fe loop bs h m0 []) as (h1 & m1 & E & E1 & E2 & E3 & E4 & E5 & Ht & Hc & Hm & Hq).
  { intros b w Hin Hw. apply Hb. apply in_concat. exists b. split; assumption. }
  { exact He. } { exact Hc0. }
  destruct (learn_seq fe loop bs' h m0 []) as (h2 & m2 & F & F1 & F2 & F3 & F4 & F5 & Gt & Gc & Gm & Gq).
  { intros b w Hin Hw. apply Hb. apply (Permutation_in _ (Permutation_sym P)). apply in_concat. exists b. split; assumption. }
  { exact He. } { exact Hc0. }
  assert (Cn : forall s a, ps_count m1 s a = ps_count m2 s a). { intros s a. rewrite Hc, Gc. cbn [app]. unfold n_obs. rewrite !(cnt_perm _ _ _ P). reflexivity. }
  assert (Sq : forall s a, ps_sq m1 s a = ps_sq m2 s a). { intros s a. rewrite Hq, Gq, (rew_at_perm _ _ _ _ _ P). reflexivity. }
  assert (Me : forall s a, ps_mean m1 s a = ps_mean m2 s a).
  { intros s a. specialize (Hm s a). specialize (Gm s a). rewrite (rew_at_perm _ _ _ _ _ P), <- Gm, Cn in Hm.
    assert (K : ps_count m2 s a <> 0%Qc). { rewrite Gc. cbn [app]. unfold n_obs. intros Z. pose proof (cnt_nonneg (at_sa s a) (concat bs')). pose proof (cnt_nonneg (loops_at loop s) (concat bs')). unfold m0 in Z. cbn [psrl_init ps_eps] in Z. clear - Z H H0 He. qclra. }
    transitivity (ps_mean m1 s a * ps_count m2 s a / ps_count m2 s a)%Qc; [field; exact K|]. rewrite Hm. field. exact K. }
  exists h1, m1, h2, m2. split; [exact E|]. split; [exact F|]. split; [intros x s a s'; rewrite Ht, Gt, !(cnt_perm _ _ _ P); reflexivity|].
  split; [congruence|]. split; [congruence|]. split; [congruence|]. split; [exact Cn|]. split; [exact Me|]. split; [exact Sq|]. split.
  - intros s a. destruct (exists_last N) as (cs & c & ->). destruct (exists_last N') as (cs' & c' & ->).
    rewrite (learns_var _ _ _ _ _ _ _ E), (learns_var _ _ _ _ _ _ _ F), Cn, Me, Sq, E5, F5. reflexivity.
  - rewrite (learns_updated fe loop bs (h, m0) h1 m1 eq_refl E), (learns_updated fe loop bs' (h, m0) h2 m2 eq_refl F). reflexivity.
Qed.
