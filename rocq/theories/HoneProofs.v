(** * Proofs: a HERVectorReplayBuffer with one sub-buffer is a HERReplayBuffer *)
From Verif Require Import Py PyLemmas TatSpec BufferModel ManagerModel SpcSpec SpcProofs HerModel HerSpec HmgrModel HmgrSpec HoneSpec.
Open Scope nat_scope.
Open Scope list_scope.

Section Hone.
Context {Ob0 G A Inf R : Type}.
Variable r0 : R.
Variable radd : R -> R -> R.
Variable last_frame : gobs Ob0 G -> gobs Ob0 G.
Variable rew_fn : G -> G -> R.
Variable o : opts.
Notation her := (her Ob0 G A Inf R).
Notation slot := (slot (gobs Ob0 G) A Inf R).

Lemma write_len (l : list (nat * option slot)) : forall m, length (write_rows m l) = length m.
Proof. unfold write_rows. induction l as [|c l IH]; intros m; [reflexivity|]. cbn [fold_left]. rewrite IH. apply upd_length. Qed.
Lemma restore_st (h : her) : b_st (h_buf (restore_cache h)) = b_st (h_buf h).
Proof. unfold restore_cache. destruct (h_alt h); reflexivity. Qed.
Lemma restore_none (h : her) : h_alt (restore_cache h) = [].
Proof. unfold restore_cache. destruct (h_alt h) eqn:E; [exact E|reflexivity]. Qed.
Lemma restore_some (h : her) : match b_meta (h_buf h), b_meta (h_buf (restore_cache h)) with None, None => True | Some m, Some m' => length m' = length m | _, _ => False end.
Proof.
  unfold restore_cache. destruct (h_alt h); [destruct (b_meta (h_buf h)); exact I || reflexivity|]. cbn [h_buf b_meta].
  destruct (b_meta (h_buf h)); cbn [option_map]; [apply write_len|exact I].
Qed.
Lemma restore_fits (h : her) : fits (h_buf h) -> fits (h_buf (restore_cache h)).
Proof.
  intros [F1 F2]. unfold fits. rewrite restore_st. split; [exact F1|]. pose proof (restore_some h) as S.
  destruct (b_meta (h_buf h)); destruct (b_meta (h_buf (restore_cache h))); try contradiction; [congruence|exact F2].
Qed.
Lemma rewrite_shape (h : her) index horizon offs hsel h' : rewrite_transitions rew_fn o h index horizon offs hsel = Ok h' ->
  b_st (h_buf h') = b_st (h_buf h) /\ match b_meta (h_buf h), b_meta (h_buf h') with None, None => True | Some m, Some m' => length m' = length m | _, _ => False end.
Proof.
  intros H. unfold rewrite_transitions in H. destruct (length index =? 0).
  { injection H as <-. split; [reflexivity|]. destruct (b_meta (h_buf h)); exact I || reflexivity. }
  destruct (negb (stack_num o =? 1)); [discriminate|]. destruct (b_meta (h_buf h)) as [m|]; [|discriminate].
  destruct (trajectories (h_buf h) (horizon - 1) (map Z.of_nat (chrono (b_st (h_buf h)) index))) as [traj|]; [|discriminate]. cbn [bind] in H.
  match type of H with (let* goals := ?g in _) = _ => destruct g as [goals|]; [|discriminate] end. cbn [bind] in H.
  match type of H with (let* cells := ?g in _) = _ => destruct g as [cells|]; [|discriminate] end. cbn [bind] in H. injection H as <-.
  cbn [h_buf b_st b_meta]. split; [reflexivity|]. apply write_len.
Qed.
Lemma one_hchildren (h : her) : fits (h_buf h) -> hm_children (as_hmanager h) = [h].
Proof.
  intros F. unfold hm_children, as_hmanager. cbn [hm_mgr hm_alts]. rewrite (one_children r0 radd) by exact F. cbn [combine map fst snd]. destruct h; reflexivity.
Qed.
Lemma one_put (h h' : her) : b_st (h_buf h') = b_st (h_buf h) ->
  match b_meta (h_buf h), b_meta (h_buf h') with None, None => True | Some m, Some m' => length m' = length m | _, _ => False end ->
  put (as_manager (h_buf h)) [h'] = as_hmanager h'.
Proof.
  intros E S. unfold put, as_hmanager, as_manager. cbn [m_bufs m_meta m_last m_lens map concat]. rewrite E.
  destruct (b_meta (h_buf h)); destruct (b_meta (h_buf h')); try contradiction; cbn [meta_rows]; [rewrite app_nil_r|]; reflexivity.
Qed.
Lemma one_hrestore (h : her) : fits (h_buf h) -> hm_restore (as_hmanager h) = as_hmanager (restore_cache h).
Proof. intros F. unfold hm_restore. rewrite one_hchildren by exact F. cbn [map hm_mgr as_hmanager]. apply one_put; [apply restore_st|apply restore_some]. Qed.

Lemma one_hsample (h : her) rb rnd z hz offs hsel : fits (h_buf h) -> stack_num o = 1 -> (0 <= z)%Z ->
  hm_sample rew_fn o (as_hmanager h) rb (fun _ => rnd) (Some z) hz (fun _ => offs) (fun _ => hsel)
  = rmap (fun x => (as_hmanager (fst x), snd x)) (h_sample rew_fn o h rnd (Some z) hz offs hsel)
  /\ (forall h' l, h_sample rew_fn o h rnd (Some z) hz offs hsel = Ok (h', l) -> fits (h_buf h')).
Proof.
  intros F Hk Hz.
  assert (P : forall h' l, h_sample rew_fn o h rnd (Some z) hz offs hsel = Ok (h', l) -> b_st (h_buf h') = b_st (h_buf h)
    /\ match b_meta (h_buf h), b_meta (h_buf h') with None, None => True | Some m, Some m' => length m' = length m | _, _ => False end).
  { intros h' l E. unfold h_sample in E. destruct (sample_indices o (h_buf (restore_cache h)) rnd (Some z)) as [idx|]; [|discriminate]. cbn [bind] in E.
    destruct (rewrite_transitions rew_fn o (restore_cache h) idx hz offs hsel) as [h2|] eqn:E2; [|discriminate]. cbn [bind] in E. injection E as <- _.
    destruct (rewrite_shape _ _ _ _ _ _ E2) as [S1 S2]. rewrite restore_st in S1. split; [exact S1|]. pose proof (restore_some h) as S3.
    destruct (b_meta (h_buf h)); destruct (b_meta (h_buf (restore_cache h))); destruct (b_meta (h_buf h2)); try contradiction; [congruence|exact I]. }
  split.
  2: { intros h' l E. destruct (P _ _ E) as [S1 S2]. destruct F as [F1 F2]. unfold fits. rewrite S1. split; [exact F1|].
       destruct (b_meta (h_buf h)); destruct (b_meta (h_buf h')); try contradiction; [congruence|exact F2]. }
  unfold hm_sample. rewrite one_hchildren by exact F. cbn [as_hmanager hm_mgr hm_alts].
  replace (z <? 0)%Z with false by (symmetry; apply Z.ltb_ge; exact Hz). rewrite Hk. change (1 <? 1) with false. rewrite andb_false_r.
  cbn [as_manager m_bufs m_lens length repeat].
  assert (K : forall s, child_samples rew_fn o 0 [h] (fun _ => rnd) [s] hz (fun _ => offs) (fun _ => hsel) = rmap (fun x => [x]) (h_sample rew_fn o h rnd (Some s) hz offs hsel)).
  { intros s. unfold child_samples. cbn [length seq combine mapM]. destruct (h_sample rew_fn o h rnd (Some s) hz offs hsel); reflexivity. }
  assert (Q : forall x, h_sample rew_fn o h rnd (Some z) hz offs hsel = Ok x ->
    (put (as_manager (h_buf h)) (map fst [x]), shifted (m_offsets (as_manager (h_buf h))) (map snd [x])) = (as_hmanager (fst x), snd x)).
  { intros [h' l] E. destruct (P _ _ E) as [S1 S2]. cbn [map fst snd]. f_equal; [apply one_put; assumption|].
    unfold shifted, m_offsets, m_sizes. cbn [as_manager m_bufs map offsets combine concat fst snd]. rewrite (map_add0 r0 radd), app_nil_r. reflexivity. }
  destruct (Z.eqb_spec z 0) as [->|Nz].
  - cbn [bind]. rewrite K. destruct (h_sample rew_fn o h rnd (Some 0%Z) hz offs hsel) as [x|e]; [|reflexivity]. cbn [rmap bind]. f_equal. apply Q. reflexivity.
  - cbn [list_sum fold_right]. rewrite Nat.add_0_r. destruct (Nat.eqb_spec (size (b_st (h_buf h))) 0) as [Hs|Hs].
    + cbn [bind]. unfold h_sample, sample_indices. rewrite Hk. cbn [Nat.eqb orb]. rewrite restore_st, Hs.
      replace (0 <? z)%Z with true by (symmetry; apply Z.ltb_lt; lia). unfold choice. cbn [seq length Nat.eqb].
      replace (negb (Z.to_nat z =? 0)) with true by (symmetry; apply negb_true_iff, Nat.eqb_neq; lia). reflexivity.
    + cbn [bind]. rewrite bincount_one.
      2: { intros j _. cbn [pick]. replace (rb j mod size (b_st (h_buf h)) <? size (b_st (h_buf h))) with true; [reflexivity|]. symmetry. apply Nat.ltb_lt. apply Nat.mod_upper_bound. exact Hs. }
      rewrite seq_length. cbn [map]. replace (Z.to_nat z =? 0) with false by (symmetry; apply Nat.eqb_neq; lia). rewrite Z2Nat.id by lia.
      rewrite K. destruct (h_sample rew_fn o h rnd (Some z) hz offs hsel) as [x|e]; [|reflexivity]. cbn [rmap bind]. f_equal. apply Q. reflexivity.
Qed.
Lemma one_hadd (h : her) ids t : fits (h_buf h) -> ids = None \/ ids = Some [0%Z] ->
  hm_add r0 radd last_frame o (as_hmanager h) ids [t] = rmap (fun x => (as_hmanager (fst x), [snd x])) (h_add r0 radd last_frame o h t)
  /\ (forall h' r, h_add r0 radd last_frame o h t = Ok (h', r) -> fits (h_buf h')).
Proof.
  intros F Hi. unfold hm_add, h_add. rewrite one_hrestore by exact F. cbn [as_hmanager hm_mgr hm_alts].
  rewrite (one_add r0 radd last_frame o _ t ids (restore_fits h F) Hi).
  destruct (add r0 radd last_frame o (h_buf (restore_cache h)) t) as [[b r]|e] eqn:E; cbn [rmap bind fst snd]; (split; [reflexivity|]); [|discriminate].
  intros h' r' H. injection H as <- _. cbn [h_buf]. eapply fits_add; [apply restore_fits, F|exact E].
Qed.
Lemma one_hreset keep (h : her) : fits (h_buf h) -> hm_reset r0 keep (as_hmanager h) = as_hmanager (h_reset r0 keep h) /\ fits (h_buf (h_reset r0 keep h)).
Proof.
  intros F. unfold hm_reset, h_reset. rewrite one_hrestore by exact F. split; [reflexivity|]. cbn [h_buf]. apply (fits_reset r0 radd), restore_fits, F.
Qed.
Lemma one_hrun ids rb : ids = None \/ ids = Some [0%Z] -> stack_num o = 1 -> forall ops (h : her), fits (h_buf h) -> Forall shared_call ops ->
  hm_run r0 radd last_frame rew_fn o (as_hmanager h) (map (manager_call ids rb) ops)
  = rmap (fun x => (as_hmanager (fst x), map manager_out (snd x))) (h_run r0 radd last_frame rew_fn o h ops)
  /\ (forall h' outs, h_run r0 radd last_frame rew_fn o h ops = Ok (h', outs) -> fits (h_buf h')).
Proof.
  intros Hi Hk. induction ops as [|op ops IH]; intros h F S.
  - split; [reflexivity|]. intros h' outs H. injection H as <- _. exact F.
  - inversion S as [|? ? S1 S2]; subst. cbn [map]. destruct op as [t|keep|src|rnd [z|] hz offs hsel]; cbn [shared_call] in S1; try contradiction; cbn [manager_call hm_run h_run].
    + destruct (one_hadd h ids t F Hi) as [-> P]. destruct (h_add r0 radd last_frame o h t) as [[h1 r]|e]; [|split; [reflexivity|discriminate]]. cbn [rmap bind fst snd].
      destruct (IH h1 (P h1 r eq_refl) S2) as [E1 E2]. rewrite E1. destruct (h_run r0 radd last_frame rew_fn o h1 ops) as [[h2 outs]|e]; [|split; [reflexivity|discriminate]].
      split; [reflexivity|]. intros h' outs' H. injection H as <- _. exact (E2 h2 outs eq_refl).
    + destruct (one_hreset keep h F) as [-> P].
      destruct (IH (h_reset r0 keep h) P S2) as [E1 E2]. rewrite E1. destruct (h_run r0 radd last_frame rew_fn o (h_reset r0 keep h) ops) as [[h2 outs]|e]; [|split; [reflexivity|discriminate]].
      split; [reflexivity|]. intros h' outs' H. injection H as <- _. exact (E2 h2 outs eq_refl).
    + destruct (one_hsample h rb rnd z hz offs hsel F Hk S1) as [-> P]. destruct (h_sample rew_fn o h rnd (Some z) hz offs hsel) as [[h1 r]|e]; [|split; [reflexivity|discriminate]]. cbn [rmap bind fst snd].
      destruct (IH h1 (P h1 r eq_refl) S2) as [E1 E2]. rewrite E1. destruct (h_run r0 radd last_frame rew_fn o h1 ops) as [[h2 outs]|e]; [|split; [reflexivity|discriminate]].
      split; [reflexivity|]. intros h' outs' H. injection H as <- _. exact (E2 h2 outs eq_refl).
Qed.
End Hone.

(** C358. A HERVectorReplayBuffer with one sub-buffer returns from every sequence of adding single transitions, resetting and sampling with relabelling what a
    HERReplayBuffer of its capacity returns, holds the same rows, rewritten or not, and the same rows to put back, and raises the same errors. *)
Lemma C358_run_lemma : forall (Ob0 G A Inf R : Type) (r0 : R) (radd : R -> R -> R) (last_frame : gobs Ob0 G -> gobs Ob0 G) (rew_fn : G -> G -> R) (o : opts) (n : nat)
    (ids : option (list Z)) (rb : nat -> nat) (ops : list (hop Ob0 G A Inf R)),
  stack_num o = 1 -> ids = None \/ ids = Some [0%Z] -> Forall shared_call ops ->
  vec_sizes n 1 = Ok [n] /\
  hm_run r0 radd last_frame rew_fn o (hm_init r0 [n]) (map (manager_call ids rb) ops)
  = rmap (fun x => (as_hmanager (fst x), map manager_out (snd x))) (h_run r0 radd last_frame rew_fn o (her_init r0 n) ops).
Proof.
  intros Ob0 G A Inf R r0 radd lf rew_fn o n ids rb ops Hk Hi S. split; [unfold vec_sizes; cbn [Nat.ltb Nat.leb guard repeat]; rewrite Nat.add_sub, Nat.div_1_r; reflexivity|].
  apply (one_hrun r0 radd lf rew_fn o ids rb Hi Hk ops (her_init r0 n)); [apply fits_init|exact S].
Qed.
(** C358. Both save the same rows. *)
Lemma C358_saved_lemma : forall (Ob0 G A Inf R : Type) (r0 : R) (radd : R -> R -> R) (last_frame : gobs Ob0 G -> gobs Ob0 G) (rew_fn : G -> G -> R) (o : opts) (n : nat)
    (ops : list (hop Ob0 G A Inf R)) (h : her Ob0 G A Inf R) outs,
  stack_num o = 1 -> Forall shared_call ops -> h_run r0 radd last_frame rew_fn o (her_init r0 n) ops = Ok (h, outs) ->
  hm_saved (as_hmanager h) = as_manager (h_saved h).
Proof.
  intros Ob0 G A Inf R r0 radd lf rew_fn o n ops h outs Hk S H.
  destruct (one_hrun r0 radd lf rew_fn o None (fun _ => 0) (or_introl eq_refl) Hk ops (her_init r0 n) (fits_init r0 n) S) as [_ P].
  unfold hm_saved, h_saved. rewrite (one_hrestore r0 radd) by exact (P h outs H). reflexivity.
Qed.
