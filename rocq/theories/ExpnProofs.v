(** * Proofs of property C380: exploration noise of DDPG in a collector *)
From Verif Require Import Py PyLemmas Num ActorModel ReturnsSpec ActorProofs ExpnModel.
Open Scope nat_scope.

Lemma nth_map_seq : forall (f : nat -> Qc) n j, j < n -> nth j (map f (seq 0 n)) 0%Qc = f j.
Proof.
  intros f n j H. rewrite (nth_indep _ 0%Qc (f 0)) by (rewrite map_length, seq_length; exact H). rewrite (map_nth f), seq_nth by exact H. reflexivity.
Qed.
Lemma ou_len1 : forall mu al be n z x, length (fst (ou_call mu al be (SizeTuple n) z x)) = n.
Proof. intros. unfold ou_call. cbn [fst]. rewrite map_length, seq_length. reflexivity. Qed.

(** What a row of a step gets: its action and component [j] of the noise. *)
Lemma row_of : forall (ids : list nat) (l r : list Qc) j i a, length l = length ids -> length r = length ids ->
  nth_error ids j = Some i -> nth_error l j = Some a ->
  nth_error (combine ids (map (fun xy : Qc * Qc => (fst xy + snd xy)%Qc) (combine l r))) j = Some (i, (a + nth j r 0)%Qc).
Proof.
  induction ids as [|i0 ids IH]; intros l r j i a Hl Hr Hi Ha; [destruct j; discriminate|].
  destruct l as [|a0 l]; [discriminate|]. destruct r as [|r0 r]; [discriminate|]. cbn [length] in Hl, Hr. destruct j as [|j].
  - cbn [nth_error] in Hi, Ha. injection Hi as ->. injection Ha as ->. reflexivity.
  - cbn [nth_error] in Hi, Ha. cbn [combine map nth_error nth]. apply IH; congruence.
Qed.

(** C380.  Without noise the actions stay as they are, also those in a batch, and nothing is drawn. *)
Lemma C380_none_lemma : forall (act : eact) (z : list Qc), expl_noise NNone act z = (act, NNone, false).
Proof. reflexivity. Qed.

(** C380.  Actions in a batch get no noise but a warning, and the noise does not advance. *)
Lemma C380_batch_lemma : forall (ns : enoise) (l z : list Qc), ns <> NNone -> expl_noise ns (EBatch l) z = (EBatch l, ns, true).
Proof. intros ns l z H. destruct ns; [contradiction| |]; reflexivity. Qed.

(** C380.  With Gaussian noise every environment gets mu + sigma z with a draw of its own in every step, whichever are ready. *)
Lemma C380_gauss_lemma : forall (mu sigma : Qc) (steps : list cstep) (k j i : nat) (s : cstep) (a : Qc),
  Forall cstep_ok steps -> nth_error steps k = Some s -> nth_error (cs_ids s) j = Some i -> nth_error (cs_act s) j = Some a ->
  exists l, nth_error (expl_run (NGauss mu sigma) steps) k = Some l /\ nth_error l j = Some (i, (a + (mu + sigma * nth j (cs_z s) 0))%Qc).
Proof.
  intros mu sigma. induction steps as [|s0 steps IH]; intros k j i s a F Hs Hi Ha; [destruct k; discriminate|].
  inversion F as [|s1 l1 F0 F1]; subst s1 l1. cbn [expl_run expl_noise noise_call]. destruct k as [|k].
  - cbn [nth_error] in Hs. injection Hs as ->. eexists. split; [reflexivity|].
    assert (J : j < length (cs_act s)) by (apply nth_error_Some; rewrite Ha; discriminate).
    rewrite (row_of (cs_ids s) (cs_act s) _ j i a F0); [rewrite nth_map_seq by exact J; reflexivity|rewrite map_length, seq_length; exact F0|exact Hi|exact Ha].
  - cbn [nth_error]. apply IH with (s := s); assumption.
Qed.

(** The first step of a run with OUNoise. *)
Lemma ou_step : forall mu al be x s steps, expl_run (NOU mu al be x) (s :: steps) =
  combine (cs_ids s) (map (fun xy : Qc * Qc => (fst xy + snd xy)%Qc) (combine (cs_act s) (fst (ou_call mu al be (SizeTuple (length (cs_act s))) (cs_z s) x))))
  :: expl_run (NOU mu al be (OUArr (fst (ou_call mu al be (SizeTuple (length (cs_act s))) (cs_z s) x)))) steps.
Proof. intros. reflexivity. Qed.

(** A run in which the same environments are ready adds the successive values of the process. *)
Lemma ou_same : forall mu al be ids steps x, Forall (fun s => cs_ids s = ids /\ cstep_ok s) steps ->
  forall k s j i a, nth_error steps k = Some s -> nth_error ids j = Some i -> nth_error (cs_act s) j = Some a ->
  exists l r, nth_error (expl_run (NOU mu al be x) steps) k = Some l
    /\ nth_error (ou_run mu al be (map (pair (SizeTuple (length ids))) (map cs_z steps)) x) k = Some r
    /\ nth_error l j = Some (i, (a + nth j r 0)%Qc).
Proof.
  intros mu al be ids. induction steps as [|s0 steps IH]; intros x F k s j i a Hs Hi Ha; [destruct k; discriminate|].
  inversion F as [|s1 l1 [E0 F0] F1]; subst s1 l1. rewrite ou_step. unfold cstep_ok in F0. rewrite F0, E0. cbn [map ou_run].
  destruct k as [|k].
  - cbn [nth_error] in Hs. injection Hs as ->. exists (combine ids (map (fun xy : Qc * Qc => (fst xy + snd xy)%Qc) (combine (cs_act s) (fst (ou_call mu al be (SizeTuple (length ids)) (cs_z s) x))))), (fst (ou_call mu al be (SizeTuple (length ids)) (cs_z s) x)).
    split; [reflexivity|]. split; [reflexivity|]. apply row_of; [congruence|apply ou_len1|exact Hi|exact Ha].
  - cbn [nth_error]. destruct (IH (OUArr (fst (ou_call mu al be (SizeTuple (length ids)) (cs_z s0) x))) F1 k s j i a Hs Hi Ha) as (l & r & L & R & Q).
    exists l, r. split; [exact L|]. split; [exact R|exact Q].
Qed.

(** C380.  As long as the same environments are ready, each gets an Ornstein-Uhlenbeck process of its own. *)
Lemma C380_same_partial_lemma : forall (mu alpha beta : Qc) (ids : list nat) (steps : list cstep) (x0 : ouval) (k j i : nat) (s : cstep) (a : Qc),
  match x0 with OUArr l => length l = length ids | _ => True end ->
  Forall (fun s => cs_ids s = ids /\ cstep_ok s) steps ->
  nth_error steps k = Some s -> nth_error ids j = Some i -> nth_error (cs_act s) j = Some a ->
  exists l, nth_error (expl_run (NOU mu alpha beta x0) steps) k = Some l /\
    nth_error l j = Some (i, (a + (mu + Qcpower (1 - alpha) (S k) * (ou_get x0 j - mu)
      + beta * sum_n (S k) (fun t => Qcpower (1 - alpha) (k - t) * nth j (nth t (map cs_z steps) []) 0)))%Qc).
Proof.
  intros mu al be ids steps x0 k j i s a X F Hs Hi Ha. destruct (ou_same mu al be ids steps x0 F k s j i a Hs Hi Ha) as (l & r & L & R & Q).
  exists l. split; [exact L|]. rewrite Q. destruct (C172_process_partial_lemma mu al be (length ids) (map cs_z steps) x0 X) as (_ & P). destruct (P k r R) as (_ & V).
  rewrite V; [reflexivity|]. apply nth_error_Some. rewrite Hi. discriminate.
Qed.

(** C380.  REFUTED: with as many ready environments as before, an environment goes on with the process of the one that
    was at its place in the step before, whichever that was. *)
Lemma C380_mixed_refuted_lemma : forall (mu alpha beta : Qc) (x0 : ouval) (s t : cstep) (j i i' : nat) (a b : Qc),
  cstep_ok s -> cstep_ok t -> length (cs_ids s) = length (cs_ids t) ->
  nth_error (cs_ids s) j = Some i' -> nth_error (cs_act s) j = Some b ->
  nth_error (cs_ids t) j = Some i -> nth_error (cs_act t) j = Some a ->
  exists l m (v : Qc), expl_run (NOU mu alpha beta x0) [s; t] = [l; m] /\ nth_error l j = Some (i', (b + v)%Qc) /\
    nth_error m j = Some (i, (a + (v + alpha * (mu - v) + beta * nth j (cs_z t) 0))%Qc).
Proof.
  intros mu al be x0 s t j i i' a b Hs Ht L Hi' Hb Hi Ha. unfold cstep_ok in Hs, Ht. rewrite !ou_step. cbn [expl_run].
  set (r := fst (ou_call mu al be (SizeTuple (length (cs_act s))) (cs_z s) x0)). assert (Lr : length r = length (cs_act s)) by apply ou_len1.
  eexists. eexists. exists (nth j r 0%Qc). split; [reflexivity|]. split; [apply row_of; congruence|].
  assert (J : j < length (cs_act t)) by (apply nth_error_Some; rewrite Ha; discriminate).
  rewrite (row_of (cs_ids t) (cs_act t) _ j i a Ht); [|rewrite ou_len1; exact Ht|exact Hi|exact Ha].
  unfold ou_call at 1. cbn [fst ou_restart]. replace (length r =? length (cs_act t)) with true by (symmetry; apply Nat.eqb_eq; congruence).
  cbn [size_len ou_get]. rewrite nth_map_seq by exact J. reflexivity.
Qed.

(** C380.  REFUTED: when the number of ready environments changes, the processes of all of them start again at 0. *)
Lemma C380_dropped_refuted_lemma : forall (mu alpha beta : Qc) (x0 : ouval) (s t : cstep) (j i : nat) (a : Qc),
  cstep_ok s -> cstep_ok t -> length (cs_ids s) <> length (cs_ids t) ->
  nth_error (cs_ids t) j = Some i -> nth_error (cs_act t) j = Some a ->
  exists l m, expl_run (NOU mu alpha beta x0) [s; t] = [l; m] /\
    nth_error m j = Some (i, (a + (alpha * mu + beta * nth j (cs_z t) 0))%Qc).
Proof.
  intros mu al be x0 s t j i a Hs Ht L Hi Ha. unfold cstep_ok in Hs, Ht. rewrite !ou_step. cbn [expl_run].
  set (r := fst (ou_call mu al be (SizeTuple (length (cs_act s))) (cs_z s) x0)). assert (Lr : length r = length (cs_act s)) by apply ou_len1.
  eexists. eexists. split; [reflexivity|]. assert (J : j < length (cs_act t)) by (apply nth_error_Some; rewrite Ha; discriminate).
  rewrite (row_of (cs_ids t) (cs_act t) _ j i a Ht); [|rewrite ou_len1; exact Ht|exact Hi|exact Ha].
  rewrite (C172_restart_refuted_lemma mu al be (SizeTuple (length (cs_act t))) (cs_z t) r j J); [reflexivity|]. intros E. injection E as E. congruence.
Qed.

(** C380.  The warning is given exactly for actions in a batch when there is noise. *)
Lemma C380_warning_lemma : forall (ns : enoise) (act : eact) (z : list Qc),
  snd (expl_noise ns act z) = true <-> ns <> NNone /\ exists l, act = EBatch l.
Proof.
  intros ns act z. split.
  - intros H. destruct ns as [|mu si|mu al be x], act as [l|l]; try discriminate; (split; [discriminate|exists l; reflexivity]).
  - intros (N & l & ->). destruct ns; [contradiction| |]; reflexivity.
Qed.
