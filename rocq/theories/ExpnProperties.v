(** * Property C380: exploration noise of DDPG in a collector *)
From Verif Require Import Py Num ReturnsSpec ActorModel ExpnModel ExpnProofs.
Open Scope nat_scope.

(** C380.  Without noise the actions stay as they are, also those in a batch, and nothing is drawn. *)
Theorem C380_none : forall (act : eact) (z : list Qc), expl_noise NNone act z = (act, NNone, false).
Proof. exact C380_none_lemma. Qed.
Print Assumptions C380_none.

(** C380.  Actions in a batch get no noise but a warning, and the noise does not advance. *)
Theorem C380_batch : forall (ns : enoise) (l z : list Qc), ns <> NNone -> expl_noise ns (EBatch l) z = (EBatch l, ns, true).
Proof. exact C380_batch_lemma. Qed.
Print Assumptions C380_batch.

(** C380.  With Gaussian noise every environment gets mu + sigma z with a draw of its own in every step, whichever are ready. *)
Theorem C380_gauss : forall (mu sigma : Qc) (steps : list cstep) (k j i : nat) (s : cstep) (a : Qc),
  Forall cstep_ok steps -> nth_error steps k = Some s -> nth_error (cs_ids s) j = Some i -> nth_error (cs_act s) j = Some a ->
  exists l, nth_error (expl_run (NGauss mu sigma) steps) k = Some l /\ nth_error l j = Some (i, (a + (mu + sigma * nth j (cs_z s) 0))%Qc).
Proof. exact C380_gauss_lemma. Qed.
Print Assumptions C380_gauss.

(** C380.  As long as the same environments are ready, each gets an Ornstein-Uhlenbeck process of its own. *)
Theorem C380_same_partial : forall (mu alpha beta : Qc) (ids : list nat) (steps : list cstep) (x0 : ouval) (k j i : nat) (s : cstep) (a : Qc),
  match x0 with OUArr l => length l = length ids | _ => True end ->
  Forall (fun s => cs_ids s = ids /\ cstep_ok s) steps ->
  nth_error steps k = Some s -> nth_error ids j = Some i -> nth_error (cs_act s) j = Some a ->
  exists l, nth_error (expl_run (NOU mu alpha beta x0) steps) k = Some l /\
    nth_error l j = Some (i, (a + (mu + Qcpower (1 - alpha) (S k) * (ou_get x0 j - mu)
      + beta * sum_n (S k) (fun t => Qcpower (1 - alpha) (k - t) * nth j (nth t (map cs_z steps) []) 0)))%Qc).
Proof. exact C380_same_partial_lemma. Qed.
Print Assumptions C380_same_partial.

(** C380.  REFUTED: with as many ready environments as before, an environment goes on with the process of the one that
    was at its place in the step before, whichever that was. *)
Theorem C380_mixed_refuted : forall (mu alpha beta : Qc) (x0 : ouval) (s t : cstep) (j i i' : nat) (a b : Qc),
  cstep_ok s -> cstep_ok t -> length (cs_ids s) = length (cs_ids t) ->
  nth_error (cs_ids s) j = Some i' -> nth_error (cs_act s) j = Some b ->
  nth_error (cs_ids t) j = Some i -> nth_error (cs_act t) j = Some a ->
  exists l m (v : Qc), expl_run (NOU mu alpha beta x0) [s; t] = [l; m] /\ nth_error l j = Some (i', (b + v)%Qc) /\
    nth_error m j = Some (i, (a + (v + alpha * (mu - v) + beta * nth j (cs_z t) 0))%Qc).
Proof. exact C380_mixed_refuted_lemma. Qed.
Print Assumptions C380_mixed_refuted.

(** C380.  REFUTED: when the number of ready environments changes, the processes of all of them start again at 0. *)
Theorem C380_dropped_refuted : forall (mu alpha beta : Qc) (x0 : ouval) (s t : cstep) (j i : nat) (a : Qc),
  cstep_ok s -> cstep_ok t -> length (cs_ids s) <> length (cs_ids t) ->
  nth_error (cs_ids t) j = Some i -> nth_error (cs_act t) j = Some a ->
  exists l m, expl_run (NOU mu alpha beta x0) [s; t] = [l; m] /\
    nth_error m j = Some (i, (a + (alpha * mu + beta * nth j (cs_z t) 0))%Qc).
Proof. exact C380_dropped_refuted_lemma. Qed.
Print Assumptions C380_dropped_refuted.

(** C380.  The warning is given exactly for actions in a batch when there is noise. *)
Theorem C380_warning : forall (ns : enoise) (act : eact) (z : list Qc),
  snd (expl_noise ns act z) = true <-> ns <> NNone /\ exists l, act = EBatch l.
Proof. exact C380_warning_lemma. Qed.
Print Assumptions C380_warning.

(** ** Non-vacuity: alpha = 1/2, beta = 1, mu = 0; environments 0 and 1, then others. *)
Definition en_q (n : Z) (d : positive) : Qc := Q2Qc (n # d).
Definition en_s (ids : list nat) : cstep := mkCS ids (map (fun _ => 0%Qc) ids) (map (fun i => en_q (Z.of_nat (i + 1)) 1) ids).
Definition en_run (l : list (list nat)) : list (list (nat * Qc)) := expl_run (NOU 0%Qc (en_q 1 2) 1%Qc OUNone) (map en_s l).
Definition en_eq (l : list (list (nat * Qc))) (m : list (list (nat * Q))) : bool :=
  forallb (fun p => forallb (fun q : nat * Qc * (nat * Q) => (fst (fst q) =? fst (snd q)) && Qeq_bool (this (snd (fst q))) (snd (snd q))) (combine (fst p) (snd p))
                    && (length (fst p) =? length (snd p))) (combine l m) && (length l =? length m).
Example C380_ex_ok : forall ids, cstep_ok (en_s ids).
Proof. intros ids. unfold cstep_ok, en_s. cbn [cs_act cs_ids]. apply map_length. Qed.
(** The same environments: each goes on from its own noise. *)
Example C380_ex_same : en_eq (en_run [[0; 1]; [0; 1]]) [[(0, 1 # 1); (1, 2 # 1)]; [(0, 3 # 2); (1, 3 # 1)]] = true.
Proof. vm_compute. reflexivity. Qed.
(** The order is exchanged: environment 1 goes on from the noise 1 of environment 0. *)
Example C380_ex_mixed : en_eq (en_run [[0; 1]; [1; 0]]) [[(0, 1 # 1); (1, 2 # 1)]; [(1, 5 # 2); (0, 2 # 1)]] = true.
Proof. vm_compute. reflexivity. Qed.
(** Environment 0 is dropped: the noise of environment 1 starts again. *)
Example C380_ex_dropped : en_eq (en_run [[0; 1]; [1]]) [[(0, 1 # 1); (1, 2 # 1)]; [(1, 2 # 1)]] = true.
Proof. vm_compute. reflexivity. Qed.
(** Gaussian noise. *)
Example C380_ex_gauss : en_eq (expl_run (NGauss 0%Qc 1%Qc) (map en_s [[0; 1]; [1]])) [[(0, 1 # 1); (1, 2 # 1)]; [(1, 2 # 1)]] = true.
Proof. vm_compute. reflexivity. Qed.
