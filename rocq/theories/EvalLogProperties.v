(** * Launchers and flattened log data: properties *)
From Verif Require Import Py PyLemmas Num StatModel EvalModel EvalSpec EvalLogProofs.
Open Scope nat_scope.
Open Scope list_scope.

(** C218. Several experiments are all run, one after the other and whatever the earlier ones did; the
    results of those that did not fail are returned in order, and RuntimeError is raised if there is none. *)
Theorem C218_sequential : forall (St Exp Res : Type) (run : St -> Exp -> St * res Res) s exps, length exps <> 1 ->
  launch_sequential run s exps = (fst (run_all run s exps),
    match successes (snd (run_all run s exps)) with [] => Err RuntimeError | l => Ok l end).
Proof. exact C218_sequential_lemma. Qed.
Print Assumptions C218_sequential.

(** C218. Experiments that do not depend on each other give the same when they are run in parallel. *)
Theorem C218_joblib : forall (St Exp Res : Type) (run : St -> Exp -> St * res Res) s exps,
  (forall s s' e, snd (run s e) = snd (run s' e)) ->
  launch_joblib run s exps = snd (launch_sequential run s exps).
Proof. exact C218_joblib_lemma. Qed.
Print Assumptions C218_joblib.

(** C218. "A RuntimeError is only raised if all experiments have failed": a single experiment is run without
    the protection, so that its own exception comes out, and no experiment at all counts as a failure. *)
Theorem C218_single_refuted : forall (St Exp Res : Type) (run : St -> Exp -> St * res Res) s,
  (forall e s' x, run s e = (s', Err x) -> launch_sequential run s [e] = (s', Err x) /\ launch_joblib run s [e] = Err x) /\
  launch_sequential run s [] = (s, Err RuntimeError) /\ launch_joblib run s [] = Err RuntimeError.
Proof. exact C218_single_refuted_lemma. Qed.
Print Assumptions C218_single_refuted.

(** C219. Flattening nested data whose keys are not empty and free of the delimiter: under the joined path
    every number is found and nothing else, with one entry for each. *)
Theorem C219_flatten : forall l, good (LDict l) ->
  NoDup (map fst (prepare l)) /\
  (forall k, In k (map fst (prepare l)) -> exists path, path <> [] /\ Forall clean path /\ k = join path) /\
  forall path, path <> [] -> Forall clean path -> get (join path) (prepare l) = value_at path (LDict l).
Proof. exact C219_flatten_lemma. Qed.
Print Assumptions C219_flatten.

(** C219. With the delimiter in a key (as in "save/epoch") or at its beginning, different numbers get the same key
    and only the last is kept. *)
Theorem C219_collision_refuted :   (exists l p p' q q', NoDup (map fst l) /\ p <> p' /\ q <> q' /\ value_at p (LDict l) = Some q /\ value_at p' (LDict l) = Some q' /\
    join p = join p' /\ length (prepare l) = 1) /\
  (exists l k k' q q', NoDup (map fst l) /\ k <> k' /\ value_at [k] (LDict l) = Some q /\ value_at [k'] (LDict l) = Some q' /\ length (prepare l) = 1).
Proof. exact C219_collision_refuted_lemma. Qed.
Print Assumptions C219_collision_refuted.

(** ** Examples *)
(** Experiments that count how often they were run; odd ones fail. *)
Definition ex_run (s e : nat) : nat * res nat := (S s, if Nat.odd e then Err KeyError else Ok (e * 10)).
Example C218_ex : launch_sequential ex_run 0 [2; 3; 4] = (3, Ok [20; 40]) /\ launch_joblib ex_run 0 [2; 3; 4] = Ok [20; 40] /\
  launch_sequential ex_run 0 [1; 3] = (2, Err RuntimeError) /\ (forall s s' e, snd (ex_run s e) = snd (ex_run s' e)) /\
  launch_sequential ex_run 0 [3] = (1, Err KeyError).
Proof. repeat split. Qed.
Definition ex_data : list (list char * ldata) :=
  [([Ch 0], LNum 1); ([Ch 1], LDict [([Ch 0; Ch 2], LNum 0); ([Ch 1], LArr [1%Qc]); ([Ch 5], LOther)])].
Example C219_ex : good (LDict ex_data) /\ prepare ex_data = [([Ch 0], 1%Qc); ([Ch 1; Slash; Ch 0; Ch 2], 0%Qc)].
Proof.
  split; [|reflexivity].
  assert (C : forall k, ~ In Slash k -> k <> [] -> clean k) by (intros k A B; split; assumption).
  unfold ex_data. constructor.
  - repeat constructor; cbn; intuition discriminate.
  - intros k d [[= <- <-]|[[= <- <-]|[]]]; apply C; cbn; intuition discriminate.
  - intros k d [[= <- <-]|[[= <- <-]|[]]]; constructor.
    + repeat constructor; cbn; intuition discriminate.
    + intros k d [[= <- <-]|[[= <- <-]|[[= <- <-]|[]]]]; apply C; cbn; intuition discriminate.
    + intros k d [[= <- <-]|[[= <- <-]|[[= <- <-]|[]]]]; constructor.
Qed.
