(** * Vocabulary for statements about callbacks *)
From Verif Require Export CbkModel TrainSpec.
Open Scope Z_scope.

(** The training collections and the tests of a run with their eps. *)
Fixpoint trains (l : list use) : list (nat * Qc) :=
  match l with [] => [] | UTrain k q :: l => (k, q) :: trains l | UTest _ _ _ :: l => trains l end.
Fixpoint tests (l : list use) : list (tkind * nat * Qc) :=
  match l with [] => [] | UTrain _ _ :: l => tests l | UTest w k q :: l => (w, k, q) :: tests l end.
(** [q] is the value at step [t] of the line from [eps] at 0 to [final] at [decay], constant after. *)
Definition scheduled (eps final : Qc) (decay t : Z) (q : Qc) : Prop :=
  (t <= decay -> (q * Q2Qc (inject_Z decay) = eps * Q2Qc (inject_Z (decay - t)) + final * Q2Qc (inject_Z t))%Qc) /\
  (decay < t -> q = final).
(** The calls of train_fn with their arguments, and the collections. *)
Fixpoint train_calls (l : list event) : list (Z * Z) :=
  match l with [] => [] | ETrainFn e n :: l => (e, n) :: train_calls l | _ :: l => train_calls l end.
Fixpoint collections (l : list event) : list nat :=
  match l with [] => [] | ECollect k :: l => k :: collections l | _ :: l => collections l end.
(** The step the trainer starts counting from. *)
Definition first_step (c : config) : Z := match c_resume c with Some (_, n, _) => n | None => 0 end.
