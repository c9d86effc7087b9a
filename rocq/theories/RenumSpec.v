(** * Renumbering the parts of a vector buffer *)
From Verif Require Export BufferModel BufferSpec ManagerModel ManagerSpec.
Open Scope nat_scope.
Section Renum.
Context {Ob A Inf R : Type}.
(** [renum N s]: the same calls, what was meant for part [k] of [N] now for part [s k]. *)
Definition renum_id (N : nat) (s : nat -> nat) (i : Z) : Z := Z.of_nat (s (Z.to_nat (i mod Z.of_nat N)%Z)).
Definition renum (N : nat) (s : nat -> nat) (op : mop Ob A Inf R) : mop Ob A Inf R :=
  match op with
  | MReset keep => MReset keep
  | MAdd ids ts => MAdd (Some (map (renum_id N s) (match ids with Some ids => ids | None => map Z.of_nat (seq 0 N) end))) ts
  end.
(** [s] renumbers [0 .. N-1]. *)
Definition renumbers (N : nat) (s : nat -> nat) : Prop :=
  (forall k, k < N -> s k < N) /\ (forall j k, j < N -> k < N -> s j = s k -> j = k).
(** A report with its indices counted from [d]. *)
Definition unshift (d : nat) (r : nat * R * nat * nat) : nat * R * nat * nat := let '(i, ret, len, st) := r in (i - d, ret, len, st - d).
End Renum.
