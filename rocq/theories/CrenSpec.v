(** * Renumbering the environments of a cached buffer *)
From Verif Require Export BufferModel BufferSpec ManagerModel CachedModel CachedSpec.
Open Scope nat_scope.
Section Cren.
Context {Ob A Inf R : Type}.
(** The same calls, what was meant for environment [k] now for environment [s k]. *)
Definition cren (num : nat) (s : nat -> nat) (op : cop Ob A Inf R) : cop Ob A Inf R :=
  match op with
  | CReset keep => CReset keep
  | CAdd ids ts => CAdd (Some (map (fun i => Z.of_nat (s (Z.to_nat i))) (match ids with Some ids => ids | None => map Z.of_nat (seq 0 num) end))) ts
  end.
(** [s] gives different environments among the first [num] different numbers below [num']. *)
Definition placed (num num' : nat) (s : nat -> nat) : Prop := (forall k, k < num -> s k < num') /\ (forall j k, j < num -> k < num -> s j = s k -> j = k).
(** Where an index goes: those of the main buffer ([n0] rows) stay, those of the cache ([c] rows) of [k] go to that of [s k]. *)
Definition moved_to (n0 c : nat) (s : nat -> nat) (i : Z) : Z :=
  if (i <? Z.of_nat n0)%Z then i else let j := Z.to_nat i - n0 in Z.of_nat (n0 + s (j / c) * c + j mod c).
Definition report_to (n0 c : nat) (s : nat -> nat) (r : Z * R * nat * Z) : Z * R * nat * Z :=
  let '(i, ret, len, st) := r in (moved_to n0 c s i, ret, len, moved_to n0 c s st).
Definition part_to (s : nat -> nat) (k : nat) : nat := match k with 0 => 0 | S k => S (s k) end.
End Cren.
