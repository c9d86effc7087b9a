(** * What attributes of environments are meant to do *)
From Coq Require Import String.
From Verif Require Import AttrModel.
Open Scope nat_scope.
Open Scope list_scope.

(** The environment a (possibly negative) id stands for. *)
Definition target (n : nat) (j : Z) : option nat :=
  if ((- Z.of_nat n <=? j) && (j <? Z.of_nat n))%Z then Some (Z.to_nat (j mod Z.of_nat n)%Z) else None.
(** The environments before the first id that stands for none. *)
Fixpoint reached (n : nat) (ids : list Z) : list nat :=
  match ids with [] => [] | j :: ids => match target n j with Some i => i :: reached n ids | None => [] end end.
Definition all_ids (n : nat) (id : option (list Z)) : list Z := match id with Some l => l | None => map Z.of_nat (seq 0 n) end.

Section Spec.
Context {V : Type}.
(** Environment [j] is not stepping. *)
Definition idle (s : venv V) (j : Z) : Prop := In j (v_ready s) /\ ~ In j (v_waiting s).
(** The call is admitted: the vector environment is open and, in asynchronous mode, every id idle. *)
Definition admitted (s : venv V) (id : option (list Z)) : Prop :=
  v_closed s = false /\ (v_async s = true -> forall j, In j (all_ids (length (v_envs s)) id) -> idle s j).
(** The call writes to environment [i]. *)
Definition writes_to (s : venv V) (id : option (list Z)) (i : nat) : Prop :=
  admitted s id /\ In i (reached (length (v_envs s)) (all_ids (length (v_envs s)) id)).
(** [v] was the last value written to attribute [k] of environment [i]. *)
Inductive last_value (s : venv V) (i : nat) (k : string) : list (aop V) -> option V -> Prop :=
| last_none : last_value s i k [] None
| last_this ops v id : writes_to s id i -> last_value s i k (ops ++ [(k, v, id)]) (Some v)
| last_before ops k' v id r : k' <> k \/ ~ writes_to s id i -> last_value s i k ops r -> last_value s i k (ops ++ [(k', v, id)]) r.
(** No wrapper has the attribute, and a private one is not behind a wrapper. *)
Definition visible (e : env V) (k : string) : Prop :=
  (forall w, In w (e_wraps e) -> ~ In k (map fst w)) /\ (private k = true -> e_wraps e = []).
End Spec.
