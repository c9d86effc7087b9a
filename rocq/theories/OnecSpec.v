(** * Whole, short episodes *)
From Verif Require Export BufferModel BufferSpec ManagerModel CachedModel CachedSpec.
Open Scope nat_scope.
Section Onec.
Context {Ob A Inf R : Type}.
Notation trans := (trans Ob A Inf R).
(** [whole c l ts]: the transitions [ts] end with an episode; no episode has more than [c] transitions; [l] transitions of the first one came before. *)
Inductive whole (c : nat) : nat -> list trans -> Prop :=
| whole_nil : whole c 0 []
| whole_go l t ts : t_term t || t_trunc t = false -> whole c (S l) ts -> whole c l (t :: ts)
| whole_end l t ts : t_term t || t_trunc t = true -> S l <= c -> whole c 0 ts -> whole c l (t :: ts).
(** The entries of [rs] for the transitions that end an episode. *)
Definition at_ends {T : Type} (ts : list trans) (rs : list T) : list T := map snd (filter (fun x => t_term (fst x) || t_trunc (fst x)) (combine ts rs)).
(** A report of [add] as numbers of the other kind. *)
Definition zreport (r : nat * R * nat * nat) : Z * R * nat * Z := let '(i, ret, len, st) := r in (Z.of_nat i, ret, len, Z.of_nat st).
End Onec.
