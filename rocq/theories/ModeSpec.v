(** * What the modes of networks should be *)
From Verif Require Import Py Num ModeModel.
Open Scope nat_scope.

(** Target networks, by name. *)
Definition is_target (n : nname) : bool :=
  match n with ModelOld | ActorOld | CriticOld | Critic2Old | PerturbTarget | CriticTarget | Critic2Target => true | _ => false end.
(** Policies as constructed. *)
Inductive built : pol -> Prop :=
  | B_base k m : built (make k m)
  | B_icm s p m : built p -> built (Icm s p m)
  | B_mgr s ps : (forall p, In p ps -> built p) -> built (Mgr s ps).
Fixpoint no_manager (p : pol) : bool := match p with Base _ _ _ => true | Icm _ p _ => no_manager p | Mgr _ _ => false end.
(** Classes whose [train] reaches all online networks; whose [train] leaves the targets alone; whose targets are in evaluation mode from the start
    and never leave it. *)
Definition reaches_online (k : kind) : bool := match k with KFqf _ | KBcq => false | _ => true end.
Definition spares_targets (k : kind) : bool := match k with KCrr true => false | _ => true end.
Definition keeps_targets (k : kind) : bool := match k with KBcq | KCrr true | KRainbow true true => false | _ => true end.

(** What is not part of a state dict. *)
Section State.
Context {V : Type}.
Fixpoint plains (o : obj V) : list V :=
  match o with Obj _ _ ms plain ds => flat_map (fun q => plains (snd q)) ms ++ map snd plain ++ flat_map (fun q => values (snd q)) ds end.
(** The registered tensor at a path: a parameter or a buffer of the object or of a submodule. *)
Inductive registered : obj V -> list nat -> V -> Prop :=
  | R_param ps bs ms plain ds k v : In (k, v) ps -> registered (Obj ps bs ms plain ds) [k] v
  | R_buffer ps bs ms plain ds k v : In (k, v) bs -> registered (Obj ps bs ms plain ds) [k] v
  | R_module ps bs ms plain ds k m p v : In (k, m) ms -> registered m p v -> registered (Obj ps bs ms plain ds) (k :: p) v.
End State.
