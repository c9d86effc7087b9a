(** * Specifications about what training reports *)
From Coq Require Import String Ascii.
From Verif Require Export Py Num StatModel TstatModel.
Open Scope nat_scope.
Open Scope list_scope.

(** An attribute is an own one of some wrapper and also known to the object inside. *)
Fixpoint shadowed (s : stats) (k : string) : Prop :=
  match s with Wrap own i => (getd k own <> None /\ getattr i k <> None) \/ shadowed i k | _ => False end.
(** The base fields have the same values on all levels. *)
Fixpoint in_sync (s : stats) : Prop :=
  match s with Wrap own i => (forall k, In k base_fields -> getd k own = getattr i k) /\ in_sync i | _ => forall k, In k base_fields -> getattr s k <> None end.
(** Wrappers around an instance of a dataclass. *)
Fixpoint chain (s : stats) : Prop := match s with Plain _ => True | Wrap _ i => chain i | MapS _ _ => False end.
(** What is reported of an attribute. *)
Definition reported (k : string) (v : option val) : option val :=
  match v with
  | None | Some VNone => None
  | Some w => if String.prefix "_"%string k then None else if in_dec String.string_dec k base_fields then None
              else Some (match w with VSum m _ _ _ => VNum m | w => w end) end.
Fixpoint no_slash (s : string) : Prop := match s with EmptyString => True | String c s => c <> "/"%char /\ no_slash s end.
(** Names are distinct in every dict. *)
Fixpoint wf (s : stats) : Prop := match s with Plain d | MapS d _ => NoDup (map fst d) | Wrap own i => NoDup (map fst own) /\ wf i end.
(** The numbers reported under [k], in order. *)
Definition history (k : string) (l : list dict) : list Qc :=
  flat_map (fun d => match getd k d with Some (VNum q) => [q] | _ => [] end) l.
Definition numbers (d : dict) : Prop := NoDup (map fst d) /\ forall k v, In (k, v) d -> exists q, v = VNum q.
Definition last_100 (l : list Qc) : list Qc := skipn (length l - 100) l.
(** Sums of durations. *)
Definition total (f : ev -> bool) (l : list ev) : Qc := qsum (map dur (filter f l)).
Definition is_collect (o : ev) : bool := match o with OCollect _ _ _ => true | _ => false end.
Definition is_test (o : ev) : bool := match o with OTest _ _ _ => true | _ => false end.
Definition is_update (o : ev) : bool := match o with OUpdate _ => true | _ => false end.
Definition is_reset (o : ev) : bool := match o with OReset => true | _ => false end.
Definition any (o : ev) : bool := true.
Definition steps (f : ev -> bool) (l : list ev) : nat := fold_right Nat.add 0 (map (fun o => match o with OCollect _ n _ | OTest _ n _ => n | _ => 0 end) (filter f l)).
Definition episodes (f : ev -> bool) (l : list ev) : nat := fold_right Nat.add 0 (map (fun o => match o with OCollect _ _ n | OTest _ _ n => n | _ => 0 end) (filter f l)).
