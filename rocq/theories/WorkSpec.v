(** * Statements about workers and wrappers, independent of the model's functions *)
From Verif Require Import Py Num StatModel WorkModel.
Open Scope nat_scope.

Section WorkSpec.
Context {V : Type}.
(** An observation of a space: arrays of the right type and shape, tuples in order, dictionaries with the same keys in any order. *)
Inductive fits : space -> obs V -> Prop :=
| F_arr d s data : length data = size s -> fits (SArr d s) (OArr (mkNd d s data))
| F_tup l m : length l = length m -> (forall i s o, nth_error l i = Some s -> nth_error m i = Some o -> fits s o) -> fits (STup l) (OTuple m)
| F_dic l m : NoDup (map fst m) -> (forall k, In k (map fst m) <-> In k (map fst l)) -> NoDup (map fst l) ->
    (forall k s, lookup k l = Some s -> exists o, lookup k m = Some o /\ fits s o) -> fits (SDic l) (ODict m).
(** Equality of observations; dictionaries are equal as finite maps. *)
Inductive eqo : obs V -> obs V -> Prop :=
| E_arr a : eqo (OArr a) (OArr a)
| E_tup l m : length l = length m -> (forall i a b, nth_error l i = Some a -> nth_error m i = Some b -> eqo a b) -> eqo (OTuple l) (OTuple m)
| E_dic l m : (forall k a, lookup k l = Some a -> exists b, lookup k m = Some b /\ eqo a b) -> (forall k, lookup k l = None -> lookup k m = None) -> eqo (ODict l) (ODict m).
(** Shared memory made for a space, with any contents. *)
Inductive isbuf : space -> buf V -> Prop :=
| B_arr d s data : isbuf (SArr d s) (BArr d s data)
| B_tup l m : length l = length m -> (forall i s b, nth_error l i = Some s -> nth_error m i = Some b -> isbuf s b) -> isbuf (STup l) (BTuple m)
| B_dic l m : map fst l = map fst m -> (forall k s, lookup k l = Some s -> exists b, lookup k m = Some b /\ isbuf s b) -> isbuf (SDic l) (BDict m).
(** Spaces all of whose arrays have types with shared memory. *)
Inductive shareable : space -> Prop :=
| H_arr d s : In d [DBool; DUInt 8; DUInt 16; DUInt 32; DUInt 64; DInt 8; DInt 16; DInt 32; DInt 64; DFloat 32; DFloat 64] -> shareable (SArr d s)
| H_tup l : (forall s, In s l -> shareable s) -> shareable (STup l)
| H_dic l : (forall k s, In (k, s) l -> shareable s) -> shareable (SDic l).
(** Two results of a worker that agree, [eq]: up to what for observations; a call that raises an AttributeError in one returns None in the other. *)
Definition agree {A X Info At} (eq : obs V -> obs V -> Prop) (seed : bool) (r r' : res (@out V A X Info At)) : Prop :=
  match r, r' with
  | Ok (RStep o x), Ok (RStep o' x') => eq o' o /\ x = x'
  | Ok (RReset o i), Ok (RReset o' i') => eq o' o /\ i = i'
  | Err AttributeError, Ok RNone => True
  | Ok (RSeeds _), Ok RNone => seed = true
  | _, _ => r = r' end.
End WorkSpec.
Definition is_seed {A At} (o : @wop A At) : bool := match o with WSeed _ => true | _ => false end.
Definition is_sample {A At} (o : @wop A At) : bool := match o with WSample => true | _ => false end.
(** [reset(seed=…)] of a vector environment. *)
Definition seeded_reset {A At} (o : @wop A At) : bool := match o with WSendReset (Some _) => true | _ => false end.
(** The last observation of worker [i] in a history. *)
Fixpoint last_of {V} (i : nat) (l : list (nat * obs V)) : option (obs V) :=
  match l with [] => None | (j, o) :: l => match last_of i l with Some o => Some o | None => if j =? i then Some o else None end end.
(** The transitions that should be stored: each observation with the next one. *)
Fixpoint transitions {O} (prev : O) (l : list (O * option O)) : list (O * O) :=
  match l with [] => [] | (o, again) :: l => (prev, o) :: transitions (match again with Some o' => o' | None => o end) l end.
(** Everything the environment answers is of the space. *)
Definition answers {O} (P : O -> Prop) (l : list (O * option O)) : Prop := forall o again, In (o, again) l -> P o /\ match again with Some o' => P o' | None => True end.
Definition is_dict (s : space) : bool := match s with SDic _ => true | _ => false end.
Definition is_array (s : space) : bool := match s with SArr _ _ => true | _ => false end.
(** The last reward reported for an agent, in a list of reports. *)
Fixpoint last_reward (a : nat) (l : list (list (nat * Z))) : option Z :=
  match l with
  | [] => None
  | rs :: l => match last_reward a l with Some r => Some r | None => fold_left (fun acc x => if fst x =? a then Some (snd x) else acc) rs None end end.
(** Observations of one kind: rows of [d] features, at least one. *)
Definition rows_ok (d : nat) (o : raw) : Prop := match o with Rows l => l <> [] /\ forall r, In r l -> length r = d | Dicts _ => False end.
Definition rows (o : raw) : list (list Qc) := match o with Rows l => l | Dicts _ => [] end.
(** The rows seen by the first of two wrappers. *)
Fixpoint trained (l : list (bool * raw)) : list (list Qc) := match l with [] => [] | (b, o) :: l => (if (b : bool) then rows o else []) ++ trained l end.
(** Statistics of feature [j] of all rows. *)
Definition stats_of (j : nat) (all : list (list Qc)) (r : rms) : Prop :=
  r_count r = length all /\ r_mean r = np_mean (map (fun x => nth j x 0%Qc) all) /\ r_var r = np_var (map (fun x => nth j x 0%Qc) all).
(** The vector environment inside all wrappers. *)
Fixpoint base (v : venv) : venv := match v with VWrap v => base v | _ => v end.
