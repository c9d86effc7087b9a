(** * What logging and evaluation should do *)
From Verif Require Import Py Num StatModel EvalModel.
Open Scope nat_scope.
Open Scope list_scope.

(** ** Keys and paths *)
Definition clean (k : list char) : Prop := k <> [] /\ ~ In Slash k.
Definition no_slash (k : list char) : Prop := ~ In Slash k.
Fixpoint join (path : list (list char)) : list char :=
  match path with [] => [] | [k] => k | k :: path => k ++ Slash :: join path end.
(** The number found by following a path. *)
Fixpoint value_at (path : list (list char)) (d : ldata) : option Qc :=
  match path, d with
  | [], LNum q => Some q
  | k :: path, LDict l => match get k l with Some d' => value_at path d' | None => None end
  | _, _ => None
  end.
(** The keys of every dictionary are distinct, not empty and without the delimiter. *)
Inductive good : ldata -> Prop :=
| good_num q : good (LNum q)
| good_arr l : good (LArr l)
| good_other : good LOther
| good_dict l : NoDup (map fst l) -> (forall k d, In (k, d) l -> clean k) -> (forall k d, In (k, d) l -> good d) -> good (LDict l).
(** The array found by following a path in restored data. *)
Fixpoint array_at (path : list (list char)) (d : rdata) : option (list Qc) :=
  match path, d with
  | [], RArr l => Some l
  | k :: path, RDict l => match get k l with Some d' => array_at path d' | None => None end
  | _, _ => None
  end.
Definition prefix {X} (p q : list X) : Prop := exists r, q = p ++ r.
Definition strict_prefix {X} (p q : list X) : Prop := exists r, r <> [] /\ q = p ++ r.
(** No path of a tag leads through another tag. *)
Definition prefix_free (tags : list (list char)) : Prop :=
  forall k k', In k tags -> In k' tags -> ~ strict_prefix (split_key k) (split_key k').

(** ** A sequence of writes *)
Record wr := mkWr { w_scope : list char; w_name : list char; w_step : Z; w_data : list (list char * Qc) }.
Definition step_tag (w : wr) : list char := w_scope w ++ Slash :: w_name w.
(** The events of a tag in one write, and in all of them. *)
Definition events_of (tag : list char) (w : wr) : list (Z * Qc) :=
  (if key_eqb tag (step_tag w) then [(w_step w, qzz (w_step w))] else []) ++
  flat_map (fun kv => if key_eqb tag (w_scope w ++ Slash :: fst kv) then [(w_step w, snd kv)] else []) (w_data w).
Definition history (tag : list char) (ws : list wr) : list (Z * Qc) := flat_map (events_of tag) ws.
Definition write_all (ws : list wr) : res (list (list char * list (Z * Qc))) :=
  foldM (fun ev w => write (step_tag w) (w_step w) (w_data w) ev) ws [].
Definition tags_of (ws : list wr) : list (list char) :=
  flat_map (fun w => step_tag w :: map (fun kv => w_scope w ++ Slash :: fst kv) (w_data w)) ws.

(** ** Launching *)
(** The experiments run one after the other, whatever happens: final state and results. *)
Section Launch.
  Context {St Exp Res : Type} (run : St -> Exp -> St * res Res).
  Fixpoint run_all (s : St) (exps : list Exp) : St * list (res Res) :=
    match exps with
    | [] => (s, [])
    | e :: exps => let '(s1, r) := run s e in let '(s2, rs) := run_all s1 exps in (s2, r :: rs)
    end.
End Launch.
Definition successes {Res} (rs : list (res Res)) : list Res := flat_map (fun r => match r with Ok x => [x] | Err _ => [] end) rs.

(** ** Evaluation of several runs: what was logged in each run, as (step, mean return) *)
Definition full (log : list (Qc * Qc)) : list (Qc * option Qc) := map (fun x => (fst x, Some (snd x))) log.
Fixpoint increasing (l : list Qc) : Prop :=
  match l with x :: ((y :: _) as t) => (x < y)%Qc /\ increasing t | _ => True end.
(** The columns that are compared: as many as every run has, with steps below the bound. *)
Definition below (bound : option nat) (s : Qc) : bool := match bound with None => true | Some m => negb (Qcleb (sq m) s) end.
Definition conv (v : entry) : option fvalue :=
  match v with EArr l => Some (VArray l) | EStat a b c d => Some (VSummary a b c d) | EDict => None end.
(** The mean returns of a log, in order. *)
Definition rets (log : list (Qc * option Qc)) : list Qc := flat_map (fun x : Qc * option Qc => match snd x with Some r => [r] | None => [] end) log.
Definition runs_of (runs : list (list (Qc * option Qc) * list (Qc * option Qc))) : list dirent := map (fun r => run_of (fst r) (snd r)) runs.
(** The checkpoints that are saved: those at least [interval] epochs after the one saved before. *)
Fixpoint saved_triples (interval last : Z) (l : list (Z * Z * Z)) : list (Z * Z * Z) :=
  match l with
  | [] => []
  | ((e, _), _) as x :: l => if (interval <=? e - last)%Z then x :: saved_triples interval e l else saved_triples interval last l
  end.
Fixpoint strictly (lo : Z) (l : list Z) : Prop := match l with [] => True | x :: l => (lo < x)%Z /\ strictly x l end.
