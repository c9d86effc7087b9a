(** * Specification of CachedReplayBuffer: episodes per environment, in order of completion. *)
From Verif Require Export Py BufferModel BufferSpec ManagerModel CachedModel.
Open Scope nat_scope.

Section CachedSpec.
Context {Ob A Inf R : Type}.
Variable r0 : R.
Variable radd : R -> R -> R.
Variable last_frame : Ob -> Ob.
Notation trans := (trans Ob A Inf R).
Notation slot := (slot Ob A Inf R).
Notation mgr := (mgr Ob A Inf R).
Notation crep := (Z * R * nat * Z)%type.

Inductive cop : Type := CAdd (ids : option (list Z)) (ts : list trans) | CReset (keep : bool).

Fixpoint c_run (o : opts) (m : mgr) (ops : list cop) : res (mgr * list crep) :=
  match ops with
  | [] => Ok (m, [])
  | CReset keep :: ops => c_run o (m_reset r0 keep m) ops
  | CAdd ids ts :: ops =>
      let* x := c_add r0 radd last_frame o m ids ts in
      let* y := c_run o (fst x) ops in
      Ok (fst y, snd x ++ snd y)
  end.

(** Since the last reset: the finished episodes in order of completion, and for every
    environment its running episode with the rewards seen since the episode (or statistics)
    began. *)
Record cst : Type := mkCst { c_fin : list (list slot); c_cur : list (list slot * list R) }.

(** Rows moved to the main buffer so far: every finished episode, cut to its last [c] rows. *)
Definition c_moved (c : nat) (st : cst) : list slot := concat (map (lastn c) (c_fin st)).

(** One step of environment [k]: new state and what [add] must report. *)
Definition c_event (o : opts) (n0 c : nat) (st : cst) (k : nat) (t : trans) : cst * crep :=
  let '(e, rews) := nth k (c_cur st) ([], []) in
  let e' := e ++ [kept last_frame o t] in
  let rews' := rews ++ [t_rew t] in
  if t_term t || t_trunc t then
    let T := length (c_moved c st) in
    let L := Nat.min c (length e') in
    (mkCst (c_fin st ++ [e']) (upd (c_cur st) k ([], [])),
     (Z.of_nat ((T + L - 1) mod n0), total r0 radd rews', length rews', Z.of_nat (T mod n0)))
  else
    (mkCst (c_fin st) (upd (c_cur st) k (e', rews')),
     (Z.of_nat (n0 + k * c + length e mod c), r0, 0, Z.of_nat (n0 + k * c))).

Fixpoint c_events (o : opts) (n0 c : nat) (st : cst) (xs : list (Z * trans)) : cst * list crep :=
  match xs with
  | [] => (st, [])
  | (id, t) :: xs =>
      let '(st', r) := c_event o n0 c st (Z.to_nat id) t in
      let '(st'', rs) := c_events o n0 c st' xs in
      (st'', r :: rs)
  end.

Fixpoint c_spec (o : opts) (n0 num c : nat) (st : cst) (ops : list cop) : cst * list crep :=
  match ops with
  | [] => (st, [])
  | CReset keep :: ops =>
      c_spec o n0 num c
        (mkCst [] (map (fun x => ([], if keep then snd x else [])) (c_cur st))) ops
  | CAdd ids ts :: ops =>
      let '(st', rs) := c_events o n0 c st
          (combine (match ids with Some ids => ids | None => map Z.of_nat (seq 0 num) end) ts) in
      let '(st'', rs') := c_spec o n0 num c st' ops in
      (st'', rs ++ rs')
  end.

Definition c_start (num : nat) : cst := mkCst [] (repeat ([], []) num).

(** Well-formed call: distinct environments in range, one row each. *)
Definition cop_ok (num : nat) (op : cop) : Prop :=
  match op with
  | CReset _ => True
  | CAdd None ts => length ts = num
  | CAdd (Some ids) ts => length ids = length ts /\ ids <> [] /\ NoDup ids
                          /\ forall i, In i ids -> (0 <= i < Z.of_nat num)%Z
  end.

(** Content of the main buffer and of the caches. *)
Definition c_main (n0 c : nat) (st : cst) : list slot := lastn n0 (c_moved c st).
Definition c_cache (c : nat) (st : cst) (k : nat) : list slot := lastn c (fst (nth k (c_cur st) ([], []))).
(** Sub-buffer 0 is the main buffer, sub-buffer [k+1] the cache of environment [k]; content and
    index of the [p]-th oldest row of each. *)
Definition c_queue (n0 c : nat) (st : cst) (k : nat) : list slot :=
  match k with 0 => c_main n0 c st | S k => c_cache c st k end.
Definition ring (n total p : nat) : nat := (total - Nat.min total n + p) mod n.
Definition c_address (n0 c : nat) (st : cst) (x : nat * nat) : nat :=
  match fst x with
  | 0 => ring n0 (length (c_moved c st)) (snd x)
  | S k => n0 + k * c + ring c (length (fst (nth k (c_cur st) ([], [])))) (snd x)
  end.

End CachedSpec.
Arguments cop : clear implicits.
Arguments cst : clear implicits.
