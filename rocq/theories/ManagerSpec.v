(** * Specification of a buffer manager: independent buffers, one per id. *)
From Verif Require Export Py BufferModel BufferSpec ManagerModel.
Open Scope nat_scope.

Section ManagerSpec.
Context {Ob A Inf R : Type}.
Variable r0 : R.
Variable radd : R -> R -> R.
Variable last_frame : Ob -> Ob.
Notation trans := (trans Ob A Inf R).
Notation slot := (slot Ob A Inf R).
Notation mgr := (mgr Ob A Inf R).
Notation report := (nat * R * nat * nat)%type.

(** Calls made on the manager. *)
Inductive mop : Type := MAdd (ids : option (list Z)) (ts : list trans) | MReset (keep : bool).

(** Run the model on a history; every reported row is tagged with its buffer id. *)
Fixpoint m_run (o : opts) (m : mgr) (ops : list mop) : res (mgr * list (Z * report)) :=
  match ops with
  | [] => Ok (m, [])
  | MReset keep :: ops => m_run o (m_reset r0 keep m) ops
  | MAdd ids ts :: ops =>
      let* x := m_add r0 radd last_frame o m ids ts in
      let* y := m_run o (fst x) ops in
      Ok (fst y, combine (match ids with
                          | Some ids => ids
                          | None => map Z.of_nat (seq 0 (length (m_bufs m)))
                          end) (snd x) ++ snd y)
  end.

(** Does the id [id] mean sub-buffer [k] out of [N]?  Negative ids count from the end. *)
Definition mine (N k : nat) (id : Z) : bool := (id mod Z.of_nat N =? Z.of_nat k)%Z.

Definition select {T} (N k : nat) (l : list (Z * T)) : list T :=
  map snd (filter (fun x => mine N k (fst x)) l).

(** The part of the history that concerns sub-buffer [k]. *)
Fixpoint proj (N k : nat) (ops : list mop) : list (aop Ob A Inf R) :=
  match ops with
  | [] => []
  | MReset keep :: ops => OpReset keep :: proj N k ops
  | MAdd ids ts :: ops =>
      map OpAdd (select N k (combine (match ids with
                                      | Some ids => ids
                                      | None => map Z.of_nat (seq 0 N)
                                      end) ts)) ++ proj N k ops
  end.

(** Content of a bounded queue after a history. *)
Fixpoint queue_from (o : opts) (n : nat) (q : list slot) (ops : list (aop Ob A Inf R)) : list slot :=
  match ops with
  | [] => q
  | OpAdd t :: ops => queue_from o n (push n q [kept last_frame o t]) ops
  | OpReset _ :: ops => queue_from o n [] ops
  end.
Definition queue (o : opts) (n : nat) (ops : list (aop Ob A Inf R)) : list slot := queue_from o n [] ops.

(** Number of rows added since the last reset, and the ring slot of queue position [p]. *)
Fixpoint count_from (c : nat) (ops : list (aop Ob A Inf R)) : nat :=
  match ops with
  | [] => c
  | OpAdd _ :: ops => count_from (S c) ops
  | OpReset _ :: ops => count_from 0 ops
  end.
Definition place (n : nat) (ops : list (aop Ob A Inf R)) (p : nat) : nat :=
  let c := count_from 0 ops in (c - Nat.min c n + p) mod n.

(** First index of sub-buffer [k]. *)
Definition off (ns : list nat) (k : nat) : nat := list_sum (firstn k ns).

(** Content of sub-buffer [k] after a history on a manager of capacities [ns], and the index in
    the manager of position [p] of sub-buffer [k]. *)
Definition mqueue (o : opts) (ns : list nat) (ops : list mop) (k : nat) : list slot :=
  match nth_error ns k with
  | Some n => queue o n (proj (length ns) k ops)
  | None => []
  end.
Definition maddress (ns : list nat) (ops : list mop) (x : nat * nat) : nat :=
  off ns (fst x) + place (nth (fst x) ns 0) (proj (length ns) (fst x) ops) (snd x).

(** A report of a stand-alone buffer, moved to the sub-buffer's place. *)
Definition shift (d : nat) (r : report) : report :=
  let '(i, ret, len, st) := r in (i + d, ret, len, st + d).

(** A call is well-formed: as many ids as rows, at least one, all in range. *)
Definition mop_ok (N : nat) (op : mop) : Prop :=
  match op with
  | MReset _ => True
  | MAdd None ts => length ts = N /\ 0 < N
  | MAdd (Some ids) ts => length ids = length ts /\ ids <> []
                          /\ forall i, In i ids -> (- Z.of_nat N <= i < Z.of_nat N)%Z
  end.

End ManagerSpec.
Arguments mop : clear implicits.
