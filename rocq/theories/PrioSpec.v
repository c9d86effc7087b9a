(** * Specification of prioritized replay: a plain array of weights *)
From Verif Require Export Py Num BufferModel BufferSpec ManagerModel ManagerSpec SegTreeSpec.
From Verif Require Import PrioModel.
Open Scope nat_scope.

Section PrioSpec.
Variables (pw : Qc -> Qc) (eps : Qc).
Context {Ob A Inf R : Type}.
Variable r0 : R.
Variable radd : R -> R -> R.
Variable last_frame : Ob -> Ob.
Notation trans := (trans Ob A Inf R).
Notation buf := (buf Ob A Inf R).

(** Calls on a PrioritizedReplayBuffer. *)
Inductive pop : Type := PAdd (t : trans) | PUpdate (src : buf) | PWeights (index : list Z) (ws : list Qc).

Fixpoint p_run (o : opts) (b : pbuf Ob A Inf R) (ops : list pop) : res (pbuf Ob A Inf R) :=
  match ops with
  | [] => Ok b
  | PAdd t :: ops => let* x := pb_add pw r0 radd last_frame o b t in p_run o (fst x) ops
  | PUpdate src :: ops => let* x := pb_update pw b src in p_run o (fst x) ops
  | PWeights index ws :: ops =>
      let* p := update_weight pw eps (pb_prio b) index ws in p_run o (mkPB (pb_buf b) p) ops
  end.

(** The array of weights, the number of rows added so far, the priorities |w| + eps seen so far. *)
Record pst : Type := mkPst { ps_arr : list Qc; ps_cnt : nat; ps_seen : list Qc }.
Definition ps_init (n : nat) : pst := mkPst (repeat 0%Qc n) 0 [].

(** Largest / smallest priority seen, 1 included. *)
Fixpoint highest (l : list Qc) : Qc :=
  match l with [] => 1%Qc | x :: t => if Qcleb x (highest t) then highest t else x end.
Fixpoint lowest (l : list Qc) : Qc :=
  match l with [] => 1%Qc | x :: t => if Qcleb (lowest t) x then lowest t else x end.

(** Write [v] to the [k] ring slots from the one of row number [c] on. *)
Fixpoint ring_fill (n : nat) (arr : list Qc) (c k : nat) (v : Qc) : list Qc :=
  match k with
  | O => arr
  | S k => ring_fill n (upd arr (c mod n) v) (S c) k v
  end.

Definition prio_of (w : Qc) : Qc := ((if Qcltb w 0 then - w else w) + eps)%Qc.

Definition ps_step (n : nat) (s : pst) (op : pop) : pst :=
  match op with
  | PAdd _ => mkPst (ring_fill n (ps_arr s) (ps_cnt s) 1 (pw (highest (ps_seen s)))) (S (ps_cnt s)) (ps_seen s)
  | PUpdate src => let k := size (b_st src) in
      mkPst (ring_fill n (ps_arr s) (ps_cnt s) k (pw (highest (ps_seen s)))) (ps_cnt s + k) (ps_seen s)
  | PWeights index ws =>
      mkPst (write_all (ps_arr s) index (map (fun w => pw (prio_of w)) ws)) (ps_cnt s)
            (ps_seen s ++ map prio_of ws)
  end.

(** Is the call legal in this state: new weights for stored indices, as many as indices; rows moved
    from a non-empty buffer. *)
Definition pop_ok (o : opts) (n : nat) (s : pst) (op : pop) : Prop :=
  match op with
  | PAdd _ => True
  | PUpdate src => exists n2 q2, 0 < n2 /\ reach r0 radd last_frame o n2 src q2 /\ q2 <> []
  | PWeights index ws => index <> [] /\ length ws = length index
      /\ forall i, In i index -> (0 <= i < Z.of_nat (Nat.min (ps_cnt s) n))%Z
  end.
Fixpoint pops_ok (o : opts) (n : nat) (s : pst) (ops : list pop) : Prop :=
  match ops with
  | [] => True
  | op :: ops => pop_ok o n s op /\ pops_ok o n (ps_step n s op) ops
  end.
Definition ps_run (n : nat) (ops : list pop) : pst := fold_left (ps_step n) ops (ps_init n).

(** Calls on a PrioritizedReplayBufferManager (no reset). *)
Inductive pmop : Type :=
| PMAdd (ids : option (list Z)) (ts : list trans) | PMWeights (index : list Z) (ws : list Qc).
Fixpoint pm_run (o : opts) (m : pmgr Ob A Inf R) (ops : list pmop) : res (pmgr Ob A Inf R) :=
  match ops with
  | [] => Ok m
  | PMAdd ids ts :: ops => let* x := pm_add pw r0 radd last_frame o m ids ts in pm_run o (fst x) ops
  | PMWeights index ws :: ops =>
      let* p := update_weight pw eps (pm_prio m) index ws in pm_run o (mkPM (pm_mgr m) p) ops
  end.
Fixpoint adds_of (ops : list pmop) : list (mop Ob A Inf R) :=
  match ops with
  | [] => []
  | PMAdd ids ts :: ops => MAdd ids ts :: adds_of ops
  | PMWeights _ _ :: ops => adds_of ops
  end.
(** Index [i] of the manager holds a stored row. *)
Definition holds_row (o : opts) (ns : list nat) (ops : list (mop Ob A Inf R)) (i : nat) : Prop :=
  exists k, off ns k <= i < off ns k + length (mqueue last_frame o ns ops k).
End PrioSpec.
Arguments pop : clear implicits.
Arguments pmop : clear implicits.

Section PrioSpecM.
Context {Ob A Inf R : Type}.
Variable last_frame : Ob -> Ob.
(** Legal calls on the manager, [past] being the additions made so far. *)
Fixpoint pmops_ok (o : opts) (ns : list nat) (past : list (mop Ob A Inf R)) (ops : list (pmop Ob A Inf R)) : Prop :=
  match ops with
  | [] => True
  | PMAdd ids ts :: ops => mop_ok (length ns) (MAdd ids ts) /\ pmops_ok o ns (past ++ [MAdd ids ts]) ops
  | PMWeights index ws :: ops =>
      (index <> [] /\ length ws = length index
       /\ forall i, In i index -> (0 <= i)%Z /\ holds_row last_frame o ns past (Z.to_nat i))
      /\ pmops_ok o ns past ops
  end.
End PrioSpecM.

(** The law of one draw: the smallest index whose inclusive prefix sum reaches [r * total]. *)
Definition draw_law (arr : list Qc) (r : Qc) (j : nat) : Prop :=
  (r * slice_sum arr 0 (length arr) <= slice_sum arr 0 (S j))%Qc
  /\ forall j', j' < j -> (slice_sum arr 0 (S j') < r * slice_sum arr 0 (length arr))%Qc.

