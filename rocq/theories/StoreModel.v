(** * Model of how transitions are written into a buffer's storage

    The buffer keeps one [Batch], [_meta], whose arrays have one row per slot.  Adding writes rows
    into it by item assignment; if that raises ValueError the keys missing from [_meta] are allocated
    and the assignment is repeated ([tianshou/data/buffer/base.py] 471-485,
    [tianshou/data/buffer/manager.py] 171-184).  The row numbers come from the bookkeeping of
    BufferModel/ManagerModel; here they are given.  Booleans are numbers 0 and 1. *)
From Verif Require Export Py Num BatchModel.
From Verif Require Import BufferModel.
From Coq Require Import String.
Import List BatchModel.
Open Scope string_scope.
Open Scope list_scope.
Open Scope nat_scope.

(** [d[k] = x] for a dict. *)
Fixpoint put {X} (k : string) (x : X) (l : list (string * X)) : list (string * X) :=
  match l with
  | [] => [(k, x)]
  | (k', y) :: l => if String.eqb k k' then (k, x) :: l else (k', y) :: put k x l
  end.

(** alloc_by_keys_diff (batch.py:231-248) on the dict of [meta]; the state after an exception is
    not kept. *)
Fixpoint alloc (b : bval) (size : nat) (stack : bool) (m : list (string * bval)) {struct b} : res (list (string * bval)) :=
  match b with
  | Node lb =>
      (fix go lb m := match lb with
        | [] => Ok m
        | (k, x) :: lb =>
            let* m := match assoc k m with
                      | Some (Node lm) =>
                          match x with
                          | Node _ => let* lm := alloc x size stack lm in Ok (put k (Node lm) m)
                          | _ => match lm with
                                 | [] => let* c := create_value x size stack in Ok (put k c m)
                                 | _ => Ok m
                                 end
                          end
                      | Some _ => Ok m
                      | None => let* c := create_value x size stack in Ok (put k c m)
                      end in
            go lb m
        end) lb m
  | _ => Err AttributeError
  end.

(** [batch.key = batch.key.astype(...)] (base.py:475-478, manager.py:175-178): float for the reward,
    bool for the flags.  Objects other than None count as true. *)
Definition as_bool (c : cell) : res cell :=
  Ok (CN (match c with
          | CN q => if Qc_eq_dec q 0%Qc then 0%Qc else 1%Qc
          | CNan => 1%Qc
          | CO None => 0%Qc
          | CO (Some _) => 1%Qc
          end)).
Definition astype (key : string) (k : akind) (f : cell -> res cell) (l : list (string * bval)) : res (list (string * bval)) :=
  match assoc key l with
  | Some (Leaf _ a) => let* a := nmap f a in Ok (put key (Leaf k a) l)
  | _ => Err AttributeError
  end.
Definition cast (b : bval) : res bval :=
  match b with
  | Node l =>
      let* l := astype "rew" KFloat (conv KFloat) l in
      let* l := astype "done" KInt as_bool l in
      let* l := astype "terminated" KInt as_bool l in
      let* l := astype "truncated" KInt as_bool l in
      Ok (Node l)
  | _ => Err AttributeError
  end.

(** base.py:471-485 with [stack] = true: one transition, [ix] = [np.array([i])]; with [stack] = false
    a batch with a leading axis (base.py with buffer_ids, and manager.py:171-184).  The new storage,
    and the exception if one was raised. *)
Definition store_st (size : nat) (stack : bool) (meta : bval) (ix : list Z) (b : bval) : bval * option exn :=
  match bset meta (IArr ix) b with
  | (m, Some ValueError) =>
      match (let* b := cast b in
             let* m := match items m with
                       | [] => create_value b size stack
                       | l => let* l := alloc b size stack l in Ok (Node l)
                       end in
             Ok (m, b)) with
      | Err e => (m, Some e)
      | Ok (m, b) => bset m (IArr ix) b
      end
  | r => r
  end.
Definition store (size : nat) (stack : bool) (meta : bval) (ix : list Z) (b : bval) : res bval :=
  match store_st size stack meta ix b with (m, None) => Ok m | (_, Some e) => Err e end.

(** [add] of one transition (base.py:466-486): the bookkeeping moves on before the row is written. *)
Definition add_st {R} (r0 : R) (radd : R -> R -> R) (s : bst R) (meta : bval) (rew : R) (done : bool) (b : bval) : bst R * bval * option exn :=
  match update_state_pre_add r0 radd s rew done with
  | Err e => (s, meta, Some e)
  | Ok (s', (i, _, _, _)) => let '(m, e) := store_st (maxsize s) true meta [Z.of_nat i] b in (s', m, e)
  end.

(** A history of writes into a fresh buffer. *)
Record wop := mkWop { w_single : bool; w_rows : list nat; w_batch : bval }.
Definition store_all (size : nat) (ops : list wop) : res bval :=
  foldM (fun m o => store size (w_single o) m (map Z.of_nat (w_rows o)) (w_batch o)) ops (Node []).
