(** * Model of the vector environments ([tianshou/env/venvs.py], [tianshou/env/worker/*.py]) *)
From Verif Require Export Py.
Open Scope nat_scope.

(** Commands an environment receives. *)
Inductive cmd (Act : Type) : Type := CReset | CStep (a : Act) | CSeed (s : option Z) | CRender.
Arguments CReset {Act}. Arguments CStep {Act}. Arguments CSeed {Act}. Arguments CRender {Act}.

Section Venv.
Context {E Act R : Type}.
(** The environment: any deterministic state machine ([R] covers step results, reset results,
    seeds and rendered frames).  Environments that raise are not modelled. *)
Variable estep : E -> cmd Act -> E * R.
(** [dummy = true]: DummyEnvWorker (worker/dummy.py); [false]: SubprocEnvWorker
    (worker/subproc.py), a process behind a pair of FIFO pipes. *)
Variable dummy : bool.

(** [w_q]: results computed or being computed and not yet received; for the dummy worker the
    attribute [result].  [w_hist] records the commands the environment received (used by
    statements only); [w_closes] counts close_env calls. *)
Record worker := mkW { w_env : E; w_q : list R; w_hist : list (cmd Act); w_closed : bool; w_closes : nat }.
(** send: dummy.py:40-44, subproc.py:213-219. *)
Definition wsend (w : worker) (c : cmd Act) : worker :=
  let '(e, r) := estep (w_env w) c in
  mkW e (if dummy then [r] else w_q w ++ [r]) (w_hist w ++ [c]) (w_closed w) (w_closes w).
(** recv: base.py:41-49 (the attribute stays), subproc.py:221-237 (blocks for ever on an empty
    pipe). *)
Definition wrecv (w : worker) : worker * res R :=
  match w_q w with
  | [] => (w, Err (if dummy then AttributeError else OutOfFuel))
  | r :: q => (if dummy then w else mkW (w_env w) q (w_hist w) (w_closed w) (w_closes w), Ok r)
  end.
(** seed and render: dummy.py:46-55 call the environment directly, subproc.py:255-262 send a
    command and receive. *)
Definition wcall (w : worker) (c : cmd Act) : worker * res R :=
  if dummy then
    let '(e, r) := estep (w_env w) c in
    (mkW e (w_q w) (w_hist w ++ [c]) (w_closed w) (w_closes w), Ok r)
  else wrecv (wsend w c).
(** close: base.py:82-86. *)
Definition wclose (w : worker) : worker :=
  if w_closed w then w else mkW (w_env w) (w_q w) (w_hist w) true (S (w_closes w)).

(** A worker object is identified by its position. *)
Record venv := mkV {
  workers : list worker; wait_num : nat; timed : bool; is_async : bool;
  waiting_conn : list nat; waiting_id : list Z; ready_id : list Z; is_closed : bool }.
Definition set_workers v ws := mkV ws (wait_num v) (timed v) (is_async v) (waiting_conn v) (waiting_id v) (ready_id v) (is_closed v).
Definition set_waiting v wc wi := mkV (workers v) (wait_num v) (timed v) (is_async v) wc wi (ready_id v) (is_closed v).
Definition set_ready v rd := mkV (workers v) (wait_num v) (timed v) (is_async v) (waiting_conn v) (waiting_id v) rd (is_closed v).
Definition env_num v := length (workers v).

(** __init__ (venvs.py:77-110).  No workers: [self.workers[0]] raises.  [timeout]: None, or whether
    the given number is positive. *)
Definition init (envs : list E) (wn : option nat) (timeout : option bool) : res venv :=
  let n := length envs in
  if n =? 0 then Err IndexError
  else
    let wn := match wn with None => n | Some w => if w =? 0 then n else w end in
    if negb ((1 <=? wn) && (wn <=? n)) then Err AssertionError
    else
      match timeout with Some false => Err AssertionError | _ =>
        let timed := match timeout with Some _ => true | None => false end in
        Ok (mkV (map (fun e => mkW e [] [] false 0) envs) wn timed (negb (wn =? n) || timed) [] [] (map Z.of_nat (seq 0 n)) false)
      end.

(** [workers[i]]: send / recv at a Python index. *)
Definition send_at (v : venv) (i : Z) (c : cmd Act) : venv * res unit :=
  match norm_index (env_num v) i with
  | Err e => (v, Err e)
  | Ok k => match nth_error (workers v) k with
            | None => (v, Err IndexError)
            | Some w => (set_workers v (upd (workers v) k (wsend w c)), Ok tt)
            end
  end.
Definition recv_conn (v : venv) (k : nat) : venv * res R :=
  match nth_error (workers v) k with
  | None => (v, Err IndexError)
  | Some w => let '(w', r) := wrecv w in (set_workers v (upd (workers v) k w'), r)
  end.
Definition recv_at (v : venv) (i : Z) : venv * res R :=
  match norm_index (env_num v) i with
  | Err e => (v, Err e)
  | Ok k => recv_conn v k
  end.
Fixpoint send_all (v : venv) (l : list (Z * cmd Act)) : venv * res unit :=
  match l with
  | [] => (v, Ok tt)
  | (i, c) :: l => match send_at v i c with
                   | (v, Err e) => (v, Err e)
                   | (v, Ok _) => send_all v l
                   end
  end.
(** Every result comes with the id that asked for it (info["env_id"] in step). *)
Fixpoint recv_all (v : venv) (ids : list Z) : venv * res (list (Z * R)) :=
  match ids with
  | [] => (v, Ok [])
  | i :: ids => match recv_at v i with
                | (v, Err e) => (v, Err e)
                | (v, Ok r) => match recv_all v ids with
                               | (v, Err e) => (v, Err e)
                               | (v, Ok l) => (v, Ok ((i, r) :: l))
                               end
                end
  end.

(** _wrap_id (178-184; an int is passed as a one-element list), _assert_id (186-191). *)
Definition wrap_id (v : venv) (ids : option (list Z)) : list Z :=
  match ids with None => map Z.of_nat (seq 0 (env_num v)) | Some l => l end.
Definition assert_id (v : venv) (ids : list Z) : bool :=
  forallb (fun i => negb (existsb (Z.eqb i) (waiting_id v)) && existsb (Z.eqb i) (ready_id v)) ids.

(** reset (195-234).  Observations of differing shapes etc. are not modelled; [ret_list[0]] on an
    empty list raises. *)
Definition v_reset (v : venv) (ids : option (list Z)) : venv * res (list (Z * R)) :=
  if is_closed v then (v, Err AssertionError)
  else
    let ids := wrap_id v ids in
    if is_async v && negb (assert_id v ids) then (v, Err AssertionError)
    else
      match send_all v (map (fun i => (i, CReset)) ids) with
      | (v, Err e) => (v, Err e)
      | (v, Ok _) => match ids with [] => (v, Err IndexError) | _ => recv_all v ids end
      end.

(** step, synchronous part (268-281); unpacking an empty result raises ValueError (302). *)
Definition step_sync (v : venv) (acts : option (list Act)) (ids : list Z) : venv * res (list (Z * R)) :=
  match acts with
  | None => (v, Err ValueError)
  | Some acts =>
      if negb (length acts =? length ids) then (v, Err AssertionError)
      else match send_all v (combine ids (map CStep acts)) with
           | (v, Err e) => (v, Err e)
           | (v, Ok _) => match ids with [] => (v, Err ValueError) | _ => recv_all v ids end
           end
  end.

(** step, asynchronous part (282-301). *)
Fixpoint send_async (v : venv) (l : list (Z * cmd Act)) : venv * res unit :=
  match l with
  | [] => (v, Ok tt)
  | (i, c) :: l =>
      match send_at v i c with
      | (v, Err e) => (v, Err e)
      | (v, Ok _) =>
          match norm_index (env_num v) i with
          | Err e => (v, Err e)
          | Ok k => send_async (set_waiting v (waiting_conn v ++ [k]) (waiting_id v ++ [i])) l
          end
      end
  end.
Definition memn (k : nat) (l : list nat) : bool := existsb (Nat.eqb k) l.
(** SubprocEnvWorker.wait (subproc.py:194-211).  The oracle lists what successive
    connection.wait calls report ([Some r]: the connections that became ready, in this order) or
    that the time is up ([None], only with a timeout).  [None] as the result: the oracle ended
    while the loop was still waiting. *)
Fixpoint wait_loop (wn : nat) (tm : bool) (rounds : list (option (list nat))) (remain ready : list nat) : option (list nat * list (option (list nat))) :=
  if (length remain =? 0) || (wn <=? length ready) then Some (ready, rounds)
  else match rounds with
       | [] => None
       | None :: rs => if tm then Some (ready, rs) else wait_loop wn tm rs remain ready
       | Some r :: rs =>
           let new := filter (fun k => memn k remain) (nodup Nat.eq_dec r) in
           let ready := ready ++ new in
           wait_loop wn tm rs (filter (fun k => negb (memn k ready)) remain) ready
       end.
(** [while not ready_conns: ready_conns = wait(...)] (291-292). *)
Fixpoint wait_until (fuel : nat) (wn : nat) (tm : bool) (rounds : list (option (list nat))) (conns : list nat) : option (list nat) :=
  match fuel with
  | O => None
  | S fuel =>
      match wait_loop wn tm rounds conns [] with
      | None => None
      | Some ([], rs) => wait_until fuel wn tm rs conns
      | Some (ready, _) => Some ready
      end
  end.
Fixpoint index_of (k : nat) (l : list nat) : option nat :=
  match l with
  | [] => None
  | x :: l => if x =? k then Some 0 else option_map S (index_of k l)
  end.
Fixpoint pop {X} (n : nat) (l : list X) : list X :=
  match n, l with
  | _, [] => []
  | O, _ :: l => l
  | S n, x :: l => x :: pop n l
  end.
(** The loop body (294-301) for one connection. *)
Definition collect_one (v : venv) (conn : nat) : venv * res (Z * R) :=
  match index_of conn (waiting_conn v) with
  | None => (v, Err ValueError)
  | Some wi =>
      match nth_error (waiting_id v) wi with
      | None => (set_waiting v (pop wi (waiting_conn v)) (waiting_id v), Err IndexError)
      | Some id =>
          let v := set_waiting v (pop wi (waiting_conn v)) (pop wi (waiting_id v)) in
          match recv_conn v conn with
          | (v, Err e) => (v, Err e)
          | (v, Ok r) => (set_ready v (ready_id v ++ [id]), Ok (id, r))
          end
      end
  end.
Fixpoint collect (v : venv) (conns : list nat) : venv * res (list (Z * R)) :=
  match conns with
  | [] => (v, Ok [])
  | c :: conns => match collect_one v c with
                  | (v, Err e) => (v, Err e)
                  | (v, Ok x) => match collect v conns with
                                 | (v, Err e) => (v, Err e)
                                 | (v, Ok l) => (v, Ok (x :: l))
                                 end
                  end
  end.
(** DummyEnvWorker.wait returns the list it is given, that is [self.waiting_conn] itself
    (dummy.py:31-38), so the loop iterates over the list from which it pops. *)
Fixpoint collect_alias (fuel : nat) (pos : nat) (v : venv) : venv * res (list (Z * R)) :=
  match fuel with
  | O => (v, Err OutOfFuel)
  | S fuel =>
      match nth_error (waiting_conn v) pos with
      | None => (v, Ok [])
      | Some c => match collect_one v c with
                  | (v, Err e) => (v, Err e)
                  | (v, Ok x) => match collect_alias fuel (S pos) v with
                                 | (v, Err e) => (v, Err e)
                                 | (v, Ok l) => (v, Ok (x :: l))
                                 end
                  end
      end
  end.
Definition fetch (v : venv) (rounds : list (option (list nat))) : venv * res (list (Z * R)) :=
  if dummy then
    match waiting_conn v with
    | [] => (v, Err OutOfFuel)
    | _ => collect_alias (S (length (waiting_conn v))) 0 v
    end
  else
    match wait_until (S (length rounds)) (wait_num v) (timed v) rounds (waiting_conn v) with
    | None => (v, Err OutOfFuel)
    | Some ready => collect v ready
    end.
Definition step_async (v : venv) (acts : option (list Act)) (ids : list Z) (rounds : list (option (list nat))) : venv * res (list (Z * R)) :=
  match acts with
  | None => fetch v rounds
  | Some acts =>
      if negb (assert_id v ids) then (v, Err AssertionError)
      else if negb (length acts =? length ids) then (v, Err AssertionError)
      else match send_async v (combine ids (map CStep acts)) with
           | (v, Err e) => (v, Err e)
           | (v, Ok _) =>
               fetch (set_ready v (filter (fun x => negb (existsb (Z.eqb x) ids)) (ready_id v))) rounds
           end
  end.
Definition v_step (v : venv) (acts : option (list Act)) (ids : option (list Z)) (rounds : list (option (list nat))) : venv * res (list (Z * R)) :=
  if is_closed v then (v, Err AssertionError)
  else
    let ids := wrap_id v ids in
    if is_async v then step_async v acts ids rounds else step_sync v acts ids.

(** seed (324-342): [zip(..., strict=True)] raises after the common prefix. *)
Inductive seeds := SNone | SInt (k : Z) | SList (l : list Z).
Definition seed_list (n : nat) (s : seeds) : list (option Z) :=
  match s with
  | SNone => map (fun _ => None) (seq 0 n)
  | SInt k => map (fun i => Some (k + Z.of_nat i)%Z) (seq 0 n)
  | SList l => map Some l
  end.
Fixpoint call_all (v : venv) (pos : nat) (n : nat) (cs : list (cmd Act)) : venv * res (list (Z * R)) :=
  match n, cs with
  | O, [] => (v, Ok [])
  | S n, c :: cs =>
      match nth_error (workers v) pos with
      | None => (v, Err IndexError)
      | Some w =>
          let '(w', r) := wcall w c in
          let v := set_workers v (upd (workers v) pos w') in
          match r with
          | Err e => (v, Err e)
          | Ok r => match call_all v (S pos) n cs with
                    | (v, Err e) => (v, Err e)
                    | (v, Ok l) => (v, Ok ((Z.of_nat pos, r) :: l))
                    end
          end
      end
  | _, _ => (v, Err ValueError)
  end.
Definition v_seed (v : venv) (s : seeds) : venv * res (list (Z * R)) :=
  if is_closed v then (v, Err AssertionError)
  else call_all v 0 (env_num v) (map CSeed (seed_list (env_num v) s)).
(** render (344-351). *)
Definition v_render (v : venv) : venv * res (list (Z * R)) :=
  if is_closed v then (v, Err AssertionError)
  else if is_async v && negb (length (waiting_id v) =? 0) then (v, Err RuntimeError)
  else call_all v 0 (env_num v) (map (fun _ => CRender) (seq 0 (env_num v))).
(** close (353-362). *)
Definition v_close (v : venv) : venv * res (list (Z * R)) :=
  if is_closed v then (v, Err AssertionError)
  else (mkV (map wclose (workers v)) (wait_num v) (timed v) (is_async v) (waiting_conn v) (waiting_id v) (ready_id v) true, Ok []).

Inductive op :=
| OStep (acts : option (list Act)) (ids : option (list Z)) (rounds : list (option (list nat)))
| OReset (ids : option (list Z))
| OSeed (s : seeds)
| ORender
| OClose.
Definition run_op (v : venv) (o : op) : venv * res (list (Z * R)) :=
  match o with
  | OStep acts ids rounds => v_step v acts ids rounds
  | OReset ids => v_reset v ids
  | OSeed s => v_seed v s
  | ORender => v_render v
  | OClose => v_close v
  end.
End Venv.
