(** * Model of an asynchronous step of RayVectorEnv ([tianshou/env/venvs.py], [tianshou/env/worker/ray.py]) *)
From Verif Require Export Py RayModel.
Open Scope nat_scope.

(** Worker [i] belongs to environment [i].  [a_handle i] is the handle it holds ([worker.result]),
    [a_next] the next handle ray gives out; handles are never given out twice.
    (venvs.py:101-108, ray.py:57-62) *)
Record av := mkAv { a_conn : list nat; a_wait : list nat; a_ready : list nat; a_handle : nat -> nat; a_next : nat }.
(** venvs.py:101-109: at first nothing is waiting and all are ready. *)
Definition av_init (n : nat) : av := mkAv [] [] (seq 0 n) (fun _ => 0) 0.

Definition mem (x : nat) (l : list nat) : bool := existsb (Nat.eqb x) l.
(** BaseVectorEnv._assert_id (venvs.py:186-191) *)
Definition ids_ok (v : av) (ids : list nat) : bool := forallb (fun i => negb (mem i (a_wait v)) && mem i (a_ready v)) ids.
(** RayEnvWorker.send (ray.py:57-62) and the bookkeeping around it (venvs.py:292-295) *)
Definition send_one (v : av) (i : nat) : av :=
  mkAv (a_conn v ++ [i]) (a_wait v ++ [i]) (a_ready v) (fun j => if j =? i then a_next v else a_handle v j) (S (a_next v)).
(** venvs.py:292-296 *)
Definition send_all (v : av) (ids : list nat) : av :=
  let v := fold_left send_one ids v in
  mkAv (a_conn v) (a_wait v) (filter (fun x => negb (mem x ids)) (a_ready v)) (a_handle v) (a_next v).

(** The loop around wait (venvs.py:297-299).  [rounds] are the moments at which ray.wait could return,
    each with the handles that have a value by then.  Without a timeout ray.wait blocks until [num]
    handles have one; with a timeout it returns what there is.  [OutOfFuel] stands for a loop that
    has not ended after the last of these moments. *)
Fixpoint wait_loop (timed : bool) (handle : nat -> nat) (conn : list nat) (num : nat) (rounds : list (nat -> bool)) : res (list nat) :=
  match rounds with
  | [] => Err OutOfFuel
  | ready :: rounds =>
      let* got := wait_workers handle ready conn num in
      if negb timed && (length got <? num) then wait_loop timed handle conn num rounds
      else match got with [] => wait_loop timed handle conn num rounds | _ => Ok got end
  end.

(** list.pop at a position that exists *)
Fixpoint pop_at (k : nat) (l : list nat) : list nat :=
  match l with [] => [] | x :: l => match k with O => l | S k => x :: pop_at k l end end.
(** One turn of the loop over ready_conns (venvs.py:301-310); recv is reduced to the handle it
    asks ray for (ray.py:64-65). *)
Definition recv_one (s : av * list (nat * nat)) (conn : nat) : res (av * list (nat * nat)) :=
  let '(v, out) := s in
  match index_of conn (a_conn v) with
  | None => Err ValueError
  | Some k =>
      match nth_error (a_wait v) k with
      | None => Err IndexError
      | Some i => Ok (mkAv (pop_at k (a_conn v)) (pop_at k (a_wait v)) (a_ready v ++ [i]) (a_handle v) (a_next v), out ++ [(i, a_handle v conn)])
      end
  end.
(** The asynchronous branch of BaseVectorEnv.step (venvs.py:288-310): [None] is [action=None], [Some ids]
    a step with one action for each of [ids].  The state is returned beside the result, since it stays
    changed when an exception is raised.  Stacking of the results (venvs.py:311-322) is not modelled. *)
Definition a_step (timed : bool) (num : nat) (v : av) (sent : option (list nat)) (rounds : list (nat -> bool)) : res (list (nat * nat)) * av :=
  match sent with
  | Some ids => if ids_ok v ids then
      let v := send_all v ids in
      match wait_loop timed (a_handle v) (a_conn v) num rounds with
      | Err e => (Err e, v)
      | Ok got => match foldM recv_one got (v, []) with Ok (v, out) => (Ok out, v) | Err e => (Err e, v) end
      end
      else (Err AssertionError, v)
  | None =>
      match wait_loop timed (a_handle v) (a_conn v) num rounds with
      | Err e => (Err e, v)
      | Ok got => match foldM recv_one got (v, []) with Ok (v, out) => (Ok out, v) | Err e => (Err e, v) end
      end
  end.
