(** * Model of reset of an asynchronous RayVectorEnv ([tianshou/env/venvs.py], [tianshou/env/worker/ray.py]) *)
From Verif Require Export Py ArayModel.
Open Scope nat_scope.

(** RayEnvWorker.send(None) (ray.py:57-60): a new handle; the lists of the vector environment stay as they are. *)
Definition reset_one (v : av) (i : nat) : av :=
  mkAv (a_conn v) (a_wait v) (a_ready v) (fun j => if j =? i then a_next v else a_handle v j) (S (a_next v)).
(** BaseVectorEnv.reset in asynchronous mode (venvs.py:206-214), with recv reduced to the handle it asks for.  The checks
    and the stacking of the results (venvs.py:216-235) are not modelled; [ids] is not empty there. *)
Definition a_reset (v : av) (ids : list nat) : res (list (nat * nat)) * av :=
  if ids_ok v ids then
    let v := fold_left reset_one ids v in (Ok (map (fun i => (i, a_handle v i)) ids), v)
  else (Err AssertionError, v).
