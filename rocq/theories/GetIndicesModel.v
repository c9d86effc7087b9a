(** * Model of [ReplayBuffer.get_buffer_indices], tianshou/data/buffer/base.py:115-218.

    [edges] is [subbuffer_edges]: [[0, maxsize]] for a ReplayBuffer (base.py:106-113), the
    extended offsets for a manager (manager.py:55-58). *)
From Verif Require Export Py.
Open Scope Z_scope.

(** [np.searchsorted(edges, x, side="right")] on a sorted array: number of entries <= x. *)
Definition searchsorted_right (edges : list Z) (x : Z) : Z :=
  Z.of_nat (length (filter (fun e => e <=? x) edges)).
(** [side="left"]: number of entries < x. *)
Definition searchsorted_left (edges : list Z) (x : Z) : Z :=
  Z.of_nat (length (filter (fun e => e <? x) edges)).

(** [np.arange(a, b)] on integers. *)
Definition zrange (a b : Z) : list Z :=
  map (fun k => a + Z.of_nat k) (seq 0 (Z.to_nat (b - a))).

(** base.py:115-161 [_get_start_stop_tuples_for_edge_crossing_interval]. *)
Definition crossing (edges : list Z) (start stop : Z) : res ((Z * Z) * (Z * Z)) :=
  if start <=? stop then Err ValueError
  else
    let i := searchsorted_left edges start in
    if i =? 0 then Err ValueError
    else
      let* after := zget edges i in
      let* before := zget edges (i - 1) in
      if stop <=? before then Err ValueError
      else Ok ((start, after), (before, stop)).

(** base.py:163-218 [get_buffer_indices]. *)
Definition get_buffer_indices (edges : list Z) (start stop : Z) : res (list Z) :=
  let sl := searchsorted_right edges start - 1 in
  let el := searchsorted_right edges (stop - 1) - 1 in
  if negb (sl =? el) then Err ValueError
  else if start <? stop then Ok (zrange start stop)
  else
    let* c := crossing edges start stop in
    let '((start, upper), (lower, stop)) := c in
    Ok (zrange start upper ++ zrange lower stop).
