(** * Two environments of two collectors; scaled trees (specification only). *)
From Verif Require Export Py Num BufferModel ManagerModel ManagerSpec CollectModel CollectSpec SegTreeModel PrioModel SepSpec.
Open Scope nat_scope.

(** Environment [e] of a collector [c] with history [ops] of the buffer, and environment [e1] of [c1]. *)
Definition same_envs {Ob A Inf R H PS H1 PS1 ES} (ns : list nat) (ops : list (mop Ob A Inf R)) (c : coll Ob A Inf R H ES PS) (e : nat)
    (ns1 : list nat) (ops1 : list (mop Ob A Inf R)) (c1 : coll Ob A Inf R H1 ES PS1) (e1 n : nat) : Prop :=
  nth_error ns e = Some n /\ nth_error ns1 e1 = Some n /\ e < length (c_envs c) /\ e1 < length (c_envs c1)
  /\ proj (length ns) e ops = proj (length ns1) e1 ops1
  /\ nth_error (c_envs c) e = nth_error (c_envs c1) e1 /\ pre_obs c e = pre_obs c1 e1.

Definition scale_tree (k : Qc) (s : segtree) : segtree := mkST (st_size s) (st_bound s) (map (fun x => k * x)%Qc (st_value s)).
(** The weights in another unit: the tree holds powers, [k'] times as large if the weights are [k] times as large. *)
Definition scale_prio (k k' : Qc) (p : prio) : prio := mkPrio (scale_tree k' (p_tree p)) (k * p_max p)%Qc (k * p_min p)%Qc.
