(** * Copies: which calls are copies, and the same transition with another flag *)
From Verif Require Export SnapModel ManagerSpec TatSpec.
Open Scope nat_scope.
Section SnapSpec.
Context {Ob A Inf R : Type}.
Definition no_copy (op : vop Ob A Inf R) : bool := match op with VCopy => false | _ => true end.
Definition no_copies (ops : list (vop Ob A Inf R)) : list (vop Ob A Inf R) := filter no_copy ops.
Definition with_end (d : bool) (t : trans Ob A Inf R) : trans Ob A Inf R :=
  mkTrans (t_obs t) (t_act t) (t_rew t) d false (t_obs_next t) (t_info t).
(** The calls other than copies, as calls of a buffer manager. *)
Definition calls (ops : list (vop Ob A Inf R)) : list (mop Ob A Inf R) :=
  flat_map (fun op => match op with VAdd ids ts => [MAdd ids ts] | VReset keep => [MReset keep] | VCopy => [] end) ops.
(** Everything that the calls of a buffer manager can show of its own state. *)
Definition shown (r : res (vbuf Ob A Inf R * list (list (nat * R * nat * nat)))) : res (mgr Ob A Inf R * list (list (nat * R * nat * nat))) :=
  rmap (fun x => (v_m (fst x), snd x)) r.
Definition storage (m : mgr Ob A Inf R) : list (option (slot Ob A Inf R)) := meta_rows (m_total m) (m_meta m).
(** Caches are addressed by numbers from 0 (a negative one can mean the main buffer). *)
Definition caches_only (ops : list (option (list Z) * list (trans Ob A Inf R))) : Prop :=
  forall ids ts, In (Some ids, ts) ops -> forall i, In i ids -> (0 <= i)%Z.
End SnapSpec.
