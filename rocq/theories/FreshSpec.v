(** * What a collector can carry over from the past *)
From Verif Require Export CollectModel.
Open Scope nat_scope.
Section Fresh.
Context {Ob A Inf R H ES PS : Type}.
Notation coll := (coll Ob A Inf R H ES PS).
(** Two collectors with the same environments, policy and buffer, but another past. *)
Definition same_parts (c1 c2 : coll) : Prop := c_envs c1 = c_envs c2 /\ c_mgr c1 = c_mgr c2 /\ c_pol c1 = c_pol c2.
(** The same, with the environments in any states and the buffers of the same capacities with any contents. *)
Definition same_sizes (c1 c2 : coll) : Prop := length (c_envs c1) = length (c_envs c2) /\ m_sizes (c_mgr c1) = m_sizes (c_mgr c2) /\ c_pol c1 = c_pol c2.
(** Equal up to the stored rows. *)
Definition same_but_rows (c1 c2 : coll) : Prop :=
  c_envs c1 = c_envs c2 /\ c_pol c1 = c_pol c2 /\ c_pre c1 = c_pre c2 /\ c_hid c1 = c_hid c2 /\ c_step c1 = c_step c2 /\ c_episode c1 = c_episode c2 /\
  m_bufs (c_mgr c1) = m_bufs (c_mgr c2) /\ m_last (c_mgr c1) = m_last (c_mgr c2) /\ m_lens (c_mgr c1) = m_lens (c_mgr c2).
End Fresh.
