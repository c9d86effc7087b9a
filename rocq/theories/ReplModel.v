(** * Model of the policies a MultiAgentPolicyManager holds ([tianshou/policy/multiagent/mapolicy.py]) *)
From Verif Require Export Py MaModel.
Open Scope nat_scope.

(** A policy object is a number; [pm_id] gives the [agent_id] attribute of every object (objects
    are mutable and may be shared).  [pm_dict] is [self.policies], in insertion order. *)
Record pm := mkPm { pm_dict : list (nat * nat); pm_id : nat -> nat }.
(** BasePolicy.set_agent_id (policy/base.py:258-260) *)
Definition set_agent_id (p a : nat) (id : nat -> nat) : nat -> nat := fun q => if q =? p then a else id q.
(** [d[k] = v] of a dict: the value of a key that is present is replaced in place, a new key is appended. *)
Fixpoint dict_set (d : list (nat * nat)) (k v : nat) : list (nat * nat) :=
  match d with
  | [] => [(k, v)]
  | (k', v') :: d => if k' =? k then (k', v) :: d else (k', v') :: dict_set d k v
  end.
Fixpoint dict_get (d : list (nat * nat)) (k : nat) : option nat :=
  match d with
  | [] => None
  | (k', v) :: d => if k' =? k then Some v else dict_get d k
  end.
(** __init__ (mapolicy.py:84-111), the assertion and what follows it; [agents] is env.agents. *)
Definition pm_init (agents policies : list nat) (id : nat -> nat) : res pm :=
  guard (length policies =? length agents) AssertionError (
  let id := fold_left (fun id ap => set_agent_id (snd ap) (fst ap) id) (combine agents policies) id in
  Ok (mkPm (fold_left (fun d ap => dict_set d (fst ap) (snd ap)) (combine agents policies) []) id)).
(** replace_policy (mapolicy.py:114-117) *)
Definition pm_replace (m : pm) (policy agent : nat) : pm :=
  mkPm (dict_set (pm_dict m) agent policy) (set_agent_id policy agent (pm_id m)).
Definition pm_agents (m : pm) : list nat := map fst (pm_dict m).

(** The loops over [self.policies.items()] of forward, exploration_noise, process_fn and learn
    (mapolicy.py:144-158, 175-179, 214-256, 273-277) with the behaviour of every policy object. *)
Section Loops.
Context {Row Act St R X Stats : Type}.
Variable fw : nat -> option (option St) -> list Row -> res (list Act * option St).
Variable nz : nat -> list Act -> list Row -> res (list Act).
Variable pfn : nat -> list Row -> list R -> list nat -> list R -> res X.
Variable ln : nat -> X -> res Stats.
Definition at_key {T} (m : pm) (f : nat -> res T) (a : nat) : res T :=
  match dict_get (pm_dict m) a with Some p => f p | None => Err KeyError end.
Definition pm_forward (m : pm) ids rows state :=
  forward (fun a st rs => at_key m (fun p => fw p st rs) a) (pm_agents m) ids rows state.
Definition pm_noise (m : pm) ids rows act :=
  exploration (fun a x rs => at_key m (fun p => nz p x rs) a) (pm_agents m) ids rows act.
Definition pm_process (agent_idx : nat -> nat) (m : pm) ids rows rews indice save :=
  process agent_idx (fun a rs tr ti br => at_key m (fun p => pfn p rs tr ti br) a) (pm_agents m) ids rows rews indice save.
Definition pm_learn (m : pm) (results : list (nat * option X)) :=
  ma_learn (fun a x => at_key m (fun p => ln p x) a) results.
End Loops.
