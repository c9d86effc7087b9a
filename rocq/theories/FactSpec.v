(** * Statements about the factories, independent of the model's functions *)
From Verif Require Import Py FactModel.
Open Scope nat_scope.

(** A dense network: a linear layer and an activation for every hidden size. *)
Fixpoint dense {Md} (k : lkind) (i : nat) (hidden : list nat) (a : Md) : list (layer Md unit lkind) :=
  match hidden with [] => [] | o :: h => Linear k i o :: Act a None :: dense k o h a end.
(** Factories that make a [BaseActor]. *)
Fixpoint makes_base {Md} (f : @afact Md) : Prop := match f with FOther _ => False | FStore f _ => makes_base f | _ => True end.
Definition no_store {Md} (f : @afact Md) : Prop := match f with FStore _ _ => False | _ => True end.
(** The arguments with which the learners evaluate their critics: A2C, PPO, NPG, TRPO and discrete SAC with the observation, the others with
    observation and action. *)
Definition call_with (k : akind) (e : envs) : option nat :=
  match k with
  | PG | ActorCriticK => None
  | Dual => match e_type e with ECont => Some (prod (sdims (e_act e))) | EDisc => None end
  | _ => Some (prod (sdims (e_act e))) end.
(** What one call of a builder's method sets, if anything, for critic [i] of [n] critics, respectively for the actor. *)
Definition sets_critic {Md} (fut n i : nat) (o : @bop Md) : option (@cfact Md) :=
  match o with
  | WCritic j f => if (j =? i) && (j <? n) then Some f else None
  | WCriticDefault j h a => if (j =? i) && (j <? n) then Some (CDefault h a) else None
  | WCriticUseActor j => if (j =? i) && (j <? n) then Some (CReuse fut) else None
  | WCommon f => if i <? n then Some f else None
  | WCommonDefault h a => if i <? n then Some (CDefault h a) else None
  | WCommonUseActor => if i <? n then Some (CReuse fut) else None
  | _ => None end.
Definition sets_actor {Md} (t : catype) (o : @bop Md) : option (@afact Md) :=
  match o with WActor f => Some f | WActorDefault h a u c => Some (FDefault t h a u c true) | _ => None end.
(** The last of them. *)
Fixpoint latest {O A} (sets : O -> option A) (ops : list O) : option A :=
  match ops with
  | [] => None
  | o :: ops => match latest sets ops with Some a => Some a | None => sets o end end.
(** The network that a critic applies first. *)
Definition pre_c {Md} (c : @cmod Md) : @part Md := match c with CCont p _ _ | CDisc p _ => p end.
(** A builder of which the user has been given no future: critics reuse, if any actor, that of the builder. *)
Definition own_future {Md} (relu : Md) (b : @bld Md) : Prop := forall i fut, get_critic_factory relu b i = CReuse fut -> fut = b_fut b.
(** The user's actor factory makes a [BaseActor] and is no decorator. *)
Definition proper_actor {Md} (b : @bld Md) : Prop := match b_actor b with Some f => makes_base f /\ no_store f | None => True end.
(** Everything in memory has an identity that has been given out. *)
Definition known {Md} (s : @st Md) : Prop := forall j a, get_fut s j = Some a -> t_id (pre_of a) < s_next s.
(** How the linear layers of a part were initialised. *)
Definition inits {Md} (p : @part Md) : list ini := map snd (t_ini p).
Definition all_inits {Md} (i : ini) (l : list (@part Md)) : Prop := forall p, In p l -> forall j, In j (inits p) -> j = i.
(** All parts of a policy's modules. *)
Definition all_ids {Md : Type} (p : @pol Md) : list nat := ids (parts_a (l_actor p)) ++ concat (map (fun c => ids (parts_c c)) (l_critics p)).
