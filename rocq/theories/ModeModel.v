(** * Model of the modes of networks in policies ([train]/[eval], target networks), of what the policies' [state_dict] holds, of
      [soft_update] against [load_state_dict], and of the noise of [RainbowPolicy]

    A network's mode is one flag: networks are switched as a whole. *)
From Verif Require Export Py Num.
Open Scope nat_scope.

(** ** Networks of the policies *)
Inductive nname := Model | ModelOld | Fraction | Imitator | Actor | ActorOld | Critic | CriticOld | Critic2 | Critic2Old
  | Perturb | PerturbTarget | CriticTarget | Critic2Target | Vae | Disc.
Definition nname_eq (a b : nname) : {a = b} + {a <> b}. Proof. decide equality. Defined.
(** Classes of policies with the same networks and the same [train]; [target]: target_update_freq > 0.
    [KDqn]: DQN, C51, QRDQN, IQN, BranchingDQN, DiscreteCQL; [KRainbow]: Rainbow, [noisy]: some layer is a NoisyLinear; [KTwin]: TD3, TD3BC, SAC,
    DiscreteSAC, CQL; [KDdpg]: DDPG, REDQ (whose critic is one ensemble); [KAct]: PG, Imitation; [KAc]: A2C, PPO, NPG, TRPO. *)
Inductive kind := KDqn (target : bool) | KRainbow (target noisy : bool) | KFqf (target : bool) | KDbcq | KDdpg | KTwin | KBcq | KAct | KAc | KGail | KCrr (target : bool).
(** The networks given to the constructor. *)
Definition given (k : kind) : list nname :=
  match k with
  | KDqn _ | KRainbow _ _ => [Model]
  | KFqf _ => [Model; Fraction]
  | KDbcq => [Model; Imitator]
  | KDdpg => [Actor; Critic]
  | KTwin => [Actor; Critic; Critic2]
  | KBcq => [Perturb; Critic; Critic2; Vae]
  | KAct => [Actor]
  | KAc => [Actor; Critic]
  | KGail => [Actor; Critic; Disc]
  | KCrr _ => [Actor; Critic] end.
(** Copies made by the constructor, with whether [eval()] is called on them: dqn.py:97-99, ddpg.py:101-105, td3.py:106-107, sac.py:133-134,
    bcq.py:94-105 (never), discrete_crr.py:90-94. Without targets discrete_crr.py:96-97 names the networks themselves. *)
Definition copies (k : kind) : list (nname * nname * bool) :=
  match k with
  | KDqn t | KRainbow t _ | KFqf t => if t then [(ModelOld, Model, true)] else []
  | KDbcq => [(ModelOld, Model, true)]
  | KDdpg => [(ActorOld, Actor, true); (CriticOld, Critic, true)]
  | KTwin => [(ActorOld, Actor, true); (CriticOld, Critic, true); (Critic2Old, Critic2, true)]
  | KBcq => [(PerturbTarget, Perturb, false); (CriticTarget, Critic, false); (Critic2Target, Critic2, false)]
  | KCrr t => if t then [(ActorOld, Actor, true); (CriticOld, Critic, true)] else []
  | KAct | KAc | KGail => [] end.
(** The networks [train] switches: dqn.py:111-115, discrete_bcq.py:114-118, ddpg.py:124-129, td3.py:116-121, sac.py:174-179, cql.py:159-165,
    bcq.py:117-123; [None]: [nn.Module.train], all of them. *)
Definition switched (k : kind) : option (list nname) :=
  match k with
  | KDqn _ | KRainbow _ _ | KFqf _ => Some [Model]
  | KDbcq => Some [Model; Imitator]
  | KDdpg => Some [Actor; Critic]
  | KTwin => Some [Actor; Critic; Critic2]
  | KBcq => Some [Perturb; Critic; Critic2]
  | KAct | KAc | KGail | KCrr _ => None end.
Notation modes := (list (nname * bool)).
Definition mode_of (n : nname) (l : modes) : option bool := match find (fun q => if nname_eq (fst q) n then true else false) l with Some q => Some (snd q) | None => None end.
Definition set_modes (which : nname -> bool) (b : bool) (l : modes) : modes := map (fun q => (fst q, if which (fst q) then b else snd q)) l.
Definition mem (l : list nname) (n : nname) : bool := if in_dec nname_eq n l then true else false.

(** ** Policies *)
(** [Icm]: ICMPolicy around a policy, with the mode of its own model; [Mgr]: MultiAgentPolicyManager. [self]: the policy's own flag [training]. *)
Inductive pol := Base (k : kind) (self : bool) (l : modes) | Icm (self : bool) (p : pol) (model : bool) | Mgr (self : bool) (ps : list pol).
(** The constructors; [m]: the modes of the networks given. nn.Module starts in training mode. *)
Definition make (k : kind) (m : nname -> bool) : pol :=
  Base k true (map (fun n => (n, m n)) (given k) ++ map (fun c : nname * nname * bool => (fst (fst c), if snd c then false else m (snd (fst c)))) (copies k)).
Definition self_of (p : pol) : bool := match p with Base _ s _ | Icm s _ _ | Mgr s _ => s end.
(** icm.py:86-91; mapolicy.py:282-286 does not set the manager's own flag. [eval()] is [train(False)]. *)
Fixpoint train (b : bool) (p : pol) : pol :=
  match p with
  | Base k _ l => Base k b (match switched k with Some ns => set_modes (mem ns) b l | None => set_modes (fun _ => true) b l end)
  | Icm _ p _ => Icm b (train b p) b
  | Mgr s ps => Mgr s (map (train b) ps) end.
(** What [learn] does to the modes: rainbow.py:56-58 puts the target network into training mode if it has noisy layers; the other [learn]s nothing.
    icm.py:159 and mapolicy.py:268-277 call the inner policies' [learn] (the manager only for agents with data; here all). *)
Fixpoint learn (p : pol) : pol :=
  match p with
  | Base (KRainbow true true as k) s l => Base k s (set_modes (mem [ModelOld]) true l)
  | Base k s l => Base k s l
  | Icm s p m => Icm s (learn p) m
  | Mgr s ps => Mgr s (map learn ps) end.
(** torch_utils.py:14-22 [torch_train_mode]. *)
Definition train_mode (enabled : bool) (body : pol -> pol) (p : pol) : pol := train (self_of p) (body (train enabled p)).
(** collector.py:472-479 and policy/base.py:546-547. *)
Inductive op := Train (b : bool) | Collect | Update.
Definition act (o : op) (p : pol) : pol :=
  match o with Train b => train b p | Collect => train_mode false (fun p => p) p | Update => train_mode true learn p end.
Definition run (os : list op) (p : pol) : pol := fold_left (fun p o => act o p) os p.
(** What the policy looks like inside the block: when actions are computed, and when [learn] starts. *)
Definition within (o : op) (p : pol) : pol := match o with Train b => train b p | Collect => train false p | Update => learn (train true p) end.
(** All networks with their modes (the curiosity model has no name of its own here). *)
Fixpoint nets (p : pol) : modes :=
  match p with Base _ _ l => l | Icm _ p _ => nets p | Mgr _ ps => flat_map nets ps end.
Fixpoint kinds (p : pol) : list kind :=
  match p with Base k _ _ => [k] | Icm _ p _ => kinds p | Mgr _ ps => flat_map kinds ps end.
Fixpoint icms (p : pol) : list bool :=
  match p with Base _ _ _ => [] | Icm _ p m => m :: icms p | Mgr _ ps => flat_map icms ps end.

(** ** State dicts *)
(** An nn.Module: parameters, buffers, submodules, other attributes (numbers, tensors that are no Parameters), and dicts of modules, which are
    ordinary attributes too. [nn.Module.__setattr__] registers Parameters and Modules only. *)
Notation path := (list nat).
Section State.
Context {V : Type}.
Inductive obj := Obj (ps bs : list (nat * V)) (ms : list (nat * obj)) (plain : list (nat * V)) (ds : list (nat * obj)).
Definition here (pre : path) (l : list (nat * V)) : list (path * V) := map (fun q => (pre ++ [fst q], snd q)) l.
Fixpoint state_dict (pre : path) (o : obj) : list (path * V) :=
  match o with Obj ps bs ms _ _ => here pre ps ++ here pre bs ++ flat_map (fun q => state_dict (pre ++ [fst q]) (snd q)) ms end.
Definition assign_here (f : path -> V -> V) (pre : path) (l : list (nat * V)) : list (nat * V) := map (fun q => (fst q, f (pre ++ [fst q]) (snd q))) l.
Fixpoint assign (f : path -> V -> V) (pre : path) (o : obj) : obj :=
  match o with Obj ps bs ms plain ds =>
    Obj (assign_here f pre ps) (assign_here f pre bs) (map (fun q => (fst q, assign f (pre ++ [fst q]) (snd q))) ms) plain ds end.
Definition path_eq (a b : path) : {a = b} + {a <> b}. Proof. decide equality. apply Nat.eq_dec. Defined.
Definition look (sd : list (path * V)) (k : path) : option V := match find (fun q => if path_eq (fst q) k then true else false) sd with Some q => Some (snd q) | None => None end.
(** [load_state_dict(strict=True)]: keys missing or unexpected are an error (torch has copied the others by then). *)
Definition load_state_dict (sd : list (path * V)) (o : obj) : res obj :=
  let ks := map fst (state_dict [] o) in
  if forallb (fun k => match look sd k with Some _ => true | None => false end) ks && forallb (fun q => if in_dec path_eq (fst q) ks then true else false) sd
  then Ok (assign (fun k v => match look sd k with Some w => w | None => v end) [] o) else Err RuntimeError.
(** [parameters()]. *)
Fixpoint parameters (o : obj) : list V := match o with Obj ps _ ms _ _ => map snd ps ++ flat_map (fun q => parameters (snd q)) ms end.
(** Everything [learn] may change. *)
Fixpoint values (o : obj) : list V :=
  match o with Obj ps bs ms plain ds =>
    map snd ps ++ map snd bs ++ flat_map (fun q => values (snd q)) ms ++ map snd plain ++ flat_map (fun q => values (snd q)) ds end.
(** sac.py:133-153 with automatic temperature: networks and critics are modules; log_alpha is a tensor of the caller, alpha its exponential. *)
Definition sac (nets : list (nat * obj)) (log_alpha alpha : V) : obj := Obj [] [] nets [(0, log_alpha); (1, alpha)] [].
(** mapolicy.py:110: the sub-policies are in a dict. *)
Definition manager (ps : list (nat * obj)) : obj := Obj [] [] [] [] ps.
(** icm.py:79-80: policy and model are attributes, hence submodules. *)
Definition icm (p model : obj) : obj := Obj [] [] [(0, p); (1, model)] [] [].
End State.
Arguments obj : clear implicits.

(** ** Target networks: parameters and buffers *)
Record net := mkNet { w : list Qc; buf : list Qc }.
(** base.py:287-290: [parameters()] has no buffers; [zip(strict=True)]. *)
Definition soft_update (tau : Qc) (tgt src : net) : res net :=
  if length (w tgt) =? length (w src) then Ok (mkNet (map (fun q => tau * snd q + (1 - tau) * fst q)%Qc (combine (w tgt) (w src))) (buf tgt)) else Err ValueError.
(** dqn.py:117-119, discrete_crr.py:103-105: load_state_dict. *)
Definition sync (tgt src : net) : net := src.
(** Training: each step changes the online network as the optimizer and the forward passes do ([step]: batch statistics are buffers), then the
    target follows; ddpg.py:199-210, sac.py:226-262, td3.py:143-163. *)
Fixpoint follow (tau : Qc) (step : nat -> net -> net) (n i : nat) (online target : net) : res (net * net) :=
  match n with
  | 0 => Ok (online, target)
  | S n => let online := step i online in let* target := soft_update tau target online in follow tau step n (S i) online target end.

(** ** Rainbow's noise *)
(** Draws are numbered in the order of the generator; [sample] fills the noise of a network of [len] numbers with fresh draws. *)
Record rb := mkRb { r_w : Qc; r_eps : list nat; t_w : Qc; t_eps : list nat; r_iter : nat; r_next : nat }.
Definition sample (len next : nat) : list nat * nat := (seq next len, next + len).
(** rainbow.py:50-59 and c51.py:119-137; the result also shows the networks the losses of this call are computed with. [upd]: optimizer step. *)
Definition rb_learn (len freq : nat) (upd : rb -> Qc) (s : rb) : rb * (Qc * list nat * (Qc * list nat)) :=
  let (e, n) := sample len (r_next s) in
  let (e', n) := sample len n in
  let s := mkRb (r_w s) e (t_w s) e' (r_iter s) n in
  let s := if r_iter s mod freq =? 0 then mkRb (r_w s) (r_eps s) (r_w s) (r_eps s) (r_iter s) (r_next s) else s in
  (mkRb (upd s) (r_eps s) (t_w s) (t_eps s) (S (r_iter s)) (r_next s), (r_w s, r_eps s, (t_w s, t_eps s))).
Fixpoint rb_run (len freq : nat) (upd : rb -> Qc) (n : nat) (s : rb) : rb * list (Qc * list nat * (Qc * list nat)) :=
  match n with
  | 0 => (s, [])
  | S n => let (s, x) := rb_learn len freq upd s in let (s, xs) := rb_run len freq upd n s in (s, x :: xs) end.
