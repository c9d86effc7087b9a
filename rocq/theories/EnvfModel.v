(** * Model of the environment factories ([tianshou/highlevel/env.py:58-501])

    An environment of type [E] has an observation space, an action space and, if that is a Box, the
    bounds of its actions in row-major order.  Creating an environment may raise.  Creating it in
    another process raises like creating it here.  What envpool makes is described by the call. *)
From Coq Require Import String.
From Verif Require Export Py Num FactModel.
Open Scope nat_scope.
Open Scope list_scope.

(** EnvMode (58-63), VectorEnvType (66-103) *)
Inductive emode := MTrain | MTest | MWatch.
Inductive vtype := TDummy | TSubproc | TShmem | TShmemFork | TRay | TAuto.
(** The class and arguments of the vector environment: [BSubproc share_memory fork]. *)
Inductive backend := BDummy | BSubproc (shared fork : bool) | BRay.
Section Envf.
Context {V E : Type}.
Notation kwargs := (list (string * V)).
(** dict operations *)
Fixpoint kget (k : string) (d : kwargs) : option V :=
  match d with [] => None | (k', v) :: d => if String.eqb k k' then Some v else kget k d end.
Fixpoint kset (k : string) (v : V) (d : kwargs) : kwargs :=
  match d with [] => [(k, v)] | (k', v') :: d => if String.eqb k k' then (k', v) :: d else (k', v') :: kset k v d end.
Fixpoint kdel (k : string) (d : kwargs) : kwargs :=
  match d with [] => [] | (k', v') :: d => if String.eqb k k' then d else (k', v') :: kdel k d end.
Definition khas (k : string) (d : kwargs) : bool := match kget k d with Some _ => true | None => false end.

(** A vector environment: of workers, with the seeds they were given if any, or made by envpool. *)
Inductive venv :=
| VWork (b : backend) (members : list E) (seeds : option (list Z))
| VPool (task : string) (num : Z) (seed : Z) (kw : kwargs).
(** platform.system() is Windows *)
Variable windows : bool.
Definition backend_of (t : vtype) : backend :=
  match t with
  | TDummy => BDummy
  | TSubproc => BSubproc false false
  | TShmem => BSubproc true false
  | TShmemFork => BSubproc true true
  | TAuto => if windows then BSubproc true false else BSubproc true true
  | TRay => BRay
  end.
(** VectorEnvType.create_venv (81-103); BaseVectorEnv.__init__ (env/venvs.py:76-109) asks for the
    class of the first worker. *)
Definition make_venv (t : vtype) (factories : list (res E)) : res venv :=
  let* ws := mapM (fun f => f) factories in
  match ws with [] => Err IndexError | _ => Ok (VWork (backend_of t) ws None) end.

(** The spaces of an environment and the upper bounds of its actions. *)
Variables (obs act : E -> space) (high : E -> list Qc).
Record environments := mkEs { es_type : etype; es_env : E; es_train : venv; es_test : venv; es_watch : option venv;
  es_obs : sshape; es_act : sshape; es_max : list Qc }.
(** max_action = high[0] (258): the first row of [high]. *)
Definition max_action (e : E) : list Qc :=
  match act e with Box (_ :: rest) => firstn (fold_right Nat.mul 1 rest) (high e) | _ => [] end.
(** ContinuousEnvironments (201-209), DiscreteEnvironments (274-283) *)
Definition environments_of (t : etype) (e : E) (train test : venv) (watch : option venv) : res environments :=
  let* s := (match t with ECont => cont_envs (obs e) (act e) | EDisc => disc_envs (obs e) (act e) end) in
  Ok (mkEs t e train test watch (e_obs s) (e_act s) (match t with ECont => max_action e | EDisc => [] end)).
(** [f] * n *)
Definition times {A} (a : A) (n : Z) : list A := repeat a (Z.to_nat n).
(** Environments.from_factory_and_type (122-158) *)
Definition from_factory_and_type (factory : emode -> res E) (t : etype) (vt : vtype) (n_train n_test : Z) (watch : bool) : res environments :=
  let* train := make_venv vt (times (factory MTrain) n_train) in
  let* test := make_venv vt (times (factory MTest) n_test) in
  let* w := (if watch then let* w := make_venv TDummy [factory MWatch] in Ok (Some w) else Ok None) in
  let* e := factory MTrain in
  environments_of t e train test w.

(** EnvFactory.create_venv (377-389) *)
Definition base_venv (create_env : emode -> res E) (vt : vtype) (n : Z) (m : emode) : res venv :=
  match m with
  | MWatch => make_venv TDummy [create_env MWatch]
  | _ => make_venv vt (times (create_env m) n)
  end.
(** EnvFactory.create_envs (391-414), with the create_venv of the class *)
Definition create_envs (create_env : emode -> res E) (create_venv : Z -> emode -> res venv) (n_train n_test : Z) (watch : bool) : res environments :=
  let* e := create_env MTrain in
  let* train := create_venv n_train MTrain in
  let* test := create_venv n_test MTest in
  let* w := (if watch then let* w := create_venv 1%Z MWatch in Ok (Some w) else Ok None) in
  let* t := type_of (act e) in
  environments_of t e train test w.

(** EnvFactoryRegistered (417-501); [r_render] are the render modes as values, None included. *)
Record registered := mkReg { r_task : string; r_train_seed : Z; r_test_seed : Z; r_vtype : vtype; r_pool : bool;
  r_render : emode -> V; r_kwargs : kwargs }.
(** gymnasium.make *)
Variable make : string -> kwargs -> res E.
(** _create_kwargs (469-477) *)
Definition create_kwargs (r : registered) (m : emode) : kwargs := kset "render_mode" (r_render r m) (r_kwargs r).
(** create_env (479-486) *)
Definition reg_env (r : registered) (m : emode) : res E := make (r_task r) (create_kwargs r m).
(** EnvPoolFactory._transform_kwargs (332-342) and create_venv (344-361); num_envs or seed among the
    keyword arguments is a TypeError. *)
Definition transform_kwargs (d : kwargs) : kwargs := if khas "render_mode" d then kdel "render_mode" d else d.
Definition pool_venv (task : string) (n : Z) (seed : Z) (d : kwargs) : res venv :=
  let d := transform_kwargs d in
  guard (negb (khas "num_envs" d || khas "seed" d)) TypeError (Ok (VPool task n seed d)).
(** BaseVectorEnv.seed of an int (env/venvs.py:324-342) *)
Definition seed_venv (v : venv) (seed : Z) : venv :=
  match v with
  | VWork b ws _ => VWork b ws (Some (map (fun i => (seed + Z.of_nat i)%Z) (seq 0 (length ws))))
  | VPool t n s d => VPool t n s d
  end.
(** create_venv (488-501) *)
Definition reg_venv (r : registered) (n : Z) (m : emode) : res venv :=
  let seed := match m with MTrain => r_train_seed r | _ => r_test_seed r end in
  if r_pool r then pool_venv (r_task r) n seed (create_kwargs r m)
  else let* v := base_venv (reg_env r) (r_vtype r) n m in Ok (seed_venv v seed).
Definition reg_envs (r : registered) : Z -> Z -> bool -> res environments := create_envs (reg_env r) (reg_venv r).

(** EnvFactoryRegistered.__setstate__ (456-467): the attributes of the object after it. *)
Definition reg_setstate (state : kwargs) : res kwargs :=
  match kget "seed" state with
  | Some s =>
      guard (negb (khas "test_seed" state || khas "train_seed" state)) RuntimeError
        (Ok (kdel "seed" (kset "train_seed" s (kset "test_seed" s state))))
  | None => Ok state
  end.
End Envf.
Arguments venv V E : clear implicits.
Arguments environments V E : clear implicits.
Arguments registered V : clear implicits.
