(** * Properties C283-C288: environment factories *)
From Coq Require Import String.
From Verif Require Import EnvfModel EnvfSpec EnvfProofs.
Local Open Scope string_scope.
Local Open Scope list_scope.
Local Open Scope nat_scope.

(** C283. create_envs gives as many environments of each purpose as asked for, in the kind of vector
    environment asked for, with consecutive seeds from the seed of the purpose, a watch environment if
    asked for, and the class that suits the action space. *)
Theorem C283_created : forall (V E : Type) (windows : bool) (obs act : E -> space) (high : E -> list Qc)
    (make : string -> list (string * V) -> res E) (r : registered V) (n_train n_test : Z) (watch : bool) (es : environments V E),
  NoDup (map fst (r_kwargs r)) -> r_pool r = false -> reg_envs windows obs act high make r n_train n_test watch = Ok es ->
  made make r MTrain (es_env es) /\
  workers (es_train es) (backend_of windows (r_vtype r)) (Z.to_nat n_train) (r_train_seed r) (made make r MTrain) /\
  workers (es_test es) (backend_of windows (r_vtype r)) (Z.to_nat n_test) (r_test_seed r) (made make r MTest) /\
  (if watch then exists w, es_watch es = Some w /\ workers w BDummy 1 (r_test_seed r) (made make r MWatch) else es_watch es = None) /\
  of_type (act (es_env es)) (es_type es).
Proof. exact C283_created_lemma. Qed.
Print Assumptions C283_created.

(** C283. If the environments can be made, it succeeds for all positive numbers and usable spaces, and only for them. *)
Theorem C283_succeeds : forall (V E : Type) (windows : bool) (obs act : E -> space) (high : E -> list Qc)
    (make : string -> list (string * V) -> res E) (r : registered V) (n_train n_test : Z) (watch : bool) (e_train e_test e_watch : E),
  NoDup (map fst (r_kwargs r)) -> r_pool r = false ->
  (forall kw, args_for r MTrain kw -> make (r_task r) kw = Ok e_train) ->
  (forall kw, args_for r MTest kw -> make (r_task r) kw = Ok e_test) ->
  (forall kw, args_for r MWatch kw -> make (r_task r) kw = Ok e_watch) ->
  (exists es, reg_envs windows obs act high make r n_train n_test watch = Ok es) <->
  (0 < n_train)%Z /\ (0 < n_test)%Z /\ usable (obs e_train) (act e_train).
Proof. exact C283_succeeds_lemma. Qed.
Print Assumptions C283_succeeds.

(** C283. The vector environment runs in this process, in Ray or in processes of its own; these share memory for all kinds but SUBPROC, and are forked for the kind asking for it and by default where the platform can. *)
Theorem C283_backend : forall (windows : bool) (t : vtype),
  (backend_of windows t = BDummy <-> t = TDummy) /\ (backend_of windows t = BRay <-> t = TRay) /\
  (forall shared fork, backend_of windows t = BSubproc shared fork ->
    (shared = true <-> t <> TSubproc) /\ (fork = true <-> t = TShmemFork \/ (t = TAuto /\ windows = false))).
Proof. exact C283_backend_lemma. Qed.
Print Assumptions C283_backend.

(** C284. With envpool, the vector environment has the task, number, seed and the keyword arguments except for the render mode. *)
Theorem C284_pool : forall (V E : Type) (windows : bool) (make : string -> list (string * V) -> res E) (r : registered V) (n : Z) (m : emode),
  NoDup (map fst (r_kwargs r)) -> r_pool r = true -> (forall k, In k (map fst (r_kwargs r)) -> k <> "num_envs"%string /\ k <> "seed"%string) ->
  exists kw, reg_venv windows make r n m = Ok (VPool (r_task r) n (match m with MTrain => r_train_seed r | _ => r_test_seed r end) kw) /\
    forall k v, In (k, v) kw <-> k <> "render_mode"%string /\ In (k, v) (r_kwargs r).
Proof. exact C284_pool_lemma. Qed.
Print Assumptions C284_pool.

(** C284. Without, every environment of the vector environment has the keyword arguments, with the render mode of its purpose. *)
Theorem C284_gym : forall (V E : Type) (windows : bool) (make : string -> list (string * V) -> res E) (r : registered V) (n : Z) (m : emode) (v : venv V E),
  NoDup (map fst (r_kwargs r)) -> r_pool r = false -> reg_venv windows make r n m = Ok v ->
  exists b es seeds, v = VWork b es seeds /\ forall e, In e es -> made make r m e.
Proof. exact C284_gym_lemma. Qed.
Print Assumptions C284_gym.

(** C285. In WATCH mode the vector environment is a DUMMY one with a single environment, whatever number is asked for. *)
Theorem C285_watch : forall (V E : Type) (windows : bool) (make : string -> list (string * V) -> res E) (r : registered V) (n : Z) (v : venv V E),
  NoDup (map fst (r_kwargs r)) -> r_pool r = false -> reg_venv windows make r n MWatch = Ok v ->
  exists e, v = VWork BDummy [e] (Some [r_test_seed r]) /\ made make r MWatch e.
Proof. exact C285_watch_lemma. Qed.
Print Assumptions C285_watch.

(** C285. Not so with envpool: there are as many environments as asked for, and none has a render mode. *)
Theorem C285_pool_refuted : forall (V E : Type) (windows : bool) (make : string -> list (string * V) -> res E) (r : registered V) (n : Z),
  NoDup (map fst (r_kwargs r)) -> r_pool r = true -> (forall k, In k (map fst (r_kwargs r)) -> k <> "num_envs"%string /\ k <> "seed"%string) ->
  exists kw, reg_venv windows make r n MWatch = Ok (VPool (r_task r) n (r_test_seed r) kw) /\ ~ In "render_mode"%string (map fst kw).
Proof. exact C285_pool_refuted_lemma. Qed.
Print Assumptions C285_pool_refuted.

(** C286. A state with the old single seed becomes one with that seed for training and test, everything else kept. *)
Theorem C286_old : forall (V : Type) (state : list (string * V)) (s : V),
  NoDup (map fst state) -> In ("seed"%string, s) state -> ~ In "test_seed"%string (map fst state) -> ~ In "train_seed"%string (map fst state) ->
  exists state', reg_setstate state = Ok state' /\ reg_setstate state' = Ok state' /\
    forall k v, In (k, v) state' <-> (k <> "seed"%string /\ In (k, v) state) \/ ((k = "test_seed"%string \/ k = "train_seed"%string) /\ v = s).
Proof. exact C286_old_lemma. Qed.
Print Assumptions C286_old.

(** C286. A state without it is kept, and one with both is refused. *)
Theorem C286_new : forall (V : Type) (state : list (string * V)),
  (~ In "seed"%string (map fst state) -> reg_setstate state = Ok state) /\
  (In "seed"%string (map fst state) -> In "test_seed"%string (map fst state) \/ In "train_seed"%string (map fst state) -> reg_setstate state = Err RuntimeError).
Proof. exact C286_new_lemma. Qed.
Print Assumptions C286_new.

(** C287. from_factory_and_type with the continuous type refuses environments that are not. *)
Theorem C287_continuous : forall (V E : Type) (windows : bool) (obs act : E -> space) (high : E -> list Qc) (factory : emode -> res E)
    (vt : vtype) (n_train n_test : Z) (watch : bool) (es : environments V E),
  from_factory_and_type windows obs act high factory ECont vt n_train n_test watch = Ok es ->
  of_type (act (es_env es)) (es_type es) /\ es_type es = ECont.
Proof. exact C287_continuous_lemma. Qed.
Print Assumptions C287_continuous.

(** C287. With the discrete type every environment with an observation shape and a Box of actions is taken, and is then said to be discrete. *)
Theorem C287_discrete_refuted : forall (V E : Type) (windows : bool) (obs act : E -> space) (high : E -> list Qc) (factory : emode -> res E)
    (vt : vtype) (n_train n_test : Z) (watch : bool) (e_train e_test e_watch : E) (s : nat) (shape : list nat),
  factory MTrain = Ok e_train -> factory MTest = Ok e_test -> factory MWatch = Ok e_watch -> (0 < n_train)%Z -> (0 < n_test)%Z ->
  usable (obs e_train) (act e_train) -> act e_train = Box (s :: shape) ->
  exists es : environments V E, from_factory_and_type windows obs act high factory EDisc vt n_train n_test watch = Ok es /\
    es_env es = e_train /\ es_type es = EDisc /\ ~ of_type (act (es_env es)) (es_type es) /\ es_act es = STuple (s :: shape).
Proof. exact C287_discrete_refuted_lemma. Qed.
Print Assumptions C287_discrete_refuted.

(** C288. If all upper bounds of a vector of actions are the same, max_action is that bound. *)
Theorem C288_uniform : forall (V E : Type) (obs act : E -> space) (high : E -> list Qc) (e : E) (tr te : venv V E) (w : option (venv V E)) (es : environments V E) (n : nat) (b : Qc),
  environments_of obs act high ECont e tr te w = Ok es -> act e = Box [n] -> length (high e) = n -> (0 < n) ->
  (forall h, In h (high e) -> h = b) -> es_max es = [b].
Proof. exact C288_uniform_lemma. Qed.
Print Assumptions C288_uniform.

(** C288. Otherwise it is only the bound of the first component: any larger bound exceeds it. *)
Theorem C288_first_refuted : forall (V E : Type) (obs act : E -> space) (high : E -> list Qc) (e : E) (tr te : venv V E) (w : option (venv V E)) (es : environments V E) (n : nat) (h0 h : Qc) (hs : list Qc),
  environments_of obs act high ECont e tr te w = Ok es -> act e = Box [n] -> high e = h0 :: hs -> In h hs -> (h0 < h)%Qc ->
  ~ (exists m, es_max es = [m] /\ forall b, In b (high e) -> (b <= m)%Qc).
Proof. exact C288_first_refuted_lemma. Qed.
Print Assumptions C288_first_refuted.

(** C288. And for actions of several dimensions it is not a number. *)
Theorem C288_matrix_refuted : forall (V E : Type) (obs act : E -> space) (high : E -> list Qc) (e : E) (tr te : venv V E) (w : option (venv V E)) (es : environments V E) (n a : nat) (shape : list nat),
  environments_of obs act high ECont e tr te w = Ok es -> act e = Box (n :: a :: shape) -> length (high e) = n * (a * fold_right Nat.mul 1 shape) ->
  0 < n -> length (es_max es) = a * fold_right Nat.mul 1 shape.
Proof. exact C288_matrix_refuted_lemma. Qed.
Print Assumptions C288_matrix_refuted.

(** ** Non-vacuity: an environment is the call that made it. *)
Definition xenv : Type := string * list (string * nat).
Definition xmake (t : string) (kw : list (string * nat)) : res xenv := Ok (t, kw).
Definition xobs (e : xenv) : space := Box [3].
Definition xact (e : xenv) : space := if String.eqb (fst e) "arm" then Box [2] else Discrete 4.
Definition xhigh (e : xenv) : list Qc := [1%Qc; Q2Qc 2].
Definition xrender (m : emode) : nat := match m with MTrain => 0 | MTest => 0 | MWatch => 5 end.
Definition reg_arm : registered nat := mkReg "arm" 100%Z 7%Z TAuto false xrender [("frames", 4)].
Definition reg_arm_pool : registered nat := mkReg "arm" 100%Z 7%Z TDummy true xrender [("frames", 4)].
Example C283_ex : exists es, reg_envs false xobs xact xhigh xmake reg_arm 3 2 true = Ok es /\ es_type es = ECont
  /\ es_train es = VWork (BSubproc true true) (repeat ("arm", [("frames", 4); ("render_mode", 0)]) 3) (Some [100; 101; 102]%Z)
  /\ es_watch es = Some (VWork BDummy [("arm", [("frames", 4); ("render_mode", 5)])] (Some [7]%Z))
  /\ usable (xobs (es_env es)) (xact (es_env es))
  /\ reg_envs false xobs xact xhigh xmake reg_arm 0 2 true = Err IndexError.
Proof. eexists. split; [reflexivity|]. split; [reflexivity|]. split; [reflexivity|]. split; [reflexivity|]. split; [split; [exact Logic.I|discriminate]|reflexivity]. Qed.
Example C284_ex : reg_venv false xmake reg_arm_pool 6 MTest = Ok (VPool "arm" 6 7 [("frames", 4)]) /\ NoDup (map fst (r_kwargs reg_arm_pool)).
Proof. split; [reflexivity|]. constructor; [intros []|constructor]. Qed.
Example C285_ex : reg_venv false xmake reg_arm 6 MWatch = Ok (VWork BDummy [("arm", [("frames", 4); ("render_mode", 5)])] (Some [7]%Z))
  /\ reg_venv false xmake reg_arm_pool 6 MWatch = Ok (VPool "arm" 6 7 [("frames", 4)]).
Proof. split; reflexivity. Qed.
Example C286_ex : reg_setstate [("task", 1); ("seed", 42); ("kind", 2)] = Ok [("task", 1); ("kind", 2); ("test_seed", 42); ("train_seed", 42)]
  /\ reg_setstate [("test_seed", 1); ("seed", 42)] = Err RuntimeError.
Proof. split; reflexivity. Qed.
Definition xfactory (t : string) (m : emode) : res xenv := xmake t [("mode", xrender m)].
Example C287_ex : from_factory_and_type (V := nat) false xobs xact xhigh (xfactory "grid") ECont TDummy 2 1 false = Err ValueError
  /\ exists es : environments nat xenv, from_factory_and_type false xobs xact xhigh (xfactory "arm") EDisc TDummy 2 1 false = Ok es /\ es_type es = EDisc /\ es_act es = STuple [2].
Proof. split; [reflexivity|]. eexists. split; [reflexivity|]. split; reflexivity. Qed.
Example C288_ex : exists es : environments nat xenv, from_factory_and_type false xobs xact xhigh (xfactory "arm") ECont TDummy 2 1 false = Ok es
  /\ es_max es = [1%Qc] /\ In (Q2Qc 2) (xhigh (es_env es)) /\ (1 < Q2Qc 2)%Qc.
Proof. eexists. split; [reflexivity|]. split; [reflexivity|]. split; [right; left; reflexivity|reflexivity]. Qed.
Example C283_backend_ex : backend_of false TAuto = BSubproc true true /\ backend_of true TAuto = BSubproc true false /\ backend_of false TSubproc = BSubproc false false.
Proof. split; [|split]; reflexivity. Qed.
