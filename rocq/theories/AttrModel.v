(** * Model of attributes of the environments in a vector environment ([tianshou/env/venvs.py:120-191],
      [tianshou/env/worker/dummy.py:18-22], [tianshou/env/worker/subproc.py:130-133, 173-178])

    An environment is a stack of gymnasium wrappers around the unwrapped environment, each with its
    own attributes.  Attributes are plain data (no properties with side effects). *)
From Coq Require Import String.
From Verif Require Export Py.
Open Scope nat_scope.
Open Scope list_scope.

Section Attr.
Context {V : Type}.
Variable none : V.
Notation layer := (list (string * V)).
Fixpoint look (k : string) (l : layer) : option V :=
  match l with [] => None | (k', v) :: l => if String.eqb k k' then Some v else look k l end.
Fixpoint store (k : string) (v : V) (l : layer) : layer :=
  match l with [] => [(k, v)] | (k', v') :: l => if String.eqb k k' then (k, v) :: l else (k', v') :: store k v l end.
Definition private (k : string) : bool := match k with String c _ => Ascii.eqb c (Ascii.ascii_of_nat 95) | EmptyString => false end.
(** Wrappers, outermost first, and the unwrapped environment. *)
Record env := mkEnv { e_wraps : list layer; e_base : layer }.
(** getattr(env, key): gymnasium.Wrapper.__getattr__ asks the wrapped environment, except for names
    that begin with an underscore (AttributeError, here None). *)
Fixpoint get_wrapped (k : string) (ws : list layer) (base : layer) : option V :=
  match ws with
  | [] => look k base
  | w :: ws => match look k w with Some v => Some v | None => if private k then None else get_wrapped k ws base end
  end.
Definition get_attr (e : env) (k : string) : option V := get_wrapped k (e_wraps e) (e_base e).
(** setattr(env.unwrapped, key, value) *)
Definition set_attr (e : env) (k : string) (v : V) : env := mkEnv (e_wraps e) (store k v (e_base e)).

Inductive wkind := Dummy | Subproc.
(** dummy.py:18-19; subproc.py:130-131: None if there is no such attribute. *)
Definition worker_get (w : wkind) (e : env) (k : string) : res V :=
  match get_attr e k, w with
  | Some v, _ => Ok v
  | None, Dummy => Err AttributeError
  | None, Subproc => Ok none
  end.

Record venv := mkV { v_kind : wkind; v_envs : list env; v_async : bool; v_ready : list Z; v_waiting : list Z; v_closed : bool }.
Definition with_envs (s : venv) (l : list env) : venv := mkV (v_kind s) l (v_async s) (v_ready s) (v_waiting s) (v_closed s).
(** _wrap_id (178-184); a scalar is the list of it. *)
Definition wrap_id (s : venv) (id : option (list Z)) : list Z :=
  match id with None => map Z.of_nat (seq 0 (length (v_envs s))) | Some l => l end.
(** _assert_id (186-191) *)
Definition assert_id (s : venv) (id : list Z) : bool :=
  forallb (fun i => negb (existsb (Z.eqb i) (v_waiting s)) && existsb (Z.eqb i) (v_ready s)) id.
(** get_env_attr (131-153) *)
Definition get_env_attr (s : venv) (k : string) (id : option (list Z)) : res (list V) :=
  guard (negb (v_closed s)) AssertionError
  (let ids := wrap_id s id in
   guard (negb (v_async s) || assert_id s ids) AssertionError
   (mapM (fun j => let* e := zget (v_envs s) j in worker_get (v_kind s) e k) ids)).
(** The loop of set_env_attr (175-176): environments written before an exception stay written. *)
Fixpoint set_loop (l : list env) (k : string) (v : V) (ids : list Z) : list env * option exn :=
  match ids with
  | [] => (l, None)
  | j :: ids =>
      match norm_index (length l) j with
      | Err x => (l, Some x)
      | Ok i => match nth_error l i with
                | Some e => set_loop (upd l i (set_attr e k v)) k v ids
                | None => (l, Some IndexError)
                end
      end
  end.
(** set_env_attr (155-176) *)
Definition set_env_attr (s : venv) (k : string) (v : V) (id : option (list Z)) : venv * option exn :=
  if v_closed s then (s, Some AssertionError)
  else let ids := wrap_id s id in
       if v_async s && negb (assert_id s ids) then (s, Some AssertionError)
       else let '(l, x) := set_loop (v_envs s) k v ids in (with_envs s l, x).
(** [venv.key] (120-129) for a reserved key such as action_space. *)
Definition reserved_attr (s : venv) (k : string) : res (list V) := get_env_attr s k None.
(** A sequence of set_env_attr calls, exceptions caught. *)
Definition aop := (string * V * option (list Z))%type.
Definition set_all (s : venv) (ops : list aop) : venv :=
  fold_left (fun s o => fst (set_env_attr s (fst (fst o)) (snd (fst o)) (snd o))) ops s.
End Attr.
Arguments env V : clear implicits.
Arguments venv V : clear implicits.
Arguments aop V : clear implicits.
