(** * What environment factories are meant to do *)
From Coq Require Import String.
From Verif Require Import EnvfModel.
Open Scope nat_scope.
Open Scope list_scope.

Section Spec.
Context {V E : Type}.
(** The keyword arguments are those given, with the render mode for the mode. *)
Definition args_for (r : registered V) (m : emode) (kw : list (string * V)) : Prop :=
  forall k v, In (k, v) kw <-> (k = "render_mode"%string /\ v = r_render r m) \/ (k <> "render_mode"%string /\ In (k, v) (r_kwargs r)).
(** [e] was made for mode [m] by the factory. *)
Definition made (make : string -> list (string * V) -> res E) (r : registered V) (m : emode) (e : E) : Prop :=
  exists kw, make (r_task r) kw = Ok e /\ args_for r m kw.
(** A vector environment of [n] environments with consecutive seeds. *)
Definition workers (v : venv V E) (b : backend) (n : nat) (seed : Z) (P : E -> Prop) : Prop :=
  exists es seeds, v = VWork b es (Some seeds) /\ length es = n /\ Forall P es /\ length seeds = n /\
    forall i s, nth_error seeds i = Some s -> s = (seed + Z.of_nat i)%Z.
(** The spaces can be used: a Box of actions has at least one dimension, the observations a shape or number. *)
Definition usable (o a : space) : Prop :=
  match o with Discrete n => match a with Box _ => n <> 0 | _ => True end | Box [] | OtherSpace [] => False | _ => True end /\
  match a with Discrete _ => True | Box l => l <> [] | OtherSpace _ => False end.
(** Does the action space have that type? *)
Definition of_type (a : space) (t : etype) : Prop :=
  match a, t with Discrete _, EDisc => True | Box _, ECont => True | _, _ => False end.
End Spec.
