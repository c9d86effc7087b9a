(** * Small independent descriptions used in the statements about the networks *)
From Verif Require Import Py Num NetModel.
Open Scope nat_scope.

Section L.
Context {Md A L : Type}.
(** The linear layers with their sizes, in order. *)
Definition linears (l : list (layer Md A L)) : list (L * (nat * nat)) :=
  flat_map (fun x => match x with Linear k i o => [(k, (i, o))] | _ => [] end) l.
(** The steps of a chain of sizes. *)
Definition steps (l : list nat) : list (nat * nat) := combine l (tl l).
(** Which arguments are accepted for [n] hidden layers. *)
Definition accepted (l : lay Md) (g : args A) (n : nat) : Prop :=
  match l with
  | LNone | LOne _ => True
  | LTuple ms => ms = [] \/ n = 0
  | LList ms => ms = [] \/ (length ms = n /\ match g with GList gs => length gs = n | _ => True end)
  end.
End L.
(** All rows of a matrix have the length [w]. *)
Definition wide {T} (w : nat) (m : list (list T)) : Prop := forall r, In r m -> length r = w.
(** The value of a row network, member [e] of an ensemble. *)
Fixpoint plain_net (act : Qc -> Qc) (layers : list (list row * row)) (x : row) : row :=
  match layers with
  | [] => x
  | [wb] => lin (fst wb) (snd wb) x
  | wb :: layers => plain_net act layers (map act (lin (fst wb) (snd wb) x)) end.
(** The shape [batch, actions] or [batch, actions, atoms] of an output. *)
Definition has_shape (t : tens) (batch actions atoms : nat) : Prop :=
  match t with
  | T2 m => atoms = 1 /\ length m = batch /\ wide actions m
  | T3 m => 1 < atoms /\ length m = batch /\ forall r, In r m -> length r = actions /\ wide atoms r
  end.
(** The squared distance of two vectors. *)
Fixpoint sqdist (u v : row) : Qc := match u, v with x :: u, y :: v => ((x - y) * (x - y) + sqdist u v)%Qc | _, _ => 0%Qc end.
