(** * What surrounds the collection loop is meant to do *)
From Verif Require Import Py Num BatchModel BatchSpec BufferModel SetupModel.
From Verif Require PolicyModel.
Open Scope nat_scope.
Open Scope list_scope.

(** The infos that are not empty. *)
Definition nonempty (infos : list bval) : list bval := filter (fun b => match b with Node [] => false | _ => true end) infos.

(** Expectation of [f] under the probabilities [p] of the actions 0, 1, ... *)
Fixpoint expect_from (k : Z) (f : Qc -> Qc) (p : list Qc) : Qc :=
  match p with [] => 0%Qc | x :: p => (x * f (Q2Qc (inject_Z k)) + expect_from (k + 1) f p)%Qc end.
Definition expect (f : Qc -> Qc) (p : list Qc) : Qc := expect_from 0 f p.
Definition is_dist (p : list Qc) : Prop := (forall x, In x p -> (0 <= x)%Qc) /\ expect (fun _ => 1%Qc) p = 1%Qc.

(** What [n] environments may hand over in one step: one transition for each of some of them. *)
Definition step_ok {Ob A Inf R : Type} (n : nat) (x : list Z * list (trans Ob A Inf R)) : Prop :=
  length (fst x) = length (snd x) /\ fst x <> [] /\ NoDup (fst x) /\ forall i, In i (fst x) -> (0 <= i < Z.of_nat n)%Z.
(** The buffer has room for at least one transition everywhere. *)
Definition roomy (b : cbuf) : Prop :=
  match b with
  | Plain _ => True
  | Managed ns => forall n, In n ns -> 0 < n
  | CachedB n0 num c => 0 < n0 /\ 0 < num /\ 0 < c
  end.
Definition capacity (b : cbuf) : nat :=
  match b with Plain n => n | Managed ns => list_sum ns | CachedB n0 num c => n0 + num * c end.
Definition entry_of (act : list (list Qc)) (i j : nat) : option Qc := match nth_error act i with Some row => nth_error row j | None => None end.
(** The actions lie in the box [low, high], whose sides are at least [eps] long (in its interior if
    they are mapped by tanh); without scaling, they are not clipped or mapped. *)
Definition reachable_actions (eps : Qc) (is_box : bool) (m : PolicyModel.bound_method) (scaling : bool) (low high : list Qc) (act : list (list Qc)) : Prop :=
  is_box = true ->
  if scaling then
    (0 < eps)%Qc /\ length low = length high /\ low <> [] /\ act <> [] /\
    (forall j lo hi, nth_error low j = Some lo -> nth_error high j = Some hi -> (eps <= hi - lo)%Qc) /\
    (forall row, In row act -> length row = length low) /\
    (forall i j a lo hi, entry_of act i j = Some a -> nth_error low j = Some lo -> nth_error high j = Some hi ->
       (lo <= a)%Qc /\ (a <= hi)%Qc /\ (m = PolicyModel.BTanh -> (lo < a)%Qc /\ (a < hi)%Qc))
  else m = PolicyModel.BNone.
