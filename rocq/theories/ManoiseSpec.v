(** * What one agent of the multi-agent manager would do on its own *)
From Verif Require Export ManoiseModel.
Open Scope nat_scope.

(** The elements of [l] at the rows of agent [a]. *)
Fixpoint own {A} (a : nat) (ids : list nat) (l : list A) : list A :=
  match ids, l with
  | i :: ids, x :: l => if i =? a then x :: own a ids l else own a ids l
  | _, _ => []
  end.
(** The agent's policy called alone with its rows; without rows it is not called. *)
Definition solo (ns : enoise) (mine z : list Qc) : list Qc * enoise :=
  match mine with
  | [] => ([], ns)
  | _ => let '(r, ns, _) := expl_noise ns (EArr mine) z in (match r with EArr l | EBatch l => l end, ns)
  end.
Fixpoint alone (a : nat) (ns : enoise) (steps : list mstep) : list (list Qc) * enoise :=
  match steps with
  | [] => ([], ns)
  | s :: steps => let '(r, ns) := solo ns (own a (ms_ids s) (ms_act s)) (ms_z s a) in
                  let '(out, ns) := alone a ns steps in (r :: out, ns)
  end.
Fixpoint look {A} (a : nat) (ps : list (nat * A)) : option A :=
  match ps with [] => None | (b, x) :: ps => if b =? a then Some x else look a ps end.
