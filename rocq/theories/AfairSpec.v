(** * Sequences of asynchronous steps of RayVectorEnv that all return *)
From Verif Require Export AraySpec.
Open Scope nat_scope.

(** All results of the steps and the last state, if none of them raises. *)
Fixpoint all_ok (timed : bool) (num : nat) (v : av) (steps : list (option (list nat) * list (nat -> bool))) : option (list (nat * nat) * av) :=
  match steps with
  | [] => Some ([], v)
  | (sent, rounds) :: steps =>
      match a_step timed num v sent rounds with
      | (Ok o, w) => match all_ok timed num w steps with Some (os, u) => Some (o ++ os, u) | None => None end
      | (Err _, _) => None
      end
  end.
