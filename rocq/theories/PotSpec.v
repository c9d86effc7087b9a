(** * Specification of potential-based shaping of rewards *)
From Verif Require Export Py Num BufferModel CollectModel CollectSpec ReturnsModel E2eSpec.
Open Scope nat_scope.

(** Entry by entry. *)
Definition vplus (l m : list Qc) : list Qc := map (fun x => (fst x + snd x)%Qc) (combine l m).
Definition vminus (l m : list Qc) : list Qc := map (fun x => (fst x - snd x)%Qc) (combine l m).
Definition vtimes (a : Qc) (l : list Qc) : list Qc := map (fun x => (a * x)%Qc) l.

(** The rows of a batch with rewards [r + gamma * next - now], where [next] counts only where [mask]. *)
Definition shape_rows (gamma : Qc) (rows : list (Qc * bool * bool)) (mask : list bool) (now next : list Qc) : list (Qc * bool * bool) :=
  map (fun y : Qc * bool * bool * (bool * (Qc * Qc)) => let '((r, a, b), (k, (p, n))) := y in ((r + gamma * (n * b2q k) - p)%Qc, a, b))
    (combine rows (combine mask (combine now next))).

Section Potential.
Context {Ob A B Inf ES : Type}.
Variable phi : Ob -> Qc.
Variable gamma : Qc.
Notation trans := (trans Ob A Inf Qc).

(** What is added to the reward of a step: nothing is added for what comes after a terminal step. *)
Definition bonus (before after : Ob) (term : bool) : Qc := (gamma * (if term then 0 else phi after) - phi before)%Qc.
Definition shape (t : trans) : trans :=
  mkTrans (t_obs t) (t_act t) (t_rew t + bonus (t_obs t) (t_obs_next t) (t_term t))%Qc (t_term t) (t_trunc t) (t_obs_next t) (t_info t).

(** A wrapper that shapes the rewards of an environment; it remembers the last observation. *)
Definition pot_step (estep : nat -> ES -> B -> ES * sres Ob Inf Qc) (e : nat) (s : ES * Ob) (b : B) : (ES * Ob) * sres Ob Inf Qc :=
  let '(s', r) := estep e (fst s) b in
  ((s', r_obs r), mkSres (r_obs r) (r_rew r + bonus (snd s) (r_obs r) (r_term r))%Qc (r_term r) (r_trunc r) (r_info r)).
Definition pot_reset (ereset : nat -> ES -> ES * (Ob * Inf)) (e : nat) (s : ES * Ob) : (ES * Ob) * (Ob * Inf) :=
  let '(s', (ob, i)) := ereset e (fst s) in ((s', ob), (ob, i)).

(** Within an episode a step starts where the one before ended. *)
Fixpoint connected (ts : list trans) : Prop :=
  match ts with
  | t :: ((t' :: _) as rest) => (ends t = false -> t_obs t' = t_obs_next t) /\ connected rest
  | _ => True
  end.
Definition start_value (ts : list trans) : Qc := match ts with t :: _ => phi (t_obs t) | [] => 0%Qc end.
End Potential.
