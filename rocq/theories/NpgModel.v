(** * Model of the learning of NPG and TRPO ([tianshou/policy/modelfree/npg.py], [tianshou/policy/modelfree/trpo.py])

    The actor is the vector of its parameters, which is what is read and written ([TrpoModel.get_flat],
    [TrpoModel.set_from_flat], property C74); the critic is any state with one optimizer step per minibatch.
    Gradients, second derivatives, losses and divergences are arbitrary functions of minibatch and
    parameters ([None] is NaN); numbers are exact. *)
From Verif Require Export Py Num TrpoModel.
Open Scope nat_scope.
Open Scope list_scope.

(** NPGPolicy._MVP (npg.py:186-191): [hess] multiplies with the second derivative of the KL divergence;
    the damping is 0.1 (npg.py:108). *)
Definition damping : Qc := Q2Qc (1 # 10).
Definition MVP (hess : list Qc -> list Qc) (v : list Qc) : list Qc := vadd (hess v) (vscale damping v).
(** search_direction (npg.py:152, trpo.py:132), with residual_tol (npg.py:198). *)
Definition residual_tol : Qc := Q2Qc (1 # 10000000000).
Definition search_direction (hess : list Qc -> list Qc) (g : list Qc) (nsteps : nat) : res (list Qc) :=
  let* x := conjugate_gradients (MVP hess) residual_tol g nsteps in Ok (vscale (-(1))%Qc x).
(** What is under the square root of the step size of TRPO (trpo.py:135-142). *)
Definition step_square (hess : list Qc -> list Qc) (max_kl : Qc) (d : list Qc) : res Qc := qdiv (Q2Qc 2 * max_kl)%Qc (dot d (MVP hess d)).

Section Learn.
Context {M C : Type}.
Variable grad : M -> list Qc -> list Qc.                     (* of actor_loss *)
Variable hess : M -> list Qc -> list Qc -> list Qc.          (* of the KL divergence, times a vector *)
Variable loss : M -> list Qc -> option Qc.
Variable kl : M -> list Qc -> list Qc -> option Qc.          (* of old and new parameters *)
Variable vf : M -> C -> option Qc.
Variable cstep : M -> C -> C.                                (* one step of optim on vf_loss *)
Variable iters : nat.                                        (* optim_critic_iters *)

(** optimize critic (npg.py:164-170, trpo.py:177-182); [last] is vf_loss, unbound before the first step. *)
Fixpoint critic_loop (n : nat) (m : M) (c : C) (last : option (option Qc)) : C * option (option Qc) :=
  match n with O => (c, last) | S n => critic_loop n m (cstep m c) (Some (vf m c)) end.

Record npg_stats := mkNS { ns_actor : list (option Qc); ns_vf : list (option Qc); ns_kl : list (option Qc) }.
(** One minibatch of NPGPolicy.learn (npg.py:136-174).  Reading vf_loss unbound raises UnboundLocalError, here
    RuntimeError. *)
Definition npg_minibatch (step : Qc) (st : list Qc * C * option (option Qc) * npg_stats) (m : M) : res (list Qc * C * option (option Qc) * npg_stats) :=
  let '(a, c, last, s) := st in
  let* d := search_direction (hess m a) (grad m a) 10 in
  let a' := vadd a (vscale step d) in
  let '(c', last') := critic_loop iters m c last in
  match last' with
  | None => Err RuntimeError
  | Some v => Ok (a', c', last', mkNS (ns_actor s ++ [loss m a]) (ns_vf s ++ [v]) (ns_kl s ++ [kl m a a']))
  end.
(** NPGPolicy.learn (npg.py:126-184): [batches] are the minibatches of each repetition. *)
Definition npg_learn (step : Qc) (batches : list (list M)) (a : list Qc) (c : C) : res (list Qc * C * npg_stats) :=
  let* st := foldM (npg_minibatch step) (concat batches) (a, c, None, mkNS [] [] []) in
  let '(a, c, _, s) := st in Ok (a, c, s).

(** TRPOPolicy.learn (trpo.py:106-199); [sqrt] is the square root.  If line_search tried nothing, kl is that of the
    unchanged actor. *)
Variable sqrt : Qc -> Qc.
Variables (max_kl coeff : Qc) (max_backtracks : nat).
Record trpo_stats := mkTS { ts_actor : list (option Qc); ts_vf : list (option Qc); ts_step : list Qc; ts_kl : list (option Qc) }.
Definition trpo_minibatch (st : list Qc * C * option (option Qc) * trpo_stats) (m : M) : res (list Qc * C * option (option Qc) * trpo_stats) :=
  let '(a, c, last, s) := st in
  let* d := search_direction (hess m a) (grad m a) 10 in
  let* q := step_square (hess m a) max_kl d in
  let '(a', size) := line_search (fun t => vadd a (vscale t d)) (kl m a) (loss m) max_kl coeff (loss m a) max_backtracks a (sqrt q) in
  let '(c', last') := critic_loop iters m c last in
  match last' with
  | None => Err RuntimeError
  | Some v => Ok (a', c', last', mkTS (ts_actor s ++ [loss m a]) (ts_vf s ++ [v]) (ts_step s ++ [size]) (ts_kl s ++ [kl m a a']))
  end.
Definition trpo_learn (batches : list (list M)) (a : list Qc) (c : C) : res (list Qc * C * trpo_stats) :=
  let* st := foldM trpo_minibatch (concat batches) (a, c, None, mkTS [] [] [] []) in
  let '(a, c, _, s) := st in Ok (a, c, s).
End Learn.
