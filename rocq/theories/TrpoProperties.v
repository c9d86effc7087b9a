(** * Properties C49, C73, C74: TRPO line search, conjugate gradients, flat parameters *)
From Verif Require Import Py Num TrpoModel TrpoProofs.
Open Scope nat_scope.

(** C73 (restricted: non-zero gradient).  For a linear, symmetric, positive definite operator
    the loop never divides by zero; if nsteps is at least the dimension, the result solves
    A x = b up to a squared residual below the tolerance. *)
Theorem C73_cg_partial : forall n A tol b nsteps, linear_op n A -> spd n A -> (0 < tol)%Qc -> length b = n -> (0 < dot b b)%Qc ->
  exists x, conjugate_gradients A tol b nsteps = Ok x /\ length x = n
    /\ (n <= nsteps -> (dot (vsub b (A x)) (vsub b (A x)) < tol)%Qc).
Proof. exact C73_cg_partial_lemma. Qed.
Print Assumptions C73_cg_partial.

(** C73.  With a zero gradient the first division is 0/0: the result is not the solution 0. *)
Theorem C73_zero_gradient_refuted : forall mvp tol b nsteps, (forall a, In a b -> a = 0%Qc) -> 0 < nsteps ->
  conjugate_gradients mvp tol b nsteps = Err ZeroDivisionError.
Proof. exact C73_zero_gradient_refuted_lemma. Qed.
Print Assumptions C73_zero_gradient_refuted.

(** C74.  _set_from_flat_params undoes torch.cat of the flattened parameters, and writes any
    flat vector of the right length so that reading it back gives it, with all shapes kept. *)
Theorem C74_flat_round_trip : forall ps, (forall p, In p ps -> length (p_data p) = fold_right Nat.mul 1 (p_shape p)) ->
  set_from_flat ps (get_flat ps) 0 = Ok ps
  /\ (forall flat, length flat = length (get_flat ps) ->
       exists ps', set_from_flat ps flat 0 = Ok ps' /\ get_flat ps' = flat /\ map p_shape ps' = map p_shape ps).
Proof. exact C74_flat_round_trip_lemma. Qed.
Print Assumptions C74_flat_round_trip.

(** C49 (restricted: one of the tried steps is acceptable, or no step is tried).  The actor gets
    the first acceptable trial, with its step size; without trials it keeps its parameters. *)
Theorem C49_first_acceptable_partial : forall (P : Type) (trial : Qc -> P) kl loss max_kl coeff actor_loss mb actor s,
  (forall k, k < mb -> acceptable kl loss max_kl actor_loss (trial (s * qpow coeff k)%Qc) = true ->
     (forall j, j < k -> acceptable kl loss max_kl actor_loss (trial (s * qpow coeff j)%Qc) = false) ->
     exists v w, kl (trial (s * qpow coeff k)%Qc) = Some v /\ (v < max_kl)%Qc
       /\ loss (trial (s * qpow coeff k)%Qc) = Some w /\ (exists l, actor_loss = Some l /\ (w < l)%Qc)
       /\ line_search trial kl loss max_kl coeff actor_loss mb actor s = (trial (s * qpow coeff k), s * qpow coeff k)%Qc)
  /\ line_search trial kl loss max_kl coeff actor_loss 0 actor s = (actor, s).
Proof. exact C49_first_acceptable_partial_lemma. Qed.
Print Assumptions C49_first_acceptable_partial.

(** C49.  If every trial is rejected, the actor is left with the parameters of the last rejected
    trial although the reported step size is 0. *)
Theorem C49_failed_search_refuted : forall (P : Type) (trial : Qc -> P) kl loss max_kl coeff actor_loss mb actor s, 0 < mb ->
  (forall j, j < mb -> acceptable kl loss max_kl actor_loss (trial (s * qpow coeff j)%Qc) = false) ->
  line_search trial kl loss max_kl coeff actor_loss mb actor s = (trial (s * qpow coeff (mb - 1)), 0)%Qc.
Proof. exact C49_failed_search_refuted_lemma. Qed.
Print Assumptions C49_failed_search_refuted.

(** A symmetric positive definite operator on vectors of length 2. *)
Definition ex_op (u : list Qc) : list Qc :=
  match u with [a; b] => [(a + a + b)%Qc; (a + b + b)%Qc] | _ => u end.
Ltac two u := destruct u as [|? [|? [|? ?]]]; try discriminate.
Example ex_op_ok : linear_op 2 ex_op /\ spd 2 ex_op.
Proof.
  split; [split; [|split]|split].
  - intros u H. two u. reflexivity.
  - intros u v H1 H2. two u. two v. cbn. f_equal; [ring|]. f_equal. ring.
  - intros c u H. two u. cbn. f_equal; [ring|]. f_equal. ring.
  - intros u v H1 H2. two u. two v. cbn. ring.
  - intros u H. two u. cbn. intros G. qcnra.
Qed.
Example C73_ex : match conjugate_gradients ex_op (Q2Qc (1 # 1000)) [1%Qc; Q2Qc 5] 10 with Ok x => map this x | Err _ => [] end = [-1 # 1; 3 # 1]%Q.
Proof. vm_compute. reflexivity. Qed.
Example C73_ex_zero : conjugate_gradients ex_op (Q2Qc (1 # 1000)) [0%Qc; 0%Qc] 10 = Err ZeroDivisionError.
Proof. apply C73_zero_gradient_refuted; [intros a [<-|[<-|[]]]; reflexivity|apply Nat.lt_0_succ]. Qed.
Example C74_ex : match set_from_flat [mkP [2; 1] [0%Qc; 0%Qc]; mkP [] [0%Qc]] [1%Qc; Q2Qc 2; Q2Qc 3] 0 with
  Ok ps => map (fun p => (p_shape p, map this (p_data p))) ps | Err _ => [] end = [([2; 1], [1 # 1; 2 # 1]%Q); ([], [3 # 1]%Q)].
Proof. vm_compute. reflexivity. Qed.
(** kl p = p, loss p = -p: the trials are 4, 2, 1, ...; only values below 3 are in the region. *)
Example C49_ex : let r := line_search (fun s => s) (fun p => Some p) (fun p => Some (- p)%Qc) (Q2Qc 3) (Q2Qc (1 # 2)) (Some 0%Qc) 10 0%Qc (Q2Qc 4) in
  this (fst r) = (2 # 1)%Q /\ this (snd r) = (2 # 1)%Q.
Proof. cbv zeta. split; vm_compute; reflexivity. Qed.
Example C49_ex_failed : let r := line_search (fun s => s) (fun p => Some p) (fun p => Some (- p)%Qc) (Q2Qc 3) (Q2Qc (1 # 2)) (Some 0%Qc) 2 0%Qc (Q2Qc 16) in
  this (fst r) = (8 # 1)%Q /\ this (snd r) = 0%Q.
Proof. cbv zeta. split; vm_compute; reflexivity. Qed.
