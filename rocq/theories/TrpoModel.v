(** * Model of the NPG/TRPO update helpers

    [tianshou/policy/modelfree/npg.py] (conjugate gradients, flat parameters) and
    [tianshou/policy/modelfree/trpo.py] (line search).  Numbers are exact rationals; a tensor
    that would contain NaN is an error value or [None] as stated. *)
From Verif Require Export Py Num.
Open Scope nat_scope.

(** ** Vectors *)
Fixpoint vadd (u v : list Qc) : list Qc :=
  match u, v with a :: u, b :: v => (a + b)%Qc :: vadd u v | _, _ => [] end.
Definition vscale (c : Qc) (u : list Qc) : list Qc := map (fun a => (c * a)%Qc) u.
Definition vsub (u v : list Qc) : list Qc := vadd u (vscale (-(1))%Qc v).
Fixpoint dot (u v : list Qc) : Qc :=
  match u, v with a :: u, b :: v => (a * b + dot u v)%Qc | _, _ => 0%Qc end.

(** ** Conjugate gradients (npg.py:193-215)

    [mvp] is [lambda p: self._MVP(p, flat_kl_grad)].  A division by zero makes every entry of
    x NaN (0/0) or infinite; modelled as [Err ZeroDivisionError]. *)
Definition qdiv (a b : Qc) : res Qc := if Qceqb b 0 then Err ZeroDivisionError else Ok (a / b)%Qc.
Section CG.
Variable mvp : list Qc -> list Qc.
Variable tol : Qc.
Fixpoint cg_loop (nsteps : nat) (x r p : list Qc) (rdotr : Qc) : res (list Qc) :=
  match nsteps with
  | O => Ok x
  | S k =>
      let z := mvp p in
      let* alpha := qdiv rdotr (dot p z) in
      let x := vadd x (vscale alpha p) in
      let r := vsub r (vscale alpha z) in
      let new_rdotr := dot r r in
      if Qcltb new_rdotr tol then Ok x
      else
        let* beta := qdiv new_rdotr rdotr in
        cg_loop k x r (vadd r (vscale beta p)) new_rdotr
  end.
Definition conjugate_gradients (b : list Qc) (nsteps : nat) : res (list Qc) :=
  cg_loop nsteps (map (fun _ => 0%Qc) b) b b (dot b b).
End CG.

(** ** Flat parameters: torch.cat of the flattened parameters (trpo.py:143-145) and
    _set_from_flat_params (npg.py:221-227).  A parameter is its shape and its flattened data;
    [view] needs exactly prod(shape) numbers (RuntimeError otherwise). *)
Record param : Type := mkP { p_shape : list nat; p_data : list Qc }.
Definition shape_size (sh : list nat) : nat := fold_left Nat.mul sh 1.
Definition get_flat (ps : list param) : list Qc := concat (map p_data ps).
Fixpoint set_from_flat (ps : list param) (flat : list Qc) (prev_ind : nat) : res (list param) :=
  match ps with
  | [] => Ok []
  | p :: ps =>
      let flat_size := shape_size (p_shape p) in
      let piece := firstn flat_size (skipn prev_ind flat) in
      if length piece =? flat_size then
        let* rest := set_from_flat ps flat (prev_ind + flat_size) in
        Ok (mkP (p_shape p) piece :: rest)
      else Err RuntimeError
  end.

(** ** Line search (trpo.py:142-173)

    [trial s] are the actor parameters set by _set_from_flat_params(flat_params + s *
    search_direction); [kl] and [loss] evaluate the actor holding given parameters ([None] for
    NaN, with which every comparison is false).  The result is the actor's parameters after the
    loop, the reported step size and the last computed kl. *)
Definition olt (a b : option Qc) : bool :=
  match a, b with Some a, Some b => Qcltb a b | _, _ => false end.
Section Search.
Context {P : Type}.
Variable trial : Qc -> P.
Variables kl loss : P -> option Qc.
Variables (max_kl coeff : Qc) (actor_loss : option Qc) (max_backtracks : nat).
Definition acceptable (p : P) : bool := olt (kl p) (Some max_kl) && olt (loss p) actor_loss.
Fixpoint line_loop (n i : nat) (actor : P) (step_size : Qc) : P * Qc :=
  match n with
  | O => (actor, step_size)
  | S n =>
      let actor := trial step_size in
      if acceptable actor then (actor, step_size)
      else if i <? max_backtracks - 1 then line_loop n (i + 1) actor (step_size * coeff)%Qc
      else
        (* self._set_from_flat_params(self.actor, new_flat_params) *)
        line_loop n (i + 1) (trial step_size) 0%Qc
  end.
Definition line_search (actor : P) (step_size : Qc) : P * Qc := line_loop max_backtracks 0 actor step_size.
End Search.
