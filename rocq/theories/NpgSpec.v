(** * Notions for the learning of NPG and TRPO *)
From Verif Require Import Py Num NpgModel.
Open Scope nat_scope.

(** Linear, symmetric and positive semidefinite on vectors of length [n], as second derivatives at a minimum are. *)
Definition semidefinite (n : nat) (H : list Qc -> list Qc) : Prop :=
  (forall u, length u = n -> length (H u) = n)
  /\ (forall u v, length u = n -> length v = n -> H (vadd u v) = vadd (H u) (H v))
  /\ (forall c u, length u = n -> H (vscale c u) = vscale c (H u))
  /\ (forall u v, length u = n -> length v = n -> dot u (H v) = dot (H u) v)
  /\ (forall u, length u = n -> (0 <= dot u (H u))%Qc).
(** The quadratic model of the loss: [x] is subtracted from the parameters, the divergence is damped. *)
Definition model (H : list Qc -> list Qc) (g x : list Qc) : Qc :=
  (Q2Qc (1 # 2) * (dot x (H x) + Q2Qc (1 # 10) * dot x x) - dot g x)%Qc.

Section Paths.
Context {M : Type}.
Variables (grad : M -> list Qc -> list Qc) (hess : M -> list Qc -> list Qc -> list Qc).
(** The actor makes one natural gradient step of the given size for every minibatch, each at the parameters it then has. *)
Inductive npg_path (step : Qc) : list M -> list Qc -> list Qc -> Prop :=
| NP_nil : forall a, npg_path step [] a a
| NP_cons : forall m ms a d a', search_direction (hess m a) (grad m a) 10 = Ok d ->
    npg_path step ms (vadd a (vscale step d)) a' -> npg_path step (m :: ms) a a'.
Variables (loss : M -> list Qc -> option Qc) (kl : M -> list Qc -> list Qc -> option Qc) (max_kl : Qc).
(** For every minibatch a step size and a divergence are reported; a size other than 0 is that of a step along the
    search direction to parameters of smaller loss within the trust region. *)
Inductive trpo_path : list M -> list Qc -> list Qc -> list Qc -> list (option Qc) -> Prop :=
| TP_nil : forall a, trpo_path [] a a [] []
| TP_cons : forall m ms a d a1 a' s k ss ks, search_direction (hess m a) (grad m a) 10 = Ok d ->
    k = kl m a a1 ->
    (s <> 0%Qc -> a1 = vadd a (vscale s d) /\ (exists v, k = Some v /\ (v < max_kl)%Qc)
       /\ exists l0 l1, loss m a = Some l0 /\ loss m a1 = Some l1 /\ (l1 < l0)%Qc) ->
    trpo_path ms a1 a' ss ks -> trpo_path (m :: ms) a a' (s :: ss) (k :: ks).
End Paths.
(** [k] optimizer steps for every minibatch, in order. *)
Definition critic_after {M C : Type} (cstep : M -> C -> C) (k : nat) (ms : list M) (c : C) : C :=
  fold_left (fun c m => Nat.iter k (cstep m) c) ms c.
(** The reports of two runs, one after the other. *)
Definition npg_both (s t : npg_stats) : npg_stats := mkNS (ns_actor s ++ ns_actor t) (ns_vf s ++ ns_vf t) (ns_kl s ++ ns_kl t).
Definition trpo_both (s t : trpo_stats) : trpo_stats := mkTS (ts_actor s ++ ts_actor t) (ts_vf s ++ ts_vf t) (ts_step s ++ ts_step t) (ts_kl s ++ ts_kl t).
