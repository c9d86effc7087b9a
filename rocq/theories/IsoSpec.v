(** * Notions for the learning of NPG and TRPO in other coordinates *)
From Verif Require Import Py Num NpgModel.
Open Scope nat_scope.

(** A change of orthonormal coordinates of vectors of length [n]: linear, and keeping inner products. *)
Definition isometry (n : nat) (f : list Qc -> list Qc) : Prop :=
  (forall u, length u = n -> length (f u) = n)
  /\ (forall u v, length u = n -> length v = n -> f (vadd u v) = vadd (f u) (f v))
  /\ (forall c u, length u = n -> f (vscale c u) = vscale c (f u))
  /\ (forall u v, length u = n -> length v = n -> dot (f u) (f v) = dot u v).
(** A problem and the same problem written in other coordinates: gradient, curvature, loss and divergence. *)
Record same_problem {M : Type} (n : nat) (f : list Qc -> list Qc)
  (grad grad' : M -> list Qc -> list Qc) (hess hess' : M -> list Qc -> list Qc -> list Qc) (loss loss' : M -> list Qc -> option Qc)
  (kl kl' : M -> list Qc -> list Qc -> option Qc) : Prop := {
  sp_len : forall m a, length a = n -> length (grad m a) = n;
  sp_hlen : forall m a v, length a = n -> length v = n -> length (hess m a v) = n;
  sp_grad : forall m a, length a = n -> grad' m (f a) = f (grad m a);
  sp_hess : forall m a v, length a = n -> length v = n -> hess' m (f a) (f v) = f (hess m a v);
  sp_loss : forall m a, length a = n -> loss' m (f a) = loss m a;
  sp_kl : forall m a b, length a = n -> length b = n -> kl' m (f a) (f b) = kl m a b }.
(** One step of plain gradient descent. *)
Definition descend {M : Type} (grad : M -> list Qc -> list Qc) (lr : Qc) (a : list Qc) (m : M) : list Qc := vadd a (vscale (- lr)%Qc (grad m a)).
(** The order of the parameters reversed. *)
Definition backwards (u : list Qc) : list Qc := rev u.
