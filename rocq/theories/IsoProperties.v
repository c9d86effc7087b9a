(** * Properties C356-C357: NPG and TRPO in other coordinates *)
From Verif Require Import Py Num TatSpec TrpoModel NpgModel NpgSpec IsoSpec IsoProofs.
Import List.
Local Open Scope list_scope.
Local Open Scope nat_scope.

(** C356. The natural gradient direction in other orthonormal coordinates is the same direction in those coordinates, after any number of iterations. *)
Theorem C356_direction : forall (n : nat) (f H H' : list Qc -> list Qc) (g : list Qc) (nsteps : nat), isometry n f ->
  (forall v, length v = n -> length (H v) = n) -> (forall v, length v = n -> H' (f v) = f (H v)) -> length g = n ->
  search_direction H' (f g) nsteps = rmap f (search_direction H g nsteps).
Proof. exact C356_direction_lemma. Qed.
Print Assumptions C356_direction.

(** C356. Learning by NPG in other orthonormal coordinates ends at the same parameters in those coordinates, with the same critic and the same reports. *)
Theorem C356_npg : forall (M C : Type) (n : nat) (f : list Qc -> list Qc) (grad grad' : M -> list Qc -> list Qc) (hess hess' : M -> list Qc -> list Qc -> list Qc)
    (loss loss' : M -> list Qc -> option Qc) (kl kl' : M -> list Qc -> list Qc -> option Qc) (vf : M -> C -> option Qc) (cstep : M -> C -> C) (iters : nat) (step : Qc)
    (batches : list (list M)) (a : list Qc) (c : C), isometry n f -> same_problem n f grad grad' hess hess' loss loss' kl kl' -> length a = n ->
  npg_learn grad' hess' loss' kl' vf cstep iters step batches (f a) c
  = rmap (fun '(a, c, s) => (f a, c, s)) (npg_learn grad hess loss kl vf cstep iters step batches a c).
Proof. exact C356_npg_lemma. Qed.
Print Assumptions C356_npg.

(** C356. So does learning by TRPO, with the same step sizes. *)
Theorem C356_trpo : forall (M C : Type) (n : nat) (f : list Qc -> list Qc) (grad grad' : M -> list Qc -> list Qc) (hess hess' : M -> list Qc -> list Qc -> list Qc)
    (loss loss' : M -> list Qc -> option Qc) (kl kl' : M -> list Qc -> list Qc -> option Qc) (vf : M -> C -> option Qc) (cstep : M -> C -> C) (iters : nat) (sqrt : Qc -> Qc)
    (max_kl coeff : Qc) (mb : nat) (batches : list (list M)) (a : list Qc) (c : C), isometry n f -> same_problem n f grad grad' hess hess' loss loss' kl kl' -> length a = n ->
  trpo_learn grad' hess' loss' kl' vf cstep iters sqrt max_kl coeff mb batches (f a) c
  = rmap (fun '(a, c, s) => (f a, c, s)) (trpo_learn grad hess loss kl vf cstep iters sqrt max_kl coeff mb batches a c).
Proof. exact C356_trpo_lemma. Qed.
Print Assumptions C356_trpo.

(** C356. Reversing the order of the parameters is such a change of coordinates. *)
Theorem C356_backwards : forall (n : nat), isometry n backwards.
Proof. exact C356_backwards_lemma. Qed.
Print Assumptions C356_backwards.

(** C357. If the divergence curves equally in all directions, the search direction is the negative gradient divided by the damped curvature, whatever the number of iterations. *)
Theorem C357_isotropic : forall (H : list Qc -> list Qc) (k : Qc) (g : list Qc) (nsteps : nat), (forall v, length v = length g -> H v = vscale k v) ->
  (0 <= k)%Qc -> (0 < dot g g)%Qc -> 0 < nsteps -> search_direction H g nsteps = Ok (vscale (- / (k + Q2Qc (1 # 10)))%Qc g).
Proof. exact C357_isotropic_lemma. Qed.
Print Assumptions C357_isotropic.

(** C357. Learning by NPG is then plain gradient descent, one step for each minibatch, with the step size divided by the damped curvature. *)
Theorem C357_plain : forall (M C : Type) (grad : M -> list Qc -> list Qc) (hess : M -> list Qc -> list Qc -> list Qc) (loss : M -> list Qc -> option Qc)
    (kl : M -> list Qc -> list Qc -> option Qc) (vf : M -> C -> option Qc) (cstep : M -> C -> C) (iters : nat) (k step : Qc) (n : nat) (batches : list (list M)) (a : list Qc) (c : C),
  (forall m b v, length b = n -> length v = n -> hess m b v = vscale k v) -> (0 <= k)%Qc ->
  (forall m b, length b = n -> length (grad m b) = n /\ (0 < dot (grad m b) (grad m b))%Qc) -> 0 < iters -> length a = n ->
  exists c' s, npg_learn grad hess loss kl vf cstep iters step batches a c
    = Ok (fold_left (descend grad (step / (k + Q2Qc (1 # 10)))%Qc) (concat batches) a, c', s).
Proof. exact C357_plain_lemma. Qed.
Print Assumptions C357_plain.

(** ** Non-vacuity: two parameters and a curvature that differs between them; in the other order. *)
Definition exH (u : list Qc) : list Qc := match u with [a; b] => [(Q2Qc 2 * a + b)%Qc; (a + b)%Qc] | _ => u end.
Definition exH' (u : list Qc) : list Qc := match u with [b; a] => [(a + b)%Qc; (Q2Qc 2 * a + b)%Qc] | _ => u end.
Definition exgrad (m : nat) (a : list Qc) : list Qc := match a with [x; y] => [(x + Q2Qc (inject_Z (Z.of_nat m)))%Qc; (y + x + 1)%Qc] | _ => a end.
Definition exgrad' (m : nat) (a : list Qc) : list Qc := match a with [y; x] => [(y + x + 1)%Qc; (x + Q2Qc (inject_Z (Z.of_nat m)))%Qc] | _ => a end.
Definition exloss (m : nat) (a : list Qc) : option Qc := match a with [x; y] => Some (x - y)%Qc | _ => None end.
Definition exloss' (m : nat) (a : list Qc) : option Qc := match a with [y; x] => Some (x - y)%Qc | _ => None end.
Ltac two u := destruct u as [|? [|? [|? ?]]]; try discriminate.
Example ex_same : same_problem 2 backwards exgrad exgrad' (fun _ _ => exH) (fun _ _ => exH') exloss exloss' (fun _ u v => Some (dot u v)) (fun _ u v => Some (dot u v)).
Proof.
  constructor.
  - intros m a L. two a. reflexivity.
  - intros m a v La Lv. two v. reflexivity.
  - intros m a L. two a. reflexivity.
  - intros m a v La Lv. two v. reflexivity.
  - intros m a L. two a. reflexivity.
  - intros m a b La Lb. f_equal. apply (C356_backwards_lemma 2); assumption.
Qed.
Definition shown (r : res (list Qc)) : list Q := match r with Ok x => map this x | Err _ => [] end.
Example C356_ex_direction : let g := [1%Qc; Q2Qc 3] in
  shown (search_direction exH g 1) = [-(5 # 9); -(5 # 3)]%Q /\ shown (search_direction exH' [Q2Qc 3; 1%Qc] 1) = [-(5 # 3); -(5 # 9)]%Q
  /\ search_direction exH' (backwards g) 10 = rmap backwards (search_direction exH g 10).
Proof.
  split; [vm_compute; reflexivity|]. split; [vm_compute; reflexivity|]. apply (C356_direction_lemma 2); [apply C356_backwards_lemma|intros v L; two v; reflexivity|intros v L; two v; reflexivity|reflexivity].
Qed.
Definition ex_learn {A : Type} (r : res (list Qc * nat * A)) : list Q * nat := match r with Ok (a, c, _) => (map this a, c) | Err _ => ([], 0) end.
Example C356_ex_learn : ex_learn (npg_learn exgrad (fun _ _ => exH) exloss (fun _ u v => Some (dot u v)) (fun _ _ => Some 0%Qc) (fun m c => c + m) 2 (Q2Qc (1 # 10)) [[1]; [3]] [0%Qc; 0%Qc] 0)
    = ([-3253 # 17161; -20 # 17161]%Q, 8)
  /\ ex_learn (npg_learn exgrad' (fun _ _ => exH') exloss' (fun _ u v => Some (dot u v)) (fun _ _ => Some 0%Qc) (fun m c => c + m) 2 (Q2Qc (1 # 10)) [[1]; [3]] [0%Qc; 0%Qc] 0)
    = ([-20 # 17161; -3253 # 17161]%Q, 8).
Proof. split; vm_compute; reflexivity. Qed.
Example C357_ex : shown (search_direction (vscale (Q2Qc (2 # 5))) [1%Qc; Q2Qc (-3)] 10) = [-2 # 1; 6 # 1]%Q.
Proof. vm_compute. reflexivity. Qed.
Example C357_ex_grad : forall (m : nat) (b : list Qc), length b = 1 -> length ((fun (m : nat) (b : list Qc) => map (fun x => (x * x + 1)%Qc) b) m b) = 1
  /\ (0 < dot (map (fun x => (x * x + 1)%Qc) b) (map (fun x => (x * x + 1)%Qc) b))%Qc.
Proof.
  intros m b L. destruct b as [|x [|y b]]; try discriminate. split; [reflexivity|]. cbn [map dot].
  assert (P : (0 <= x * x)%Qc) by apply TrpoProofs.qcsq_nonneg. set (y := (x * x)%Qc) in *. clearbody y. qcnra.
Qed.
Example C357_ex_plain : ex_learn (npg_learn (fun _ b => map (fun x => (x * x + 1)%Qc) b) (fun _ _ => vscale (Q2Qc (2 # 5))) (fun _ _ => None) (fun _ _ _ => None) (fun _ _ => None) (fun m c => c + m) 1 (Q2Qc (1 # 2)) [[5]; [7]] [0%Qc] 0)
  = ([-3 # 1]%Q, 12).
Proof. vm_compute. reflexivity. Qed.
