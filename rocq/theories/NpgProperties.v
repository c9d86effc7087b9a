(** * Properties C296-C300: learning of NPG and TRPO *)
From Verif Require Import Py Num TrpoModel NpgModel NpgSpec NpgProofs.
Import List.
Local Open Scope list_scope.
Local Open Scope nat_scope.

(** C296. For every positive semidefinite Hessian of the divergence and every non-zero gradient the search direction exists, and after any positive number of iterations it is a direction of descent, of a slope at least that of the best step along the gradient. *)
Theorem C296_descent : forall (n : nat) (H : list Qc -> list Qc) (g : list Qc) (nsteps : nat), semidefinite n H -> length g = n -> (0 < dot g g)%Qc -> 0 < nsteps ->
  exists d, search_direction H g nsteps = Ok d /\ length d = n /\ (dot g d < 0)%Qc
    /\ (dot g d * (dot g (H g) + Q2Qc (1 # 10) * dot g g) <= - (dot g g * dot g g))%Qc.
Proof. exact C296_descent_lemma. Qed.
Print Assumptions C296_descent.

(** C297. More iterations of conjugate gradients never make the quadratic model of the loss worse. *)
Theorem C297_iterations : forall (n : nat) (H : list Qc -> list Qc) (g : list Qc) (k1 k2 : nat), semidefinite n H -> length g = n -> (0 < dot g g)%Qc -> k1 <= k2 ->
  exists x1 x2, search_direction H g k1 = Ok (vscale (-(1))%Qc x1) /\ search_direction H g k2 = Ok (vscale (-(1))%Qc x2) /\ length x1 = n /\ length x2 = n
    /\ (model H g x2 <= model H g x1)%Qc /\ (0 < k1 -> (model H g x1 < 0)%Qc).
Proof. exact C297_iterations_lemma. Qed.
Print Assumptions C297_iterations.

(** C298. The number under the square root of the step size of TRPO is defined, and steps along the search direction keep the damped second order divergence within max_kl exactly up to its root, and then the undamped one strictly below. *)
Theorem C298_trust : forall (n : nat) (H : list Qc -> list Qc) (g d : list Qc) (nsteps : nat) (max_kl : Qc), semidefinite n H -> length g = n -> (0 < dot g g)%Qc -> 0 < nsteps -> (0 < max_kl)%Qc ->
  search_direction H g nsteps = Ok d ->
  exists q, step_square H max_kl d = Ok q /\ (0 < q)%Qc
    /\ (forall s, (Q2Qc (1 # 2) * (s * s) * (dot d (H d) + Q2Qc (1 # 10) * dot d d) <= max_kl)%Qc <-> (s * s <= q)%Qc)
    /\ (forall s, (s * s <= q)%Qc -> (Q2Qc (1 # 2) * (s * s) * dot d (H d) < max_kl)%Qc).
Proof. exact C298_trust_lemma. Qed.
Print Assumptions C298_trust.

(** C299. NPG makes one natural gradient step of the actor for every minibatch of every repetition, each at the current parameters, and optim_critic_iters steps of the critic, and reports three numbers for each. *)
Theorem C299_npg : forall (M C : Type) (grad : M -> list Qc -> list Qc) (hess : M -> list Qc -> list Qc -> list Qc) (loss : M -> list Qc -> option Qc)
    (kl : M -> list Qc -> list Qc -> option Qc) (vf : M -> C -> option Qc) (cstep : M -> C -> C) (iters : nat) (step : Qc) (batches : list (list M))
    (a a' : list Qc) (c c' : C) (s : npg_stats),
  npg_learn grad hess loss kl vf cstep iters step batches a c = Ok (a', c', s) ->
  npg_path grad hess step (concat batches) a a' /\ c' = critic_after cstep iters (concat batches) c
  /\ length (ns_actor s) = length (concat batches) /\ length (ns_vf s) = length (concat batches) /\ length (ns_kl s) = length (concat batches).
Proof. exact C299_npg_lemma. Qed.
Print Assumptions C299_npg.

(** C299. For a minibatch it reports the surrogate loss at the old parameters, the loss of the critic before the last of its steps and the divergence of the new actor from the old. *)
Theorem C299_reports : forall (M C : Type) (grad : M -> list Qc -> list Qc) (hess : M -> list Qc -> list Qc -> list Qc) (loss : M -> list Qc -> option Qc)
    (kl : M -> list Qc -> list Qc -> option Qc) (vf : M -> C -> option Qc) (cstep : M -> C -> C) (iters : nat) (step : Qc) (m : M)
    (a a' : list Qc) (c c' : C) (s : npg_stats),
  npg_learn grad hess loss kl vf cstep iters step [[m]] a c = Ok (a', c', s) ->
  ns_actor s = [loss m a] /\ ns_kl s = [kl m a a'] /\ ns_vf s = [vf m (Nat.iter (iters - 1) (cstep m) c)].
Proof. exact C299_reports_lemma. Qed.
Print Assumptions C299_reports.

(** C299. Learning from more minibatches is learning from the first and then from the rest, reports included. *)
Theorem C299_compose : forall (M C : Type) (grad : M -> list Qc -> list Qc) (hess : M -> list Qc -> list Qc -> list Qc) (loss : M -> list Qc -> option Qc)
    (kl : M -> list Qc -> list Qc -> option Qc) (vf : M -> C -> option Qc) (cstep : M -> C -> C) (iters : nat) (step : Qc) (bs bs' : list (list M)) (a : list Qc) (c : C), 0 < iters ->
  npg_learn grad hess loss kl vf cstep iters step (bs ++ bs') a c =
  let* r := npg_learn grad hess loss kl vf cstep iters step bs a c in
  let '(a1, c1, s1) := r in
  let* r' := npg_learn grad hess loss kl vf cstep iters step bs' a1 c1 in
  let '(a2, c2, s2) := r' in Ok (a2, c2, npg_both s1 s2).
Proof. exact C299_compose_lemma. Qed.
Print Assumptions C299_compose.

(** C299. With gradients that do not vanish and a positive optim_critic_iters it succeeds. *)
Theorem C299_succeeds : forall (M C : Type) (grad : M -> list Qc -> list Qc) (hess : M -> list Qc -> list Qc -> list Qc) (loss : M -> list Qc -> option Qc)
    (kl : M -> list Qc -> list Qc -> option Qc) (vf : M -> C -> option Qc) (cstep : M -> C -> C) (iters : nat) (step : Qc) (batches : list (list M)) (n : nat) (a : list Qc) (c : C),
  (forall m b, length b = n -> semidefinite n (hess m b) /\ length (grad m b) = n /\ (0 < dot (grad m b) (grad m b))%Qc) -> 0 < iters -> length a = n ->
  is_ok (npg_learn grad hess loss kl vf cstep iters step batches a c) = true.
Proof. exact C299_succeeds_lemma. Qed.
Print Assumptions C299_succeeds.

(** C299. With optim_critic_iters 0 it raises for any data. *)
Theorem C299_zero : forall (M C : Type) (grad : M -> list Qc -> list Qc) (hess : M -> list Qc -> list Qc -> list Qc) (loss : M -> list Qc -> option Qc)
    (kl : M -> list Qc -> list Qc -> option Qc) (vf : M -> C -> option Qc) (cstep : M -> C -> C) (step : Qc) (batches : list (list M)) (a : list Qc) (c : C),
  concat batches <> [] -> is_ok (npg_learn grad hess loss kl vf cstep 0 step batches a c) = false.
Proof. exact C299_zero_lemma. Qed.
Print Assumptions C299_zero.

(** C300. A step size other than 0 reported by TRPO is that of a step along the search direction to parameters with smaller surrogate loss within the trust region. *)
Theorem C300_certified : forall (M C : Type) (grad : M -> list Qc -> list Qc) (hess : M -> list Qc -> list Qc -> list Qc) (loss : M -> list Qc -> option Qc)
    (kl : M -> list Qc -> list Qc -> option Qc) (vf : M -> C -> option Qc) (cstep : M -> C -> C) (iters : nat) (sqrt : Qc -> Qc) (max_kl coeff : Qc) (mb : nat)
    (batches : list (list M)) (a a' : list Qc) (c c' : C) (s : trpo_stats), 0 < mb ->
  trpo_learn grad hess loss kl vf cstep iters sqrt max_kl coeff mb batches a c = Ok (a', c', s) ->
  trpo_path grad hess loss kl max_kl (concat batches) a a' (ts_step s) (ts_kl s) /\ c' = critic_after cstep iters (concat batches) c
  /\ length (ts_actor s) = length (concat batches) /\ length (ts_vf s) = length (concat batches).
Proof. exact C300_certified_lemma. Qed.
Print Assumptions C300_certified.

(** C300. Learning from more minibatches is learning from the first and then from the rest, reports included. *)
Theorem C300_compose : forall (M C : Type) (grad : M -> list Qc -> list Qc) (hess : M -> list Qc -> list Qc -> list Qc) (loss : M -> list Qc -> option Qc)
    (kl : M -> list Qc -> list Qc -> option Qc) (vf : M -> C -> option Qc) (cstep : M -> C -> C) (iters : nat) (sqrt : Qc -> Qc) (max_kl coeff : Qc) (mb : nat) (bs bs' : list (list M)) (a : list Qc) (c : C), 0 < iters ->
  trpo_learn grad hess loss kl vf cstep iters sqrt max_kl coeff mb (bs ++ bs') a c =
  let* r := trpo_learn grad hess loss kl vf cstep iters sqrt max_kl coeff mb bs a c in
  let '(a1, c1, s1) := r in
  let* r' := trpo_learn grad hess loss kl vf cstep iters sqrt max_kl coeff mb bs' a1 c1 in
  let '(a2, c2, s2) := r' in Ok (a2, c2, trpo_both s1 s2).
Proof. exact C300_compose_lemma. Qed.
Print Assumptions C300_compose.

(** ** Non-vacuity: a singular Hessian in two dimensions. *)
Definition exH (u : list Qc) : list Qc := match u with [a; b] => [(a + b)%Qc; (a + b)%Qc] | _ => u end.
Definition exg : list Qc := [1%Qc; Q2Qc 5].
Ltac two u := destruct u as [|? [|? [|? ?]]]; try discriminate.
Example exH_ok : semidefinite 2 exH.
Proof.
  unfold semidefinite. split; [|split; [|split; [|split]]].
  - intros u H. two u. reflexivity.
  - intros u v H1 H2. two u. two v. cbn. f_equal; [ring|]. f_equal. ring.
  - intros c u H. two u. cbn. f_equal; [ring|]. f_equal. ring.
  - intros u v H1 H2. two u. two v. cbn. ring.
  - intros u H. two u. cbn [dot exH]. match goal with |- (0 <= ?x)%Qc => replace x with ((q + q0) * (q + q0))%Qc by ring end. apply TrpoProofs.qcsq_nonneg.
Qed.
Definition shown (r : res (list Qc)) : list Q := match r with Ok x => map this x | Err _ => [] end.
Example C296_ex : shown (search_direction exH exg 1) = [-(130 # 193); -(650 # 193)]%Q /\ shown (search_direction exH exg 10) = [130 # 7; -(150 # 7)]%Q.
Proof. split; vm_compute; reflexivity. Qed.
Example C296_ex_descent : (dot exg [Q2Qc (130 # 7); Q2Qc (-(150 # 7))] < 0)%Qc.
Proof. vm_compute. reflexivity. Qed.
Example C297_ex : map (fun k => match search_direction exH exg k with Ok d => this (model exH exg (vscale (-(1))%Qc d)) | Err _ => 0%Q end) [1; 2; 10]
  = [-(1690 # 193); -(310 # 7); -(310 # 7)]%Q.
Proof. vm_compute. reflexivity. Qed.
Example C298_ex : match search_direction exH exg 10 with Ok d => match step_square exH (Q2Qc (1 # 100)) d with Ok q => (0 < q)%Qc | Err _ => False end | Err _ => False end.
Proof. vm_compute. reflexivity. Qed.
(** Minibatches are numbers, the critic counts its steps. *)
Definition exgrad (m : nat) (a : list Qc) : list Qc := [Q2Qc (inject_Z (Z.of_nat m)); 1%Qc].
Definition ex_learn (iters : nat) := npg_learn exgrad (fun _ _ => exH) (fun _ _ => Some 0%Qc) (fun _ _ _ => None) (fun _ c => Some (Q2Qc (inject_Z (Z.of_nat c)))) (fun m c => c + m) iters 1%Qc [[1; 2]; [3]] [0%Qc; 0%Qc] 0.
Example C299_ex : match ex_learn 2 with Ok (a, c, s) => c = 12 /\ length (ns_vf s) = 3 | Err _ => False end /\ ex_learn 0 = Err RuntimeError.
Proof. split; [vm_compute; split; reflexivity|vm_compute; reflexivity]. Qed.
Example C299_ex_grad : forall m b, length b = 2 -> semidefinite 2 ((fun _ _ : list Qc => exH) b b) /\ length (exgrad m b) = 2 /\ (0 < dot (exgrad m b) (exgrad m b))%Qc.
Proof.
  intros m b _. split; [apply exH_ok|]. split; [reflexivity|]. cbn. set (x := Q2Qc _). clearbody x. qcnra.
Qed.
(** The first step is rejected once and then accepted; then the search fails. *)
Definition ex_trpo := trpo_learn exgrad (fun _ _ => exH) (fun m a => if m =? 1 then match a with x :: _ => Some x | _ => None end else Some 0%Qc)
  (fun _ _ b => match b with x :: _ => Some (- x)%Qc | _ => None end) (fun _ c => Some 0%Qc) (fun m c => c + m) 1 (fun _ => 1%Qc) (Q2Qc (1 # 3)) (Q2Qc (1 # 2)) 3 [[1; 2]] [0%Qc; 0%Qc] 0.
Example C300_ex : match ex_trpo with Ok (a, c, s) => map this (ts_step s) = [1 # 2; 0 # 1]%Q /\ c = 3 | Err _ => False end.
Proof. vm_compute. split; reflexivity. Qed.
Example C299_ex_reports : let run bs a c := npg_learn exgrad (fun _ _ => exH) (fun m a => Some (Q2Qc (inject_Z (Z.of_nat m)))) (fun _ a b => Some (dot a b)) (fun _ c => Some (Q2Qc (inject_Z (Z.of_nat c)))) (fun m c => c + m) 3 1%Qc bs a c in
  match run [[2]; [3]] [0%Qc; 0%Qc] 0 with Ok (_, c, s) => c = 15 /\ map (option_map this) (ns_vf s) = [Some (4 # 1); Some (12 # 1)]%Q | Err _ => False end
  /\ match run [[2]] [0%Qc; 0%Qc] 0 with Ok (a, c, s) => c = 6 /\ map (option_map this) (ns_vf s) = [Some (4 # 1)]%Q /\ is_ok (run [[3]] a c) = true | Err _ => False end.
Proof. split; vm_compute; repeat split; reflexivity. Qed.
