(** * Properties C50, C75-C77: PSRL *)
From Verif Require Import Py Num PsrlModel PsrlProofs.
From Coq Require Import Permutation.
Open Scope nat_scope.

(** C50.  After any sequence of learn calls on batches with valid indices, each in any shuffled
    order: the transition counts are the prior plus the observed counts (plus the self-loops for
    finished steps), the reward count is epsilon plus the number of observations, and the reward
    mean is the epsilon-weighted average of the prior mean and all observed rewards (a self-loop
    counting as reward 0). *)
Theorem C50_posterior : forall fe loop h addr ns na mean0 var0 eps batches shuffled, (0 < eps)%Qc ->
  Forall2 (@Permutation row) batches shuffled -> (forall b w, In b batches -> In w b -> in_bounds ns na w) ->
  exists h' m, foldM (learn fe loop) shuffled (h, psrl_init addr ns na mean0 var0 eps) = Ok (h', m)
    /\ let all := concat batches in
    (forall s a s', h' (ps_trans m) s a s' = (h addr s a s' + qn (length (filter (fun w => at_sa s a w && (w_next w =? s')%nat) all))
        + if s =? s' then qn (length (filter (loops_at loop s) all)) else 0)%Qc)
    /\ (forall s a, ps_count m s a = (eps + (qn (length (filter (at_sa s a) all)) + qn (length (filter (loops_at loop s) all))))%Qc)
    /\ (forall s a, ps_mean m s a = ((eps * mean0 s a + qsum (map w_rew (filter (at_sa s a) all)))
        / (eps + (qn (length (filter (at_sa s a) all)) + qn (length (filter (loops_at loop s) all)))))%Qc).
Proof. exact C50_posterior_lemma. Qed.
Print Assumptions C50_posterior.

(** C75.  Learning changes the prior array passed to the constructor: a second model built from
    the same array starts from the first model's counts. *)
Theorem C75_prior_modified_refuted : exists (h h' : store) m, let prior := h 7 in
  learn 0 false (h, psrl_init 7 2 1 (fun _ _ => 0%Qc) (fun _ _ => 1%Qc) 1) [mkRow 0 0 1 1 false] = Ok (h', m)
  /\ let m2 := psrl_init 7 2 1 (fun _ _ => 0%Qc) (fun _ _ => 1%Qc) 1 in
     h' (ps_trans m2) 0 0 1 = (prior 0%nat 0%nat 1%nat + 1)%Qc /\ h' (ps_trans m2) 0 0 1 <> prior 0 0 1.
Proof. exact C75_prior_modified_refuted_lemma. Qed.
Print Assumptions C75_prior_modified_refuted.

(** C75 (restricted).  Only that array is changed, and only by counts that are added: models built
    from different arrays do not influence each other. *)
Theorem C75_other_arrays_partial : forall fe loop batches h m h' m' x, (0 < ps_eps m)%Qc ->
  (forall b w, In b batches -> In w b -> in_bounds (ps_ns m) (ps_na m) w) -> (forall s a, ps_count m s a = ps_eps m) ->
  foldM (learn fe loop) batches (h, m) = Ok (h', m') ->
  (x <> ps_trans m -> forall s a s', h' x s a s' = h x s a s') /\ (forall s a s', (h x s a s' <= h' x s a s')%Qc).
Proof. exact C75_other_arrays_partial_lemma. Qed.
Print Assumptions C75_other_arrays_partial.

(** C76.  The reward deviation of a pair without observations does not stay at its prior: after
    learning about another pair, the square root is taken of a negative number here. *)
Theorem C76_unobserved_variance_refuted : exists h h' m fe mean0 eps,
  learn fe false (h, psrl_init 0 2 1 (fun _ _ => mean0) (fun _ _ => 1%Qc) eps) [mkRow 0 0 1 1 false] = Ok (h', m)
  /\ (0 < fe)%Qc /\ (fe < mean0)%Qc /\ (mean0 < 1)%Qc /\ (0 < eps)%Qc
  /\ ps_count m 1 0 = eps /\ (ps_var m 1%nat 0%nat < 0)%Qc.
Proof. exact C76_unobserved_variance_refuted_lemma. Qed.
Print Assumptions C76_unobserved_variance_refuted.

(** C76 (restricted to counts, mean and squares).  A pair without observations keeps them. *)
Theorem C76_unobserved_partial : forall fe loop batches h m s a, (0 < ps_eps m)%Qc ->
  (forall b w, In b batches -> In w b -> in_bounds (ps_ns m) (ps_na m) w) -> (forall s a, ps_count m s a = ps_eps m) ->
  (forall b w, In b batches -> In w b -> at_sa s a w = false /\ loops_at loop s w = false) ->
  exists h' m', foldM (learn fe loop) batches (h, m) = Ok (h', m')
    /\ ps_count m' s a = ps_count m s a /\ ps_mean m' s a = ps_mean m s a /\ ps_sq m' s a = ps_sq m s a
    /\ (forall s', h' (ps_trans m') s a s' = h (ps_trans m) s a s').
Proof. exact C76_unobserved_partial_lemma. Qed.
Print Assumptions C76_unobserved_partial.

(** C77 (restricted to discount < 1).  On every finite MDP value iteration terminates; the
    returned value is one application of the optimality operator to a previous value that is
    close to it, hence within gamma / (1 - gamma) * delta of every fixed point (delta bounding
    the last change), and the policy maximises Q plus the tie-breaking noise. *)
Theorem C77_value_iteration_partial : forall n P rew g atol eps value noise, mdp n P rew -> (0 <= g)%Qc -> (g < 1)%Qc -> (0 < atol)%Qc -> (0 <= eps)%Qc ->
  length value = n -> Forall2 (fun rs ns => length rs = length ns) rew noise ->
  exists fuel prev policy v, value_iteration fuel P rew g atol eps value noise = Ok (policy, v)
    /\ length prev = n /\ bellman P rew g prev = Ok v /\ allclose atol eps v prev = true
    /\ (forall delta best, near delta v prev -> (0 <= delta)%Qc -> bellman P rew g best = Ok best -> length best = n ->
          Forall2 (fun x y => ((x - y) * (1 - g) <= g * delta)%Qc /\ ((y - x) * (1 - g) <= g * delta)%Qc) v best)
    /\ length policy = n
    /\ (forall s a qs ns, nth_error policy s = Some a -> nth_error (q_table P rew g prev) s = Some qs -> nth_error noise s = Some ns ->
          exists q y, nth_error qs a = Some q /\ nth_error ns a = Some y
            /\ forall a' q' y', nth_error qs a' = Some q' -> nth_error ns a' = Some y' -> (q' + eps * y' <= q + eps * y)%Qc).
Proof. exact C77_value_iteration_partial_lemma. Qed.
Print Assumptions C77_value_iteration_partial.

(** C77.  With discount 1 (accepted by PSRLPolicy) the loop need not terminate: two states that
    swap with rewards 1 and -1. *)
Theorem C77_discount_one_refuted : exists P rew noise, mdp 2 P rew
  /\ forall fuel, value_iteration fuel P rew 1 (Q2Qc (1 # 100000000)) (Q2Qc (1 # 100)) [0%Qc; 0%Qc] noise = Err OutOfFuel.
Proof. exact C77_discount_one_refuted_lemma. Qed.
Print Assumptions C77_discount_one_refuted.

Definition ex_rows := [mkRow 0 0 1 1 false; mkRow 0 0 1 (Q2Qc 3) true].
Example C50_ex : match foldM (learn 0 true) [ex_rows] ((fun _ _ _ _ => 1%Qc), psrl_init 4 2 1 (fun _ _ => 0%Qc) (fun _ _ => 1%Qc) 1) with
  | Ok (h, m) => [this (h 4 0 0 1); this (h 4 1 0 1); this (h 4 1 0 0); this (ps_count m 0 0); this (ps_mean m 0 0); this (ps_count m 1 0)]
  | Err _ => [] end = [3 # 1; 2 # 1; 1 # 1; 3 # 1; 4 # 3; 2 # 1]%Q.
Proof. vm_compute. reflexivity. Qed.
Example C50_ex_hyp : Forall2 (@Permutation row) [ex_rows] [rev ex_rows] /\ (forall b w, In b [ex_rows] -> In w b -> in_bounds 2 1 w).
Proof.
  split; [constructor; [apply Permutation_rev|constructor]|]. intros b w [<-|[]] [<-|[<-|[]]]; repeat split; repeat constructor.
Qed.
Definition ex_P := [[[0%Qc; 1%Qc]; [1%Qc; 0%Qc]]; [[0%Qc; 1%Qc]; [0%Qc; 1%Qc]]].
Definition ex_rew := [[1%Qc; 1%Qc]; [1%Qc; Q2Qc 2]].
Example C77_ex : match value_iteration 40 ex_P ex_rew (Q2Qc (1 # 2)) (Q2Qc (1 # 1000)) 0 [0%Qc; 0%Qc] [[0%Qc; 0%Qc]; [0%Qc; 0%Qc]] with
  | Ok (policy, v) => policy | Err _ => [] end = [0; 1].
Proof. vm_compute. reflexivity. Qed.
Example C77_ex_mdp : mdp 2 ex_P ex_rew.
Proof.
  split; [reflexivity|]. repeat constructor; try discriminate; cbn in *;
    repeat match goal with H : _ \/ _ |- _ => destruct H as [<-|H] | H : False |- _ => destruct H end; try reflexivity; try (apply Qc_is_canon; vm_compute; reflexivity);
    intros x [<-|[<-|[]]]; vm_compute; discriminate.
Qed.
