(** * Property C379: asynchronous steps of RayVectorEnv *)
From Verif Require Import Py RayModel ArayModel AraySpec ArayProofs.
Open Scope nat_scope.

(** C379.  After any steps, an environment is waiting or ready, never both; waiting_conn and waiting_id go together. *)
Theorem C379_partition : forall (timed : bool) (num n : nat) (v : av), a_reach timed num n v ->
  a_conn v = a_wait v /\ Permutation (a_wait v ++ a_ready v) (seq 0 n) /\ NoDup (map (a_handle v) (a_wait v)).
Proof. exact C379_partition_lemma. Qed.
Print Assumptions C379_partition.

(** C379.  With at least wait_num environments waiting, a step of ready ones either keeps waiting or
    returns the first wait_num of the waiting environments whose results are there, each with the
    result of the action it was sent last; these become ready and the others go on waiting.  Without
    a timeout there are exactly wait_num of them. *)
Theorem C379_step_partial : forall (timed : bool) (num n : nat) (v : av) (ids : list nat) (rounds : list (nat -> bool)),
  a_reach timed num n v -> NoDup ids -> (forall i, In i ids -> In i (a_ready v)) ->
  1 <= num -> num <= length (a_wait v) + length ids ->
  let s := send_all v ids in
  let '(r, w) := a_step timed num v (Some ids) rounds in
  match r with
  | Ok out => let got := map fst out in
      (exists ready, In ready rounds /\ got = firstn num (filter (fun i => ready (a_handle s i)) (a_wait v ++ ids))) /\
      got <> [] /\ (timed = false -> length got = num) /\ out = map (fun i => (i, a_handle s i)) got /\
      a_wait w = filter (fun i => negb (mem i got)) (a_wait v ++ ids) /\
      a_ready w = filter (fun i => negb (mem i ids)) (a_ready v) ++ got
  | Err e => e = OutOfFuel
  end.
Proof. exact C379_step_partial_lemma. Qed.
Print Assumptions C379_step_partial.

(** C379.  With fewer waiting than wait_num the step raises a ValueError, whatever is ready, after the actions
    have been sent: the environments now count as waiting. *)
Theorem C379_fewer_refuted : forall (timed : bool) (num n : nat) (v : av) (ids : list nat) (rounds : list (nat -> bool)),
  a_reach timed num n v -> NoDup ids -> (forall i, In i ids -> In i (a_ready v)) -> rounds <> [] ->
  length (a_wait v) + length ids < num ->
  exists w, a_step timed num v (Some ids) rounds = (Err ValueError, w) /\ a_wait w = a_wait v ++ ids /\
            a_step timed num w None rounds = (Err ValueError, w).
Proof. exact C379_fewer_refuted_lemma. Qed.
Print Assumptions C379_fewer_refuted.

(** C379.  A collector, which sends an action to every ready environment, never gets that error. *)
Theorem C379_collector : forall (timed : bool) (num n : nat) (v : av) (rounds : list (nat -> bool)) (e : exn),
  a_reach timed num n v -> 1 <= num -> num <= n -> fst (a_step timed num v (Some (a_ready v)) rounds) = Err e -> e = OutOfFuel.
Proof. exact C379_collector_lemma. Qed.
Print Assumptions C379_collector.

(** C379.  And it returns once wait_num of the waiting environments, or any of them if there is a timeout,
    have a result. *)
Theorem C379_returns_partial : forall (timed : bool) (num n : nat) (v : av) (ids : list nat) (rounds : list (nat -> bool)) (ready : nat -> bool),
  a_reach timed num n v -> NoDup ids -> (forall i, In i ids -> In i (a_ready v)) ->
  1 <= num -> num <= length (a_wait v) + length ids -> In ready rounds ->
  (if timed then 1 else num) <= length (filter (fun i => ready (a_handle (send_all v ids) i)) (a_wait v ++ ids)) ->
  is_ok (fst (a_step timed num v (Some ids) rounds)) = true.
Proof. exact C379_returns_partial_lemma. Qed.
Print Assumptions C379_returns_partial.

(** ** Non-vacuity: four environments and wait_num = 2. *)
Definition ar_late (h : nat) : bool := 2 <=? h.
Definition ar_all (h : nat) : bool := true.
(** All four are stepped; the results of 2 and 3 are there first. *)
Example C379_ex : fst (a_step false 2 (av_init 4) (Some [0; 1; 2; 3]) [(fun h => h =? 3); ar_late]) = Ok [(2, 2); (3, 3)].
Proof. reflexivity. Qed.
Definition ar_v1 : av := snd (a_step false 2 (av_init 4) (Some [0; 1; 2; 3]) [(fun h => h =? 3); ar_late]).
Example C379_ex_state : a_wait ar_v1 = [0; 1] /\ a_ready ar_v1 = [2; 3] /\ a_reach false 2 4 ar_v1.
Proof.
  split; [reflexivity|]. split; [reflexivity|]. apply ar_step; [apply ar_init|]. cbn [sent_ids].
  repeat (constructor; [cbn [In]; intros H; repeat destruct H as [H|H]; discriminate || exact H|]). constructor.
Qed.
(** Environment 3 is stepped again and gets a new handle. *)
Example C379_ex_again : fst (a_step false 2 ar_v1 (Some [3]) [ar_late; ar_all]) = Ok [(0, 0); (1, 1)]
  /\ fst (a_step true 2 ar_v1 (Some [3]) [ar_late; ar_all]) = Ok [(3, 4)].
Proof. split; reflexivity. Qed.
(** One environment alone is stepped: the result would be there, but ray.wait is asked for two. *)
Example C379_ex_fewer : fst (a_step false 2 (av_init 4) (Some [1]) [ar_all]) = Err ValueError
  /\ a_wait (snd (a_step false 2 (av_init 4) (Some [1]) [ar_all])) = [1].
Proof. split; reflexivity. Qed.
