(** * Property C385: resets do not mix up the answers of Ray workers *)
From Verif Require Import Py RayModel ArayModel AraySpec AonceSpec AresrModel AresrSpec AresrProofs.
From Coq Require Import Permutation.
Open Scope nat_scope.

(** C385.  Whatever is stepped and reset in between, every action is answered once by a step, under its own environment, or
    owed by a waiting environment; and the resets return exactly what was sent as a reset, in this order. *)
Theorem C385_apart : forall (timed : bool) (num n : nat) (v : av) (log : list (nat * bool)) (out rout : list (nat * nat)),
  r_hist timed num n v log out rout -> Permutation (out ++ owed v) (entries true log) /\ rout = entries false log.
Proof. exact C385_apart_lemma. Qed.
Print Assumptions C385_apart.

(** C385.  A reset of ready environments always returns, one answer for each, and leaves the waiting environments, what they
    owe and the ready ones as they were. *)
Theorem C385_reset : forall (timed : bool) (num n : nat) (v : av) (log : list (nat * bool)) (out rout : list (nat * nat)) (ids : list nat),
  r_hist timed num n v log out rout -> NoDup ids -> (forall i, In i ids -> In i (a_ready v)) ->
  exists w, a_reset v ids = (Ok (combine ids (seq (length log) (length ids))), w) /\ owed w = owed v /\ a_wait w = a_wait v /\ a_ready w = a_ready v.
Proof. exact C385_reset_lemma. Qed.
Print Assumptions C385_reset.

(** C385.  A reset that names an environment that is not ready, such as one of all while some are waiting, raises an
    AssertionError and changes nothing. *)
Theorem C385_waiting : forall (v : av) (ids : list nat) (i : nat), In i ids -> ~ In i (a_ready v) -> a_reset v ids = (Err AssertionError, v).
Proof. exact C385_waiting_lemma. Qed.
Print Assumptions C385_waiting.

(** ** Non-vacuity: environment 2 answers first, is reset and stepped again while 0 and 1 are waiting. *)
Definition rs_r1 : list (nat -> bool) := [fun h => h =? 2].
Definition rs_r2 : list (nat -> bool) := [fun h => negb (h =? 1)].
Definition rs_v1 : av := snd (a_step false 1 (av_init 3) (Some [0; 1; 2]) rs_r1).
Definition rs_v2 : av := snd (a_reset rs_v1 [2]).
Definition rs_v3 : av := snd (a_step false 1 rs_v2 (Some [2]) rs_r2).
Example C385_ex : r_hist false 1 3 rs_v3 [(0, true); (1, true); (2, true); (2, false); (2, true)] [(2, 2); (0, 0)] [(2, 3)].
Proof.
  assert (N : forall l : list nat, (if list_eq_dec Nat.eq_dec (nodup Nat.eq_dec l) l then True else False) -> NoDup l).
  { intros l H. destruct (list_eq_dec Nat.eq_dec (nodup Nat.eq_dec l) l) as [E|E]; [rewrite <- E; apply NoDup_nodup|destruct H]. }
  pose proof (rh_step false 1 3 (av_init 3) [] [] [] (Some [0; 1; 2]) rs_r1 (rh_init false 1 3) (N [0; 1; 2] Logic.I) (fun i H => H)) as H1.
  assert (I1 : forall i, In i [2] -> In i (a_ready rs_v1)) by (intros i [<-|[]]; left; reflexivity).
  pose proof (rh_reset false 1 3 rs_v1 _ _ _ [2] H1 (N [2] Logic.I) I1) as H2.
  assert (I2 : forall i, In i [2] -> In i (a_ready rs_v2)) by (intros i [<-|[]]; left; reflexivity).
  exact (rh_step false 1 3 rs_v2 _ _ _ (Some [2]) rs_r2 H2 (N [2] Logic.I) I2).
Qed.
Example C385_ex_owed : owed rs_v3 = [(1, 1); (2, 4)]
  /\ entries true [(0, true); (1, true); (2, true); (2, false); (2, true)] = [(0, 0); (1, 1); (2, 2); (2, 4)].
Proof. split; reflexivity. Qed.
(** A reset of all environments while 0 and 1 are waiting. *)
Example C385_ex_waiting : a_reset rs_v1 [0; 1; 2] = (Err AssertionError, rs_v1) /\ ~ In 0 (a_ready rs_v1).
Proof. split; [reflexivity|]. intros [H|[]]. discriminate. Qed.
