(** * Property C382: every action sent to Ray workers is answered once *)
From Verif Require Import Py RayModel ArayModel AraySpec AonceSpec AonceProofs.
Open Scope nat_scope.

(** C382.  Whatever the steps return or raise, every action that was sent is either answered, once and under its own
    environment, or owed by an environment that is waiting. *)
Theorem C382_once : forall (timed : bool) (num n : nat) (v : av) (log : list nat) (out : list (nat * nat)),
  a_hist timed num n v log out -> Permutation (out ++ owed v) (numbered log).
Proof. exact C382_once_lemma. Qed.
Print Assumptions C382_once.

(** C382.  The answers of an environment come in the order of the actions it was sent. *)
Theorem C382_order : forall (timed : bool) (num n : nat) (v : av) (log : list nat) (out : list (nat * nat)) (i : nat),
  a_hist timed num n v log out -> StronglySorted lt (map snd (filter (fun p => fst p =? i) out)).
Proof. exact C382_order_lemma. Qed.
Print Assumptions C382_order.

(** C382.  An environment has at most one action in work, and an answer is at hand for all of an environment that is ready. *)
Theorem C382_one : forall (timed : bool) (num n : nat) (v : av) (log : list nat) (out : list (nat * nat)),
  a_hist timed num n v log out ->
  NoDup (map fst (owed v)) /\ forall i, In i (a_ready v) -> forall h, In (i, h) (numbered log) -> In (i, h) out.
Proof. exact C382_one_lemma. Qed.
Print Assumptions C382_one.

(** C382.  Steps that name an environment that is not ready raise an AssertionError and change nothing. *)
Theorem C382_illegal : forall (timed : bool) (num n : nat) (v : av) (log : list nat) (out : list (nat * nat)) (ids : list nat) (i : nat) (rounds : list (nat -> bool)),
  a_hist timed num n v log out -> In i ids -> ~ In i (a_ready v) -> a_step timed num v (Some ids) rounds = (Err AssertionError, v).
Proof. exact C382_illegal_lemma. Qed.
Print Assumptions C382_illegal.

(** ** Non-vacuity: three environments, wait_num = 2: all are stepped, environments 1 and 2 answer and are stepped again. *)
Definition ao_r1 : list (nat -> bool) := [fun h => 1 <=? h].
Definition ao_r2 : list (nat -> bool) := [fun h => h <=? 3].
Definition ao_v1 : av := snd (a_step false 2 (av_init 3) (Some [0; 1; 2]) ao_r1).
Definition ao_v2 : av := snd (a_step false 2 ao_v1 (Some [2; 1]) ao_r2).
Definition ao_out : list (nat * nat) := [(1, 1); (2, 2); (0, 0); (2, 3)].
Example C382_ex : a_hist false 2 3 ao_v2 [0; 1; 2; 2; 1] ao_out.
Proof.
  change [0; 1; 2; 2; 1] with ((([] : list nat) ++ sent_ids (Some [0; 1; 2])) ++ sent_ids (Some [2; 1])).
  change ao_out with ((([] : list (nat * nat)) ++ match fst (a_step false 2 (av_init 3) (Some [0; 1; 2]) ao_r1) with Ok o => o | Err _ => [] end)
    ++ match fst (a_step false 2 ao_v1 (Some [2; 1]) ao_r2) with Ok o => o | Err _ => [] end).
  apply ah_step; [apply ah_step; [apply ah_init| |]| |]; cbn [sent_ids].
  - repeat (constructor; [cbn [In]; intros H; repeat destruct H as [H|H]; discriminate || exact H|]). constructor.
  - intros i H. cbn [av_init a_ready seq]. exact H.
  - repeat (constructor; [cbn [In]; intros H; repeat destruct H as [H|H]; discriminate || exact H|]). constructor.
  - intros i [<-|[<-|[]]]; vm_compute; tauto.
Qed.
(** Environment 1 still owes the answer to action 4. *)
Example C382_ex_owed : owed ao_v2 = [(1, 4)] /\ numbered [0; 1; 2; 2; 1] = [(0, 0); (1, 1); (2, 2); (2, 3); (1, 4)].
Proof. split; reflexivity. Qed.
Example C382_ex_illegal : a_step false 2 ao_v2 (Some [0; 1]) ao_r1 = (Err AssertionError, ao_v2).
Proof. reflexivity. Qed.
