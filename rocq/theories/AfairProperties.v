(** * Property C384: no environment is starved *)
From Verif Require Import Py RayModel ArayModel AraySpec AfairSpec AfairProofs.
Open Scope nat_scope.

(** C384.  When the result of a waiting environment is there, every step that returns either returns it or lets wait_num of
    the environments before it in waiting_id go first; nothing gets in before it. *)
Theorem C384_step : forall (timed : bool) (num n : nat) (v w : av) (sent : option (list nat)) (rounds : list (nat -> bool)) (o : list (nat * nat)) (pre post : list nat) (i : nat),
  a_reach timed num n v -> NoDup (sent_ids sent) -> a_step timed num v sent rounds = (Ok o, w) ->
  a_wait v = pre ++ i :: post -> (forall ready, In ready rounds -> ready (a_handle v i) = true) ->
  In (i, a_handle v i) o \/
  (a_handle w i = a_handle v i /\ exists pre' post', a_wait w = pre' ++ i :: post' /\ length pre' + num = length pre).
Proof. exact C384_step_lemma. Qed.
Print Assumptions C384_step.

(** C384.  So it is returned by one of the next steps, at the latest when wait_num times their number exceeds the number of
    environments before it. *)
Theorem C384_bound : forall (timed : bool) (num n : nat) (steps : list (option (list nat) * list (nat -> bool))) (v u : av) (outs : list (nat * nat)) (pre post : list nat) (i : nat),
  a_reach timed num n v -> a_wait v = pre ++ i :: post ->
  Forall (fun s => NoDup (sent_ids (fst s)) /\ forall ready, In ready (snd s) -> ready (a_handle v i) = true) steps ->
  all_ok timed num v steps = Some (outs, u) -> length pre < num * length steps -> In (i, a_handle v i) outs.
Proof. exact C384_bound_lemma. Qed.
Print Assumptions C384_bound.

(** ** Non-vacuity: four environments, wait_num = 1.  All are stepped and 0 answers; it is stepped again and again and its
    answers are always there, as is that of 3. *)
Definition af_all : list (nat -> bool) := [fun _ => true].
Definition af_03 : list (nat -> bool) := [fun h => negb (h =? 2)].
Definition af_v : av := snd (a_step false 1 (av_init 4) (Some [0; 1; 2; 3]) af_all).
Example C384_ex_state : a_wait af_v = [1; 2] ++ 3 :: [] /\ a_ready af_v = [0] /\ a_handle af_v 3 = 3 /\ a_reach false 1 4 af_v.
Proof.
  split; [reflexivity|]. split; [reflexivity|]. split; [reflexivity|]. apply ar_step; [apply ar_init|]. cbn [sent_ids].
  repeat (constructor; [cbn [In]; intros H; repeat destruct H as [H|H]; discriminate || exact H|]). constructor.
Qed.
(** 1 is returned first, then 2 and then 3, although 0 has been stepped in between; three steps suffice since 2 < 1 * 3. *)
Definition af_steps : list (option (list nat) * list (nat -> bool)) := [(Some [0], af_all); (Some [1], af_all); (None, af_all)].
Example C384_ex : option_map fst (all_ok false 1 af_v af_steps) = Some [(1, 1); (2, 2); (3, 3)].
Proof. reflexivity. Qed.
(** If the answer of 2 is late, 3 comes in the second step. *)
Example C384_ex_late : option_map fst (all_ok false 1 af_v [(Some [0], af_03); (Some [1], af_03); (None, af_03)]) = Some [(1, 1); (3, 3); (0, 4)].
Proof. reflexivity. Qed.
Example C384_ex_hyp : Forall (fun s : option (list nat) * list (nat -> bool) => NoDup (sent_ids (fst s)) /\ forall ready, In ready (snd s) -> ready (a_handle af_v 3) = true) af_steps.
Proof.
  repeat (constructor; [split; [cbn [fst sent_ids]; repeat (constructor; [intros []|]); constructor|intros r [<-|[]]; reflexivity]|]). constructor.
Qed.
