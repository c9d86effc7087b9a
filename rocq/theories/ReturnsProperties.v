(** * Properties C21, C24: GAE and Monte-Carlo returns *)
From Verif Require Import Py Num ReturnsModel ReturnsSpec ReturnsProofs.
Open Scope nat_scope.

(** C21.  Every advantage is the exponentially weighted sum of the TD errors from its step to the
    first end flag (or the end of the batch). *)
Theorem C21_gae_closed_form : forall v_s v_s_ rew end_flag gamma lam,
  length v_s = length rew -> length v_s_ = length rew -> length end_flag = length rew ->
  let adv := gae_return v_s v_s_ rew end_flag gamma lam in
  let delta j := (nth j rew 0 + gamma * nth j v_s_ 0 - nth j v_s 0)%Qc in
  length adv = length rew
  /\ forall i, i < length rew ->
     nth i adv 0%Qc = sum_n (steps_left end_flag i) (fun l => ((gamma * lam) ^ l * delta (i + l)%nat)%Qc).
Proof. exact C21_gae_closed_form_lemma. Qed.
Print Assumptions C21_gae_closed_form.

(** C21.  The recursion: an advantage is its TD error plus the discounted next advantage, unless
    its end flag is set. *)
Theorem C21_gae_recursion : forall v_s v_s_ rew end_flag gamma lam i,
  length v_s = length rew -> length v_s_ = length rew -> length end_flag = length rew -> i < length rew ->
  let adv := gae_return v_s v_s_ rew end_flag gamma lam in
  nth i adv 0%Qc
  = (nth i rew 0 + gamma * nth i v_s_ 0 - nth i v_s 0
     + if nth i end_flag false then 0 else gamma * lam * nth (S i) adv 0)%Qc.
Proof. exact C21_gae_recursion_lemma. Qed.
Print Assumptions C21_gae_recursion.

(** C24.  Monte-Carlo return-to-go. *)
Theorem C24_return_to_go : forall rewards gamma, rewards <> [] ->
  exists l, episode_mc_return_to_go rewards gamma = Ok l /\ length l = length rewards
    /\ forall t, t < length rewards ->
       nth t l 0%Qc = sum_n (length rewards - t) (fun k => (gamma ^ k * nth (t + k)%nat rewards 0)%Qc).
Proof. exact C24_return_to_go_lemma. Qed.
Print Assumptions C24_return_to_go.

(** ** Non-vacuity *)
Definition half : Qc := Q2Qc (1 # 2).
Definition qi (z : Z) : Qc := Q2Qc (inject_Z z).
(** Three steps, the second ends an episode. *)
Example C21_ex : gae_return [qi 1; qi 2; qi 3] [qi 2; qi 0; qi 4] [qi 1; qi 1; qi 1] [false; true; false] half 1
  = [qi 1 + half * (qi 1 - qi 2); qi 1 - qi 2; qi 0]%Qc.
Proof. vm_compute. reflexivity. Qed.
Example C21_ex_steps : map (steps_left [false; true; false]) [0; 1; 2] = [2; 1; 1].
Proof. reflexivity. Qed.
Example C24_ex : episode_mc_return_to_go [qi 1; qi 2; qi 4] half = Ok [qi 3; qi 4; qi 4].
Proof. vm_compute. reflexivity. Qed.
Example C24_ex_empty : episode_mc_return_to_go [] half = Err IndexError.
Proof. reflexivity. Qed.
