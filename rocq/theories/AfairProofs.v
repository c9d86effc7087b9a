(** * Proofs of property C384: no environment is starved *)
From Verif Require Import Py PyLemmas RayModel RayProofs ArayModel AraySpec ArayProofs AfairSpec.
From Coq Require Import Permutation.
Open Scope nat_scope.

Lemma send_handle : forall ids v i, ~ In i ids -> a_handle (send_all v ids) i = a_handle v i.
Proof.
  intros ids v i H. unfold send_all. cbn [a_handle]. revert v. induction ids as [|j ids IH]; intros v; [reflexivity|]. cbn [fold_left].
  rewrite IH by (intros Hi; apply H; right; exact Hi). cbn [send_one a_handle]. destruct (i =? j) eqn:E; [|reflexivity]. apply Nat.eqb_eq in E. exfalso. apply H. left. symmetry. exact E.
Qed.

(** Waiting and receiving when the result of [i] is there. *)
Lemma after_fair : forall timed num n v rounds o w pre i post, av_ok n v ->
  after_send timed num v rounds = (Ok o, w) -> a_wait v = pre ++ i :: post -> (forall ready, In ready rounds -> ready (a_handle v i) = true) ->
  In (i, a_handle v i) o \/
  (a_handle w i = a_handle v i /\ exists pre' post', a_wait w = pre' ++ i :: post' /\ length pre' + num = length pre).
Proof.
  intros timed num n v rounds o w pre i post K Sx W R. pose proof (wait_nodup n v K) as Nw. pose proof K as (E & P & N & F).
  unfold after_send in Sx. rewrite E in Sx. destruct (wait_loop timed (a_handle v) (a_wait v) num rounds) as [got|e] eqn:L; [|discriminate].
  assert (B : 1 <= num /\ num <= length (a_wait v)).
  { destruct rounds as [|r0 rs]; [discriminate|]. destruct num as [|num].
    - pose proof (wait_loop_zero timed (a_handle v) (a_wait v) (r0 :: rs) N) as Q. rewrite L in Q. destruct Q.
    - split; [lia|]. destruct (le_lt_dec (S num) (length (a_wait v))) as [Q|Q]; [exact Q|]. rewrite wait_loop_few in L; [discriminate|discriminate|exact Q]. }
  destruct B as [B1 B2]. pose proof (wait_loop_ok timed (a_handle v) (a_wait v) num rounds N B1 B2) as G. rewrite L in G. destruct G as (ready & Hr & G & _).
  assert (Ng : NoDup got) by (rewrite G; apply NoDup_firstn, NoDup_filter, Nw).
  assert (I : forall j, In j got -> In j (a_wait v)) by (intros j Hj; rewrite G in Hj; apply in_firstn, filter_In in Hj; apply (proj1 Hj)).
  rewrite (recv_fold got v [] E Nw Ng I) in Sx. cbn [app] in Sx. injection Sx as <- <-. cbn [a_handle a_wait].
  destruct (in_dec Nat.eq_dec i got) as [Hi|Hi]; [left; apply in_map_iff; exists i; split; [reflexivity|exact Hi]|right]. split; [reflexivity|].
  assert (T : filter (fun j => ready (a_handle v j)) (a_wait v) = filter (fun j => ready (a_handle v j)) pre ++ i :: filter (fun j => ready (a_handle v j)) post).
  { rewrite W, filter_app. cbn [filter]. rewrite (R ready Hr). reflexivity. }
  rewrite T in G. set (fp := filter (fun j => ready (a_handle v j)) pre) in *.
  destruct (le_lt_dec num (length fp)) as [Q|Q].
  - rewrite firstn_app in G. replace (num - length fp) with 0 in G by lia. cbn [firstn] in G. rewrite app_nil_r in G.
    exists (filter (fun y => negb (mem y got)) pre), (filter (fun y => negb (mem y got)) post). split.
    + rewrite W, filter_app. cbn [filter]. replace (mem i got) with false by (symmetry; apply mem_out; exact Hi). reflexivity.
    + assert (Np : NoDup pre) by (rewrite W in Nw; clear - Nw; induction pre as [|x l IH]; [constructor|]; inversion Nw; subst; constructor; [intros Hc; apply H1; apply in_or_app; left; exact Hc|apply IH; assumption]).
      assert (Ip : forall j, In j got -> In j pre) by (intros j Hj; rewrite G in Hj; apply in_firstn in Hj; apply filter_In in Hj; apply (proj1 Hj)).
      pose proof (Permutation_length (filter_perm got pre Np Ng Ip)) as Lp. rewrite app_length in Lp. assert (Lg : length got = num) by (rewrite G, firstn_length; lia). lia.
  - exfalso. apply Hi. rewrite G, firstn_app. apply in_or_app. right. replace (num - length fp) with (S (num - length fp - 1)) by lia. left. reflexivity.
Qed.

Lemma step_fair : forall timed num n v sent rounds o w pre i post, a_reach timed num n v -> NoDup (sent_ids sent) ->
  a_step timed num v sent rounds = (Ok o, w) -> a_wait v = pre ++ i :: post -> (forall ready, In ready rounds -> ready (a_handle v i) = true) ->
  In (i, a_handle v i) o \/
  (a_handle w i = a_handle v i /\ exists pre' post', a_wait w = pre' ++ i :: post' /\ length pre' + num = length pre).
Proof.
  intros timed num n v sent rounds o w pre i post Hr Ns S W R. pose proof (reach_ok timed num n v Hr) as K. rewrite a_step_after in S. destruct sent as [ids|]; [|apply (after_fair timed num n v rounds o w pre i post); assumption].
  destruct (ids_ok v ids) eqn:O; [|discriminate]. cbn [sent_ids] in Ns. destruct (send_all_ok n v ids K Ns O) as (K' & W' & _).
  assert (Hi : ~ In i ids). { intros Hc. rewrite ids_ok_iff in O. apply (proj1 (O i Hc)). rewrite W. apply in_or_app. right. left. reflexivity. }
  rewrite <- (send_handle ids v i Hi) in R |- *. apply (after_fair timed num n (send_all v ids) rounds o w pre i (post ++ ids) K' S); [|exact R]. rewrite W', W, <- app_assoc. reflexivity.
Qed.

(** C384.  When the result of a waiting environment is there, every step that returns either returns it or lets wait_num of
    the environments before it in waiting_id go first; nothing gets in before it. *)
Lemma C384_step_lemma : forall (timed : bool) (num n : nat) (v w : av) (sent : option (list nat)) (rounds : list (nat -> bool)) (o : list (nat * nat)) (pre post : list nat) (i : nat),
  a_reach timed num n v -> NoDup (sent_ids sent) -> a_step timed num v sent rounds = (Ok o, w) ->
  a_wait v = pre ++ i :: post -> (forall ready, In ready rounds -> ready (a_handle v i) = true) ->
  In (i, a_handle v i) o \/
  (a_handle w i = a_handle v i /\ exists pre' post', a_wait w = pre' ++ i :: post' /\ length pre' + num = length pre).
Proof. intros timed num n v w sent rounds o pre post i Hr Ns S W R. apply (step_fair timed num n v sent rounds o w pre i post); assumption. Qed.

(** C384.  So it is returned by one of the next steps, at the latest when wait_num times their number exceeds the number of
    environments before it. *)
Lemma C384_bound_lemma : forall (timed : bool) (num n : nat) (steps : list (option (list nat) * list (nat -> bool))) (v u : av) (outs : list (nat * nat)) (pre post : list nat) (i : nat),
  a_reach timed num n v -> a_wait v = pre ++ i :: post ->
  Forall (fun s => NoDup (sent_ids (fst s)) /\ forall ready, In ready (snd s) -> ready (a_handle v i) = true) steps ->
  all_ok timed num v steps = Some (outs, u) -> length pre < num * length steps -> In (i, a_handle v i) outs.
Proof.
  intros timed num n. induction steps as [|[sent rounds] steps IH]; intros v u outs pre post i Hr W F A B; [cbn [length] in B; lia|].
  inversion F as [|s' l' [F0 F1] F2]; subst s' l'. cbn [fst snd] in F0, F1. cbn [all_ok] in A. destruct (a_step timed num v sent rounds) as [r w] eqn:S. destruct r as [o|e]; [|discriminate].
  destruct (all_ok timed num w steps) as [[os u']|] eqn:A'; [|discriminate]. injection A as <- <-. apply in_or_app.
  destruct (step_fair timed num n v sent rounds o w pre i post Hr F0 S W F1) as [H|(Hh & pre' & post' & W' & L)]; [left; exact H|right].
  rewrite <- Hh. apply (IH w u' os pre' post' i).
  - pose proof (ar_step timed num n v sent rounds Hr F0) as Q. rewrite S in Q. exact Q.
  - exact W'.
  - rewrite Hh. exact F2.
  - exact A'.
  - cbn [length] in B. rewrite Nat.mul_succ_r in B. lia.
Qed.
