(** * Proofs of property C382: every action sent to Ray workers is answered once *)
From Verif Require Import Py PyLemmas RayModel RayProofs ArayModel AraySpec ArayProofs AonceSpec.
From Coq Require Import Permutation Sorting.Sorted.
Open Scope nat_scope.

Lemma send_owed : forall ids v, NoDup ids -> (forall i, In i ids -> ~ In i (a_wait v)) ->
  let w := fold_left send_one ids v in
  owed w = owed v ++ combine ids (seq (a_next v) (length ids)) /\ a_next w = a_next v + length ids.
Proof.
  induction ids as [|i ids IH]; intros v N D w; subst w.
  - cbn [fold_left combine length]. rewrite app_nil_r, Nat.add_0_r. split; reflexivity.
  - inversion N as [|i' ids' Hi N']; subst i' ids'. cbn [fold_left length]. destruct (IH (send_one v i) N') as (I1 & I2).
    { intros j Hj Hw. cbn [send_one a_wait] in Hw. apply in_app_or in Hw as [Hw|[<-|[]]]; [apply (D j); [right; exact Hj|exact Hw]|contradiction]. }
    rewrite I1, I2. cbn [send_one a_next seq combine]. split; [|lia]. unfold owed at 1. cbn [send_one a_wait a_handle]. rewrite map_app, <- app_assoc. cbn [map app].
    rewrite Nat.eqb_refl. f_equal. unfold owed. apply map_ext_in. intros j Hj. destruct (j =? i) eqn:E; [|reflexivity]. apply Nat.eqb_eq in E. subst j.
    exfalso. apply (D i); [left; reflexivity|exact Hj].
Qed.

Lemma ready_ids_ok : forall n v ids, av_ok n v -> (forall i, In i ids -> In i (a_ready v)) -> ids_ok v ids = true.
Proof.
  intros n v ids (_ & P & _) I. apply ids_ok_iff. intros i Hi. split; [|apply I, Hi]. intros Hw.
  assert (Q : NoDup (a_wait v ++ a_ready v)) by (apply (Permutation_NoDup (Permutation_sym P)), seq_NoDup).
  specialize (I i Hi). clear - Q Hw I. induction (a_wait v) as [|x l IH]; [destruct Hw|]. cbn [app] in Q. inversion Q; subst. destruct Hw as [->|Hw]; [apply H1, in_or_app; right; exact I|apply IH; assumption].
Qed.

(** The state after the actions of a step have been sent. *)
Definition sent_state (v : av) (sent : option (list nat)) : av := match sent with Some ids => send_all v ids | None => v end.
Lemma sent_state_ok : forall n v sent, av_ok n v -> NoDup (sent_ids sent) -> (forall i, In i (sent_ids sent) -> In i (a_ready v)) ->
  av_ok n (sent_state v sent) /\ owed (sent_state v sent) = owed v ++ combine (sent_ids sent) (seq (a_next v) (length (sent_ids sent)))
  /\ a_next (sent_state v sent) = a_next v + length (sent_ids sent)
  /\ forall timed num rounds, a_step timed num v sent rounds = after_send timed num (sent_state v sent) rounds.
Proof.
  intros n v [ids|] K N I; cbn [sent_ids sent_state] in *.
  - pose proof (ready_ids_ok n v ids K I) as O. destruct (send_all_ok n v ids K N O) as (K' & _). split; [exact K'|].
    destruct (send_owed ids v N) as (S1 & S2); [intros i Hi; apply ids_ok_iff with (i := i) in O; [apply (proj1 O)|exact Hi]|].
    split; [exact S1|]. split; [exact S2|]. intros. rewrite a_step_after, O. reflexivity.
  - split; [exact K|]. cbn [length combine]. rewrite app_nil_r, Nat.add_0_r. repeat split.
Qed.

(** What waiting and receiving change. *)
Lemma after_owed : forall timed num n v rounds, av_ok n v ->
  let '(r, w) := after_send timed num v rounds in
  let o := match r with Ok o => o | Err _ => [] end in
  av_ok n w /\ Permutation (o ++ owed w) (owed v) /\ a_next w = a_next v /\ a_handle w = a_handle v
  /\ NoDup (map fst o) /\ (forall p, In p o -> In p (owed v)) /\ (forall i, In i (a_wait w) -> In i (a_wait v) /\ ~ In i (map fst o)).
Proof.
  intros timed num n v rounds K. pose proof (wait_nodup n v K) as Nw. pose proof (after_inv timed num n v rounds K) as KI. pose proof K as (E & P & N & F).
  assert (Z : forall e, let '(r, w) := (Err e : res (list (nat * nat)), v) in let o := match r with Ok o => o | Err _ => [] end in
     av_ok n w /\ Permutation (o ++ owed w) (owed v) /\ a_next w = a_next v /\ a_handle w = a_handle v
     /\ NoDup (map fst o) /\ (forall p, In p o -> In p (owed v)) /\ (forall i, In i (a_wait w) -> In i (a_wait v) /\ ~ In i (map fst o))).
  { intros e. cbn. split; [exact K|]. split; [apply Permutation_refl|]. split; [reflexivity|]. split; [reflexivity|]. split; [constructor|]. split; [intros p []|]. intros i Hi. split; [exact Hi|intros []]. }
  unfold after_send in *. rewrite E in *. destruct (wait_loop timed (a_handle v) (a_wait v) num rounds) as [got|e] eqn:W; [|apply (Z e)].
  assert (B : 1 <= num /\ num <= length (a_wait v)).
  { destruct rounds as [|r0 rs]; [discriminate|]. destruct num as [|num].
    - pose proof (wait_loop_zero timed (a_handle v) (a_wait v) (r0 :: rs) N) as Q. rewrite W in Q. destruct Q.
    - split; [lia|]. destruct (le_lt_dec (S num) (length (a_wait v))) as [L|L]; [exact L|]. rewrite wait_loop_few in W; [discriminate|discriminate|exact L]. }
  destruct B as [B1 B2]. pose proof (wait_loop_ok timed (a_handle v) (a_wait v) num rounds N B1 B2) as L. rewrite W in L. destruct L as (ready & _ & G & _).
  assert (Ng : NoDup got) by (rewrite G; apply NoDup_firstn, NoDup_filter, Nw).
  assert (I : forall i, In i got -> In i (a_wait v)) by (intros i Hi; rewrite G in Hi; apply in_firstn, filter_In in Hi; apply (proj1 Hi)).
  rewrite (recv_fold got v [] E Nw Ng I) in *. cbn [app snd] in *. split; [exact KI|]. cbn [a_next a_handle].
  assert (M : map fst (map (fun i => (i, a_handle v i)) got) = got) by (rewrite map_map; cbn [fst]; apply map_id).
  split; [unfold owed; cbn [a_wait a_handle]; rewrite <- map_app; apply Permutation_map, filter_perm; assumption|].
  split; [reflexivity|]. split; [reflexivity|]. rewrite M. split; [exact Ng|]. split.
  - intros p Hp. apply in_map_iff in Hp as (i & <- & Hi). unfold owed. apply in_map_iff. exists i. split; [reflexivity|apply I, Hi].
  - intros i Hi. cbn [a_wait] in Hi. apply filter_In in Hi as [Hi Hm]. split; [exact Hi|]. apply negb_true_iff, mem_out in Hm. exact Hm.
Qed.

Lemma combine_app : forall {A B} (a a' : list A) (b b' : list B), length a = length b -> combine (a ++ a') (b ++ b') = combine a b ++ combine a' b'.
Proof. intros A B. induction a as [|x a IH]; intros a' [|y b] b' L; try discriminate; [reflexivity|]. cbn [app combine]. f_equal. apply IH. cbn [length] in L. congruence. Qed.

(** The invariant of a history. *)
Definition hist_inv (n : nat) (v : av) (log : list nat) (out : list (nat * nat)) : Prop :=
  av_ok n v /\ a_next v = length log /\ Permutation (out ++ owed v) (numbered log) /\
  (forall p, In p out -> In (fst p) (a_wait v) -> snd p < a_handle v (fst p)) /\
  (forall i, StronglySorted lt (map snd (filter (fun p => fst p =? i) out))).

Lemma sorted_app : forall l m, StronglySorted lt l -> StronglySorted lt m -> (forall x y, In x l -> In y m -> x < y) -> StronglySorted lt (l ++ m).
Proof.
  induction l as [|x l IH]; intros m S1 S2 H; [exact S2|]. apply StronglySorted_inv in S1 as [S1 F]. cbn [app]. constructor.
  - apply IH; [exact S1|exact S2|]. intros a b Ha Hb. apply H; [right; exact Ha|exact Hb].
  - apply Forall_app. split; [exact F|]. apply Forall_forall. intros y Hy. apply H; [left; reflexivity|exact Hy].
Qed.
Lemma sorted_one : forall (i : nat) (o : list (nat * nat)), NoDup (map fst o) -> StronglySorted lt (map snd (filter (fun p => fst p =? i) o)).
Proof.
  intros i. induction o as [|p o IH]; intros N; [constructor|]. cbn [map] in N. inversion N as [|x l Hx N']; subst x l. cbn [filter]. destruct (fst p =? i) eqn:E; [|apply IH, N'].
  apply Nat.eqb_eq in E. cbn [map]. constructor; [apply IH, N'|]. apply Forall_forall. intros y Hy. apply in_map_iff in Hy as (q & _ & Hq). apply filter_In in Hq as [Hq Eq].
  apply Nat.eqb_eq in Eq. exfalso. apply Hx. rewrite E, <- Eq. apply in_map, Hq.
Qed.
Lemma numbered_lt : forall log p, In p (numbered log) -> snd p < length log.
Proof. intros log [i h] H. unfold numbered in H. apply in_combine_r in H. apply in_seq in H. cbn [snd]. lia. Qed.

Lemma hist_ok : forall timed num n v log out, a_hist timed num n v log out -> hist_inv n v log out.
Proof.
  intros timed num n v log out H. induction H as [|v log out sent rounds H IH Ns Is].
  - split; [|split; [reflexivity|split; [apply Permutation_refl|split; [intros p []|intros i; constructor]]]].
    split; [reflexivity|]. split; [apply Permutation_refl|]. split; constructor.
  - destruct IH as (K & NX & P & C & S). destruct (sent_state_ok n v sent K Ns Is) as (K1 & O1 & N1 & E1). rewrite E1. set (s := sent_state v sent) in *. set (ids := sent_ids sent) in *.
    pose proof (after_owed timed num n s rounds K1) as A. destruct (after_send timed num s rounds) as [r w]. cbn [fst snd]. cbv zeta in A. set (o := match r with Ok o => o | Err _ => [] end) in *.
    destruct A as (K2 & P2 & N2 & H2 & D2 & I2 & W2).
    assert (PN : Permutation (out ++ owed s) (numbered (log ++ ids))).
    { unfold numbered. rewrite app_length, seq_app, combine_app by (rewrite seq_length; reflexivity). cbn [Nat.add]. rewrite O1, app_assoc. rewrite NX. apply Permutation_app_tail. exact P. }
    assert (OW : forall i h, In (i, h) (owed s) -> h = a_handle s i /\ In i (a_wait s)).
    { intros i h Hp. unfold owed in Hp. apply in_map_iff in Hp as (j & Ej & Hj). injection Ej as -> ->. split; [reflexivity|exact Hj]. }
    (* results so far come before what is owed now *)
    assert (C1 : forall p, In p out -> In (fst p) (a_wait s) -> snd p < a_handle s (fst p)).
    { intros p Hp Hw. assert (Ho : In (fst p, a_handle s (fst p)) (owed s)) by (unfold owed; apply in_map_iff; exists (fst p); split; [reflexivity|exact Hw]).
      rewrite O1 in Ho. apply in_app_or in Ho as [Ho|Ho].
      - unfold owed in Ho. apply in_map_iff in Ho as (j & Ej & Hj). injection Ej as Ej1 Ej2. subst j. rewrite <- Ej2. apply C; assumption.
      - apply in_combine_r in Ho. apply in_seq in Ho. assert (L : snd p < length log). { apply numbered_lt. apply (Permutation_in _ P). apply in_or_app. left. exact Hp. } lia. }
    split; [exact K2|]. split; [rewrite N2, N1, NX, app_length; reflexivity|]. split; [|split].
    + rewrite <- app_assoc. rewrite P2. exact PN.
    + intros p Hp Hw. destruct (W2 (fst p) Hw) as [Hw1 Hw2]. rewrite H2. apply in_app_or in Hp as [Hp|Hp]; [apply C1; assumption|]. exfalso. apply Hw2. apply in_map, Hp.
    + intros i. rewrite filter_app, map_app. apply sorted_app; [apply S|apply sorted_one, D2|].
      intros x y Hx Hy. apply in_map_iff in Hx as (p & <- & Hp). apply in_map_iff in Hy as (q & <- & Hq). apply filter_In in Hp as [Hp Ep]. apply filter_In in Hq as [Hq Eq].
      apply Nat.eqb_eq in Ep, Eq. destruct q as [qi qh]. cbn [fst snd] in *. destruct (OW qi qh (I2 _ Hq)) as [-> Hw]. subst qi. rewrite <- Ep in *. apply C1; assumption.
Qed.

(** C382.  Whatever the steps return or raise, every action that was sent is either answered, once and under its own
    environment, or owed by an environment that is waiting. *)
Lemma C382_once_lemma : forall (timed : bool) (num n : nat) (v : av) (log : list nat) (out : list (nat * nat)),
  a_hist timed num n v log out -> Permutation (out ++ owed v) (numbered log).
Proof. intros timed num n v log out H. destruct (hist_ok timed num n v log out H) as (_ & _ & P & _). exact P. Qed.

(** C382.  The answers of an environment come in the order of the actions it was sent. *)
Lemma C382_order_lemma : forall (timed : bool) (num n : nat) (v : av) (log : list nat) (out : list (nat * nat)) (i : nat),
  a_hist timed num n v log out -> StronglySorted lt (map snd (filter (fun p => fst p =? i) out)).
Proof. intros timed num n v log out i H. destruct (hist_ok timed num n v log out H) as (_ & _ & _ & _ & S). apply S. Qed.

(** C382.  An environment has at most one action in work, and an answer is at hand for all of an environment that is ready. *)
Lemma C382_one_lemma : forall (timed : bool) (num n : nat) (v : av) (log : list nat) (out : list (nat * nat)),
  a_hist timed num n v log out ->
  NoDup (map fst (owed v)) /\ forall i, In i (a_ready v) -> forall h, In (i, h) (numbered log) -> In (i, h) out.
Proof.
  intros timed num n v log out H. destruct (hist_ok timed num n v log out H) as (K & _ & P & _).
  assert (M : map fst (owed v) = a_wait v) by (unfold owed; rewrite map_map; cbn [fst]; apply map_id). split; [rewrite M; apply (wait_nodup n v K)|].
  intros i Hi h Hh. apply (Permutation_in _ (Permutation_sym P)) in Hh. apply in_app_or in Hh as [Hh|Hh]; [exact Hh|]. exfalso.
  apply (in_map fst) in Hh. rewrite M in Hh. cbn [fst] in Hh. destruct K as (_ & Q & _).
  assert (D : NoDup (a_wait v ++ a_ready v)) by (apply (Permutation_NoDup (Permutation_sym Q)), seq_NoDup).
  clear - D Hh Hi. induction (a_wait v) as [|x l IH]; [destruct Hh|]. cbn [app] in D. inversion D; subst. destruct Hh as [->|Hh]; [apply H1, in_or_app; right; exact Hi|apply IH; assumption].
Qed.

(** C382.  Steps that name an environment that is not ready raise an AssertionError and change nothing. *)
Lemma C382_illegal_lemma : forall (timed : bool) (num n : nat) (v : av) (log : list nat) (out : list (nat * nat)) (ids : list nat) (i : nat) (rounds : list (nat -> bool)),
  a_hist timed num n v log out -> In i ids -> ~ In i (a_ready v) -> a_step timed num v (Some ids) rounds = (Err AssertionError, v).
Proof.
  intros timed num n v log out ids i rounds H Hi Hr. rewrite a_step_after. destruct (ids_ok v ids) eqn:O; [|reflexivity]. exfalso. apply Hr. rewrite ids_ok_iff in O. apply (proj2 (O i Hi)).
Qed.
