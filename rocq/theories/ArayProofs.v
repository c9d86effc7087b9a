(** * Proofs of property C379: asynchronous steps of RayVectorEnv *)
From Verif Require Import Py PyLemmas RayModel RayProofs ArayModel AraySpec.
From Coq Require Import Permutation.
Open Scope nat_scope.

Lemma mem_in : forall x l, mem x l = true <-> In x l.
Proof.
  intros x l. unfold mem. rewrite existsb_exists. split.
  - intros (y & H & E). apply Nat.eqb_eq in E. subst y. exact H.
  - intros H. exists x. split; [exact H|apply Nat.eqb_refl].
Qed.
Lemma mem_out : forall x l, mem x l = false <-> ~ In x l.
Proof. intros x l. rewrite <- mem_in. destruct (mem x l); split; intros H; congruence || (exfalso; apply H; reflexivity). Qed.
Lemma ids_ok_iff : forall v ids, ids_ok v ids = true <-> (forall i, In i ids -> ~ In i (a_wait v) /\ In i (a_ready v)).
Proof.
  intros v ids. unfold ids_ok. rewrite forallb_forall. split; intros H i Hi; specialize (H i Hi).
  - apply andb_prop in H as [H1 H2]. apply negb_true_iff in H1. split; [apply mem_out, H1|apply mem_in, H2].
  - destruct H as [H1 H2]. apply mem_out in H1. apply mem_in in H2. rewrite H1, H2. reflexivity.
Qed.

Lemma send_fold : forall ids v,
  NoDup ids -> (forall i, In i ids -> ~ In i (a_wait v)) -> a_conn v = a_wait v ->
  NoDup (map (a_handle v) (a_wait v)) -> Forall (fun i => a_handle v i < a_next v) (a_wait v) ->
  let w := fold_left send_one ids v in
  a_conn w = a_wait v ++ ids /\ a_wait w = a_wait v ++ ids /\ a_ready w = a_ready v /\
  NoDup (map (a_handle w) (a_wait w)) /\ Forall (fun i => a_handle w i < a_next w) (a_wait w).
Proof.
  induction ids as [|i ids IH]; intros v Ni D E N F w.
  - subst w. cbn [fold_left]. rewrite app_nil_r. repeat split; assumption.
  - inversion Ni as [|i' ids' Hi Ni']; subst i' ids'. subst w. cbn [fold_left].
    assert (Di : ~ In i (a_wait v)) by (apply D; left; reflexivity).
    assert (M : map (a_handle (send_one v i)) (a_wait v) = map (a_handle v) (a_wait v)).
    { apply map_ext_in. intros j Hj. cbn [send_one a_handle]. destruct (j =? i) eqn:Ej; [|reflexivity]. apply Nat.eqb_eq in Ej. subst j. contradiction. }
    destruct (IH (send_one v i)) as (I1 & I2 & I3 & I4 & I5).
    + exact Ni'.
    + intros j Hj Hw. cbn [send_one a_wait] in Hw. apply in_app_or in Hw as [Hw|[Hw|[]]]; [apply (D j); [right; exact Hj|exact Hw]|]. subst j. contradiction.
    + cbn [send_one a_conn a_wait]. rewrite E. reflexivity.
    + cbn [send_one a_wait]. rewrite map_app. cbn [map]. rewrite M. cbn [send_one a_handle]. rewrite Nat.eqb_refl.
      apply Permutation_NoDup with (l := a_next v :: map (a_handle v) (a_wait v)); [apply Permutation_cons_append|]. constructor; [|exact N].
      intros Hc. apply in_map_iff in Hc as (j & Ej & Hj). rewrite Forall_forall in F. specialize (F j Hj). lia.
    + apply Forall_forall. intros j Hj. cbn [send_one a_wait] in Hj. cbn [send_one a_handle a_next]. destruct (j =? i) eqn:Ej; [lia|].
      apply in_app_or in Hj as [Hj|[Hj|[]]]; [|subst j; rewrite Nat.eqb_refl in Ej; discriminate]. rewrite Forall_forall in F. specialize (F j Hj). lia.
    + cbn [send_one a_wait a_ready] in I1, I2, I3. rewrite <- app_assoc in I1, I2. cbn [app] in I1, I2. repeat split; assumption.
Qed.

Lemma filter_perm : forall (ids l : list nat), NoDup l -> NoDup ids -> (forall i, In i ids -> In i l) ->
  Permutation (ids ++ filter (fun x => negb (mem x ids)) l) l.
Proof.
  intros ids l Nl Ni I. apply NoDup_Permutation.
  - assert (D : forall l0 : list nat, NoDup l0 -> forall k, NoDup k -> (forall x, In x k -> ~ In x l0) -> NoDup (k ++ l0)).
    { intros l0 H0. induction k as [|x k IHk]; intros Hk Hd; [exact H0|]. inversion Hk; subst. cbn [app]. constructor.
      - intros Hc. apply in_app_or in Hc as [Hc|Hc]; [contradiction|]. apply (Hd x); [left; reflexivity|exact Hc].
      - apply IHk; [assumption|]. intros y Hy. apply Hd. right. exact Hy. }
    apply D; [apply NoDup_filter, Nl|exact Ni|]. intros x Hx Hf. apply filter_In in Hf as [_ Hf]. apply negb_true_iff, mem_out in Hf. contradiction.
  - exact Nl.
  - intros x. rewrite in_app_iff, filter_In. split.
    + intros [H|[H _]]; [apply I, H|exact H].
    + intros H. destruct (mem x ids) eqn:E; [left; apply mem_in, E|right; split; [exact H|reflexivity]].
Qed.

Lemma send_all_ok : forall n v ids, av_ok n v -> NoDup ids -> ids_ok v ids = true ->
  av_ok n (send_all v ids) /\ a_wait (send_all v ids) = a_wait v ++ ids /\
  a_ready (send_all v ids) = filter (fun x => negb (mem x ids)) (a_ready v).
Proof.
  intros n v ids (E & P & N & F) Ni I. rewrite ids_ok_iff in I.
  destruct (send_fold ids v Ni (fun i Hi => proj1 (I i Hi)) E N F) as (S1 & S2 & S3 & S4 & S5).
  unfold send_all. set (w := fold_left send_one ids v) in *. split; [|split; [exact S2|cbn [a_ready]; rewrite S3; reflexivity]].
  split; [cbn [a_conn a_wait]; congruence|]. split; [|split; [exact S4|exact S5]].
  cbn [a_wait a_ready]. rewrite S2, S3, <- app_assoc. rewrite <- P. apply Permutation_app_head. apply filter_perm; [|exact Ni|intros i Hi; apply (proj2 (I i Hi))].
  assert (Q : NoDup (a_wait v ++ a_ready v)) by (apply (Permutation_NoDup (Permutation_sym P)), seq_NoDup).
  clear - Q. induction (a_wait v) as [|x l IH]; [exact Q|]. inversion Q. apply IH. assumption.
Qed.

Lemma pop_index : forall x l, NoDup l -> In x l ->
  exists k, index_of x l = Some k /\ nth_error l k = Some x /\ pop_at k l = filter (fun y => negb (y =? x)) l.
Proof.
  intros x. induction l as [|y l IH]; intros N I; [destruct I|]. inversion N as [|y' l' Hy Nl]; subst y' l'. cbn [index_of filter].
  destruct (y =? x) eqn:E.
  - apply Nat.eqb_eq in E. subst y. exists 0. repeat split. cbn [negb pop_at].
    symmetry. clear IH I N. assert (G : forall k, ~ In x k -> filter (fun y => negb (y =? x)) k = k).
    { induction k as [|z k IHk]; intros H; [reflexivity|]. cbn [filter]. destruct (z =? x) eqn:Ez; [apply Nat.eqb_eq in Ez; subst z; exfalso; apply H; left; reflexivity|].
      cbn [negb]. rewrite IHk; [reflexivity|]. intros Hk. apply H. right. exact Hk. }
    apply G, Hy.
  - destruct I as [I|I]; [subst y; rewrite Nat.eqb_refl in E; discriminate|]. destruct (IH Nl I) as (k & K1 & K2 & K3). exists (S k). rewrite K1. cbn [option_map nth_error pop_at negb]. rewrite K3. repeat split. exact K2.
Qed.

Lemma filter_filter : forall {A} (f g : A -> bool) l, filter f (filter g l) = filter (fun x => g x && f x) l.
Proof. intros A f g. induction l as [|x l IH]; [reflexivity|]. cbn [filter]. destruct (g x); cbn [filter andb]; rewrite IH; reflexivity. Qed.

Lemma recv_fold : forall got v out, a_conn v = a_wait v -> NoDup (a_wait v) -> NoDup got -> (forall i, In i got -> In i (a_wait v)) ->
  let rest := filter (fun y => negb (mem y got)) (a_wait v) in
  foldM recv_one got (v, out) = Ok (mkAv rest rest (a_ready v ++ got) (a_handle v) (a_next v), out ++ map (fun i => (i, a_handle v i)) got).
Proof.
  induction got as [|i got IH]; intros v out E N Ng I rest.
  - subst rest. cbn [foldM map]. rewrite !app_nil_r. destruct v as [c w r h x]. cbn [a_conn a_wait a_ready a_handle a_next] in *. subst c.
    replace (filter (fun y => negb (mem y [])) w) with w; [reflexivity|]. clear. induction w as [|y w IHw]; [reflexivity|]. cbn [filter mem existsb negb]. f_equal. exact IHw.
  - inversion Ng as [|i' g' Hi Ng']; subst i' g'. cbn [foldM]. unfold recv_one at 1. rewrite E. destruct (pop_index i (a_wait v) N (I i (or_introl eq_refl))) as (k & K1 & K2 & K3).
    rewrite K1, K2, K3. cbn [bind]. rewrite IH; cbn [a_conn a_wait a_ready a_handle a_next].
    + rewrite filter_filter, <- !app_assoc. cbn [app map]. replace (filter (fun x => negb (x =? i) && negb (mem x got)) (a_wait v)) with rest; [reflexivity|].
      subst rest. apply filter_ext. intros x. unfold mem. cbn [existsb]. rewrite negb_orb. reflexivity.
    + reflexivity.
    + apply NoDup_filter, N.
    + exact Ng'.
    + intros j Hj. apply filter_In. split; [apply I; right; exact Hj|]. apply negb_true_iff, Nat.eqb_neq. intros ->. contradiction.
Qed.

(** What the loop returns. *)
Lemma wait_loop_ok : forall timed handle conn num rounds, NoDup (map handle conn) -> 1 <= num -> num <= length conn ->
  match wait_loop timed handle conn num rounds with
  | Ok got => exists ready, In ready rounds /\ got = firstn num (filter (fun i => ready (handle i)) conn) /\ got <> [] /\ (timed = false -> length got = num)
  | Err e => e = OutOfFuel
  end.
Proof.
  intros timed handle conn num rounds N H1 H2. induction rounds as [|ready rounds IH]; [reflexivity|]. cbn [wait_loop].
  rewrite (C376_wait_lemma nat handle ready conn num N H1 H2). cbn [bind]. set (got := firstn num (filter (fun w => ready (handle w)) conn)).
  assert (IH' : match wait_loop timed handle conn num rounds with
    | Ok g => exists r, In r (ready :: rounds) /\ g = firstn num (filter (fun i => r (handle i)) conn) /\ g <> [] /\ (timed = false -> length g = num)
    | Err e => e = OutOfFuel end).
  { destruct (wait_loop timed handle conn num rounds); [|exact IH]. destruct IH as (r & R & Q). exists r. split; [right; exact R|exact Q]. }
  destruct (negb timed && (length got <? num)) eqn:B; [exact IH'|]. destruct got as [|x g] eqn:G; [exact IH'|].
  exists ready. split; [left; reflexivity|]. split; [symmetry; exact G|]. split; [discriminate|]. intros ->. cbn [negb andb] in B. apply Nat.ltb_ge in B.
  assert (L : length (x :: g) <= num) by (rewrite <- G; apply firstn_le_length). lia.
Qed.
Lemma wait_loop_few : forall timed handle conn num rounds, rounds <> [] -> length conn < num -> wait_loop timed handle conn num rounds = Err ValueError.
Proof.
  intros timed handle conn num [|ready rounds] R H; [contradiction|]. cbn [wait_loop]. unfold wait_workers, ray_wait. rewrite map_length.
  replace (num <=? length conn) with false by (symmetry; apply Nat.leb_gt; exact H). rewrite andb_false_r. reflexivity.
Qed.

Lemma NoDup_firstn : forall {A} k (l : list A), NoDup l -> NoDup (firstn k l).
Proof. intros A k l N. rewrite <- (firstn_skipn k l) in N. induction (firstn k l) as [|x m IH]; [constructor|]. cbn [app] in N. inversion N; subst. constructor; [intros Hc; apply H1; apply in_or_app; left; exact Hc|apply IH; assumption]. Qed.
Lemma in_firstn : forall {A} k (l : list A) x, In x (firstn k l) -> In x l.
Proof. intros A k l x H. rewrite <- (firstn_skipn k l). apply in_or_app. left. exact H. Qed.

Lemma wait_nodup : forall n v, av_ok n v -> NoDup (a_wait v).
Proof.
  intros n v (_ & P & _). assert (Q : NoDup (a_wait v ++ a_ready v)) by (apply (Permutation_NoDup (Permutation_sym P)), seq_NoDup).
  clear P. induction (a_wait v) as [|x l IH]; [constructor|]. inversion Q; subst. constructor; [intros Hc; apply H1; apply in_or_app; left; exact Hc|apply IH; assumption].
Qed.

(** The part of a step after the actions have been sent. *)
Definition after_send (timed : bool) (num : nat) (v : av) (rounds : list (nat -> bool)) : res (list (nat * nat)) * av :=
  match wait_loop timed (a_handle v) (a_conn v) num rounds with
  | Err e => (Err e, v)
  | Ok got => match foldM recv_one got (v, []) with Ok (v, out) => (Ok out, v) | Err e => (Err e, v) end
  end.
Lemma after_ok : forall timed num n v rounds, av_ok n v -> 1 <= num -> num <= length (a_wait v) ->
  let '(r, w) := after_send timed num v rounds in
  av_ok n w /\
  match r with
  | Ok out => let got := map fst out in
      (exists ready, In ready rounds /\ got = firstn num (filter (fun i => ready (a_handle v i)) (a_wait v))) /\
      got <> [] /\ (timed = false -> length got = num) /\ out = map (fun i => (i, a_handle v i)) got /\
      a_wait w = filter (fun i => negb (mem i got)) (a_wait v) /\ a_ready w = a_ready v ++ got
  | Err e => e = OutOfFuel /\ w = v
  end.
Proof.
  intros timed num n v rounds K H1 H2. pose proof (wait_nodup n v K) as Nw. pose proof K as (E & P & N & F). unfold after_send. rewrite E.
  pose proof (wait_loop_ok timed (a_handle v) (a_wait v) num rounds N H1 H2) as L. destruct (wait_loop timed (a_handle v) (a_wait v) num rounds) as [got|e]; [|split; [exact K|split; [exact L|reflexivity]]].
  destruct L as (ready & R & G & G0 & G1).
  assert (Ng : NoDup got) by (rewrite G; apply NoDup_firstn, NoDup_filter, Nw).
  assert (I : forall i, In i got -> In i (a_wait v)) by (intros i Hi; rewrite G in Hi; apply in_firstn, filter_In in Hi; apply (proj1 Hi)).
  rewrite (recv_fold got v [] E Nw Ng I). cbn [app]. assert (Mf : map fst (map (fun i => (i, a_handle v i)) got) = got).
  { rewrite map_map. cbn [fst]. apply map_id. }
  rewrite Mf. split; [|split; [exists ready; split; [exact R|exact G]|split; [exact G0|split; [exact G1|split; [reflexivity|split; reflexivity]]]]].
  split; [reflexivity|]. cbn [a_wait a_ready a_handle a_next]. split; [|split].
  - rewrite <- P. rewrite (app_assoc _ (a_ready v) got). rewrite (Permutation_app_comm _ got), app_assoc. apply Permutation_app_tail. apply filter_perm; assumption.
  - set (f := fun y => negb (mem y got)). clear - N. induction (a_wait v) as [|x l IH]; [constructor|]. cbn [map] in N. inversion N; subst. cbn [filter]. destruct (f x); [|apply IH; assumption].
    cbn [map]. constructor; [|apply IH; assumption]. intros Hc. apply H1. apply in_map_iff in Hc as (y & Ey & Hy). apply in_map_iff. exists y. split; [exact Ey|]. apply filter_In in Hy. apply (proj1 Hy).
  - apply Forall_forall. intros i Hi. apply filter_In in Hi as [Hi _]. rewrite Forall_forall in F. apply F, Hi.
Qed.

Lemma a_step_after : forall timed num v sent rounds,
  a_step timed num v sent rounds = match sent with
    | Some ids => if ids_ok v ids then after_send timed num (send_all v ids) rounds else (Err AssertionError, v)
    | None => after_send timed num v rounds end.
Proof. intros timed num v [ids|] rounds; reflexivity. Qed.

Lemma wait_loop_zero : forall timed handle conn rounds, NoDup (map handle conn) -> match wait_loop timed handle conn 0 rounds with Ok _ => False | Err _ => True end.
Proof. intros timed handle conn [|ready rounds] N; [exact Logic.I|]. cbn [wait_loop]. unfold wait_workers, ray_wait. cbn [Nat.leb andb guard negb bind]. exact Logic.I. Qed.

Lemma after_inv : forall timed num n v rounds, av_ok n v -> av_ok n (snd (after_send timed num v rounds)).
Proof.
  intros timed num n v rounds K. destruct rounds as [|r rs]; [exact K|].
  destruct (le_lt_dec num (length (a_wait v))) as [L|L].
  - destruct num as [|num].
    + pose proof K as (E & P & N & F). unfold after_send. rewrite E. pose proof (wait_loop_zero timed (a_handle v) (a_wait v) (r :: rs) N) as Z. destruct (wait_loop timed (a_handle v) (a_wait v) 0 (r :: rs)); [destruct Z|exact K].
    + pose proof (after_ok timed (S num) n v (r :: rs) K (le_n_S _ _ (Nat.le_0_l _)) L) as A. destruct (after_send timed (S num) v (r :: rs)) as [x w]. apply (proj1 A).
  - unfold after_send. rewrite wait_loop_few; [exact K|discriminate|]. destruct K as (E & _). rewrite E. exact L.
Qed.
Lemma reach_ok : forall timed num n v, a_reach timed num n v -> av_ok n v.
Proof.
  intros timed num n v H. induction H as [|v sent rounds H IH Ns].
  - split; [reflexivity|]. split; [apply Permutation_refl|]. split; constructor.
  - rewrite a_step_after. destruct sent as [ids|]; [|apply after_inv, IH]. destruct (ids_ok v ids) eqn:E; [|exact IH]. apply after_inv. apply send_all_ok; assumption.
Qed.

(** C379.  After any steps, an environment is waiting or ready, never both; waiting_conn and waiting_id go together. *)
Lemma C379_partition_lemma : forall (timed : bool) (num n : nat) (v : av), a_reach timed num n v ->
  a_conn v = a_wait v /\ Permutation (a_wait v ++ a_ready v) (seq 0 n) /\ NoDup (map (a_handle v) (a_wait v)).
Proof. intros timed num n v H. destruct (reach_ok timed num n v H) as (E & P & N & _). repeat split; assumption. Qed.

(** C379.  With at least wait_num environments waiting, a step of ready ones either keeps waiting or
    returns the first wait_num of the waiting environments whose results are there, each with the
    result of the action it was sent last; these become ready and the others go on waiting.  Without
    a timeout there are exactly wait_num of them. *)
Lemma C379_step_partial_lemma : forall (timed : bool) (num n : nat) (v : av) (ids : list nat) (rounds : list (nat -> bool)),
  a_reach timed num n v -> NoDup ids -> (forall i, In i ids -> In i (a_ready v)) ->
  1 <= num -> num <= length (a_wait v) + length ids ->
  let s := send_all v ids in
  let '(r, w) := a_step timed num v (Some ids) rounds in
  match r with
  | Ok out => let got := map fst out in
      (exists ready, In ready rounds /\ got = firstn num (filter (fun i => ready (a_handle s i)) (a_wait v ++ ids))) /\
      got <> [] /\ (timed = false -> length got = num) /\ out = map (fun i => (i, a_handle s i)) got /\
      a_wait w = filter (fun i => negb (mem i got)) (a_wait v ++ ids) /\
      a_ready w = filter (fun i => negb (mem i ids)) (a_ready v) ++ got
  | Err e => e = OutOfFuel
  end.
Proof.
  intros timed num n v ids rounds Hr Ni I H1 H2 s. pose proof (reach_ok timed num n v Hr) as K.
  assert (O : ids_ok v ids = true).
  { apply ids_ok_iff. intros i Hi. split; [|apply I, Hi]. intros Hw. destruct K as (_ & P & _).
    assert (Q : NoDup (a_wait v ++ a_ready v)) by (apply (Permutation_NoDup (Permutation_sym P)), seq_NoDup).
    specialize (I i Hi). clear - Q Hw I. induction (a_wait v) as [|x l IH]; [destruct Hw|]. cbn [app] in Q. inversion Q; subst. destruct Hw as [->|Hw]; [apply H1, in_or_app; right; exact I|apply IH; assumption]. }
  destruct (send_all_ok n v ids K Ni O) as (K' & W & Rd). fold s in K', W, Rd. rewrite a_step_after, O. fold s.
  assert (L : num <= length (a_wait s)) by (rewrite W, app_length; exact H2).
  pose proof (after_ok timed num n s rounds K' H1 L) as A. destruct (after_send timed num s rounds) as [r w]. destruct A as (_ & A).
  rewrite <- W, <- Rd. destruct r as [out|e]; [exact A|apply (proj1 A)].
Qed.

(** C379.  With fewer waiting than wait_num the step raises a ValueError, whatever is ready, after the actions
    have been sent: the environments now count as waiting. *)
Lemma C379_fewer_refuted_lemma : forall (timed : bool) (num n : nat) (v : av) (ids : list nat) (rounds : list (nat -> bool)),
  a_reach timed num n v -> NoDup ids -> (forall i, In i ids -> In i (a_ready v)) -> rounds <> [] ->
  length (a_wait v) + length ids < num ->
  exists w, a_step timed num v (Some ids) rounds = (Err ValueError, w) /\ a_wait w = a_wait v ++ ids /\
            a_step timed num w None rounds = (Err ValueError, w).
Proof.
  intros timed num n v ids rounds Hr Ni I R H2. pose proof (reach_ok timed num n v Hr) as K.
  assert (O : ids_ok v ids = true).
  { apply ids_ok_iff. intros i Hi. split; [|apply I, Hi]. intros Hw. destruct K as (_ & P & _).
    assert (Q : NoDup (a_wait v ++ a_ready v)) by (apply (Permutation_NoDup (Permutation_sym P)), seq_NoDup).
    specialize (I i Hi). clear - Q Hw I. induction (a_wait v) as [|x l IH]; [destruct Hw|]. cbn [app] in Q. inversion Q; subst. destruct Hw as [->|Hw]; [apply H1, in_or_app; right; exact I|apply IH; assumption]. }
  destruct (send_all_ok n v ids K Ni O) as (K' & W & Rd). exists (send_all v ids). rewrite !a_step_after, O.
  assert (L : length (a_conn (send_all v ids)) < num) by (destruct K' as (E & _); rewrite E, W, app_length; exact H2).
  unfold after_send. rewrite (wait_loop_few _ _ _ _ _ R L). split; [reflexivity|]. split; [exact W|reflexivity].
Qed.

(** C379.  A collector, which sends an action to every ready environment, never gets that error. *)
Lemma C379_collector_lemma : forall (timed : bool) (num n : nat) (v : av) (rounds : list (nat -> bool)) (e : exn),
  a_reach timed num n v -> 1 <= num -> num <= n -> fst (a_step timed num v (Some (a_ready v)) rounds) = Err e -> e = OutOfFuel.
Proof.
  intros timed num n v rounds e Hr H1 H2 H. pose proof (reach_ok timed num n v Hr) as (_ & P & _).
  assert (Q : NoDup (a_wait v ++ a_ready v)) by (apply (Permutation_NoDup (Permutation_sym P)), seq_NoDup).
  assert (N : NoDup (a_ready v)) by (clear - Q; induction (a_wait v) as [|x l IH]; [exact Q|]; inversion Q; apply IH; assumption).
  assert (L : length (a_wait v) + length (a_ready v) = n) by (rewrite <- app_length, (Permutation_length P), seq_length; reflexivity).
  pose proof (C379_step_partial_lemma timed num n v (a_ready v) rounds Hr N (fun i Hi => Hi) H1) as A. specialize (A ltac:(lia)). cbv zeta in A.
  destruct (a_step timed num v (Some (a_ready v)) rounds) as [r w]. cbn [fst] in H. subst r. exact A.
Qed.

Lemma wait_loop_live : forall (timed : bool) (handle : nat -> nat) (conn : list nat) (num : nat) (rounds : list (nat -> bool)) (ready : nat -> bool), NoDup (map handle conn) -> 1 <= num -> num <= length conn ->
  In ready rounds -> (if timed then 1 else num) <= length (filter (fun i => ready (handle i)) conn) ->
  exists got, wait_loop timed handle conn num rounds = Ok got.
Proof.
  intros timed handle conn num rounds ready N H1 H2. induction rounds as [|r rounds IH]; intros R H; [destruct R|]. cbn [wait_loop].
  rewrite (C376_wait_lemma nat handle r conn num N H1 H2). cbn [bind]. set (got := firstn num (filter (fun w => r (handle w)) conn)).
  destruct R as [->|R].
  - assert (L : (if timed then 1 else num) <= length got) by (subst got; rewrite firstn_length; destruct timed; lia).
    destruct (negb timed && (length got <? num)) eqn:B.
    + exfalso. apply andb_prop in B as [B1 B2]. apply negb_true_iff in B1. subst timed. apply Nat.ltb_lt in B2. lia.
    + destruct got as [|x g]; [exfalso; cbn [length] in L; destruct timed; lia|]. exists (x :: g). reflexivity.
  - specialize (IH R H). destruct (negb timed && (length got <? num)); [exact IH|]. destruct got as [|x g]; [exact IH|]. exists (x :: g). reflexivity.
Qed.
(** C379.  And it returns once wait_num of the waiting environments, or any of them if there is a timeout,
    have a result. *)
Lemma C379_returns_partial_lemma : forall (timed : bool) (num n : nat) (v : av) (ids : list nat) (rounds : list (nat -> bool)) (ready : nat -> bool),
  a_reach timed num n v -> NoDup ids -> (forall i, In i ids -> In i (a_ready v)) ->
  1 <= num -> num <= length (a_wait v) + length ids -> In ready rounds ->
  (if timed then 1 else num) <= length (filter (fun i => ready (a_handle (send_all v ids) i)) (a_wait v ++ ids)) ->
  is_ok (fst (a_step timed num v (Some ids) rounds)) = true.
Proof.
  intros timed num n v ids rounds ready Hr Ni I H1 H2 R H. pose proof (reach_ok timed num n v Hr) as K.
  assert (O : ids_ok v ids = true).
  { apply ids_ok_iff. intros i Hi. split; [|apply I, Hi]. intros Hw. destruct K as (_ & P & _).
    assert (Q : NoDup (a_wait v ++ a_ready v)) by (apply (Permutation_NoDup (Permutation_sym P)), seq_NoDup).
    specialize (I i Hi). clear - Q Hw I. induction (a_wait v) as [|x l IH]; [destruct Hw|]. cbn [app] in Q. inversion Q; subst. destruct Hw as [->|Hw]; [apply H1, in_or_app; right; exact I|apply IH; assumption]. }
  destruct (send_all_ok n v ids K Ni O) as (K' & W & Rd). rewrite a_step_after, O. set (s := send_all v ids) in *.
  assert (L : num <= length (a_wait s)) by (rewrite W, app_length; exact H2).
  destruct K' as (E & P' & N' & F'). rewrite <- W in H. destruct (wait_loop_live timed (a_handle s) (a_wait s) num rounds ready N' H1 L R H) as (got & G).
  pose proof (after_ok timed num n s rounds (conj E (conj P' (conj N' F'))) H1 L) as A. destruct (after_send timed num s rounds) as [r w] eqn:Sx. destruct A as (_ & A).
  cbn [fst]. destruct r as [out|e]; [reflexivity|]. destruct A as (A & _). subst e. exfalso. unfold after_send in Sx. rewrite E, G in Sx.
  pose proof (wait_loop_ok timed (a_handle s) (a_wait s) num rounds N' H1 L) as Q. rewrite G in Q. destruct Q as (rd & _ & Q & _).
  rewrite (recv_fold got s [] E (wait_nodup n s (conj E (conj P' (conj N' F'))))) in Sx; [discriminate| |].
  - rewrite Q. apply NoDup_firstn, NoDup_filter, (wait_nodup n s (conj E (conj P' (conj N' F')))).
  - intros i Hi. rewrite Q in Hi. apply in_firstn, filter_In in Hi. apply (proj1 Hi).
Qed.
