(** * Proofs about GAE, Monte-Carlo returns and the n-step loop (list level) *)
From Verif Require Import Py PyLemmas Num BufferModel BufferSpec ReturnsModel ReturnsSpec.
Open Scope nat_scope.

(** ** Sums *)
Lemma sum_n_0 f : sum_n 0 f = 0%Qc. Proof. reflexivity. Qed.
Lemma sum_n_S n f : sum_n (S n) f = (f 0%nat + sum_n n (fun l => f (S l)))%Qc.
Proof. unfold sum_n. cbn [seq map qsum]. rewrite <- seq_shift, map_map. reflexivity. Qed.
Lemma sum_n_ext n f g : (forall l, l < n -> f l = g l) -> sum_n n f = sum_n n g.
Proof.
  intros H. unfold sum_n. f_equal. apply map_ext_in. intros l Hl. apply H. apply in_seq in Hl. lia.
Qed.
Lemma sum_n_scale n c f : sum_n n (fun l => (c * f l)%Qc) = (c * sum_n n f)%Qc.
Proof.
  revert f; induction n as [|n IH]; intros f; [rewrite !sum_n_0; ring|].
  rewrite !sum_n_S, IH. ring.
Qed.
Lemma sum_n_split a b f : sum_n (a + b) f = (sum_n a f + sum_n b (fun l => f (a + l)%nat))%Qc.
Proof.
  revert f; induction a as [|a IH]; intros f; [rewrite sum_n_0; change (sum_n b (fun l => f (0 + l)%nat)) with (sum_n b f); change (0 + b) with b; ring|].
  cbn [Nat.add]. rewrite !sum_n_S, IH. ring.
Qed.
Lemma qcpow_S (g : Qc) n : (g ^ S n = g * g ^ n)%Qc. Proof. reflexivity. Qed.

Lemma skipn_cons {T} (l : list T) i x : nth_error l i = Some x -> skipn i l = x :: skipn (S i) l.
Proof.
  revert i; induction l as [|a l IH]; intros [|i] H; try discriminate; cbn in *.
  - injection H as ->. reflexivity.
  - apply IH. exact H.
Qed.

(** ** GAE *)
Lemma gae_loop_length delta disc : length delta = length disc -> length (gae_loop delta disc) = length delta.
Proof.
  revert disc; induction delta as [|d delta IH]; intros [|c disc] H; try discriminate; cbn in *; auto.
Qed.

Lemma nth_0_hd {T} (l : list T) d : hd d l = nth 0 l d. Proof. destruct l; reflexivity. Qed.

Lemma gae_loop_closed g : forall delta ends i, length delta = length ends -> i < length delta ->
  nth i (gae_loop delta (map (fun e => ((1 - b2q e) * g)%Qc) ends)) 0%Qc
  = sum_n (steps_left ends i) (fun l => (g ^ l * nth (i + l)%nat delta 0)%Qc).
Proof.
  induction delta as [|d delta IH]; intros [|e ends] i Hl Hi; try discriminate; cbn [length] in *; [lia|].
  injection Hl as Hl. destruct i as [|i].
  - cbn [map gae_loop nth]. rewrite nth_0_hd. unfold steps_left. cbn [skipn run_length]. destruct e; cbn [b2q].
    + rewrite sum_n_S, sum_n_0. cbn [Qcpower nth Nat.add]. ring.
    + rewrite sum_n_S. cbn [Qcpower nth Nat.add].
      destruct delta as [|d' delta].
      * destruct ends; [|discriminate]. cbn. ring.
      * rewrite IH by (cbn [length] in *; lia). unfold steps_left. cbn [skipn].
        rewrite (sum_n_ext _ (fun l => (g ^ S l * nth (S l) (d :: d' :: delta) 0)%Qc)
                   (fun l => (g * (g ^ l * nth (0 + l)%nat (d' :: delta) 0))%Qc)).
        2:{ intros l _. rewrite qcpow_S. cbn [Nat.add]. change (nth (S l) (d :: d' :: delta) 0%Qc) with (nth l (d' :: delta) 0%Qc). ring. }
        rewrite sum_n_scale. ring.
  - cbn [map gae_loop nth]. rewrite IH by lia. reflexivity.
Qed.

(** C21.  Every advantage is the exponentially weighted sum of the TD errors from its step to the
    first end flag (or the end of the batch). *)
Lemma C21_gae_closed_form_lemma : forall v_s v_s_ rew end_flag gamma lam,
  length v_s = length rew -> length v_s_ = length rew -> length end_flag = length rew ->
  let adv := gae_return v_s v_s_ rew end_flag gamma lam in
  let delta j := (nth j rew 0 + gamma * nth j v_s_ 0 - nth j v_s 0)%Qc in
  length adv = length rew
  /\ forall i, i < length rew ->
     nth i adv 0%Qc = sum_n (steps_left end_flag i) (fun l => ((gamma * lam) ^ l * delta (i + l)%nat)%Qc).
Proof.
  intros v_s v_s_ rew ends gamma lam H1 H2 H3 adv delta.
  set (dl := map (fun x => let '(r, v', v) := x in (r + v' * gamma - v)%Qc) (combine (combine rew v_s_) v_s)).
  assert (Hdl : length dl = length rew).
  { unfold dl. rewrite map_length, !combine_length. lia. }
  assert (Hnth : forall j, j < length rew -> nth j dl 0%Qc = delta j).
  { unfold dl, delta. clear - H1 H2. revert v_s v_s_ H1 H2. induction rew as [|r rew IH]; intros [|v vs] [|v' vs'] H1 H2 j Hj;
      try discriminate; cbn [length] in *; [lia|].
    destruct j as [|j]; cbn [combine map nth]; [ring|]. apply IH; lia. }
  split.
  - unfold adv, gae_return. fold dl. rewrite gae_loop_length; [exact Hdl|]. rewrite map_length. lia.
  - intros i Hi. unfold adv, gae_return. fold dl. rewrite gae_loop_closed by lia.
    apply sum_n_ext. intros l Hl. rewrite Hnth; [reflexivity|].
    assert (G : forall fl, run_length fl <= length fl).
    { clear. induction fl as [|e fl IH]; cbn; [lia|]. destruct e; lia. }
    unfold steps_left in Hl. pose proof (G (skipn i ends)) as G'. rewrite skipn_length in G'. lia.
Qed.

(** C21.  The recursion: an advantage is its TD error plus the discounted next advantage, unless
    its end flag is set. *)
Lemma C21_gae_recursion_lemma : forall v_s v_s_ rew end_flag gamma lam i,
  length v_s = length rew -> length v_s_ = length rew -> length end_flag = length rew -> i < length rew ->
  let adv := gae_return v_s v_s_ rew end_flag gamma lam in
  nth i adv 0%Qc
  = (nth i rew 0 + gamma * nth i v_s_ 0 - nth i v_s 0
     + if nth i end_flag false then 0 else gamma * lam * nth (S i) adv 0)%Qc.
Proof.
  intros v_s v_s_ rew ends gamma lam i H1 H2 H3 Hi. cbv zeta. unfold gae_return.
  revert v_s v_s_ ends i H1 H2 H3 Hi. induction rew as [|r rew IH]; intros [|v vs] [|v' vs'] [|e ends] i H1 H2 H3 Hi;
    try discriminate; cbn [length] in *; [lia|].
  destruct i as [|i]; cbn [combine map gae_loop nth].
  - rewrite nth_0_hd. destruct e; cbn [b2q]; ring.
  - apply IH; lia.
Qed.

(** C24.  Monte-Carlo return-to-go. *)
Lemma C24_return_to_go_lemma : forall rewards gamma, rewards <> [] ->
  exists l, episode_mc_return_to_go rewards gamma = Ok l /\ length l = length rewards
    /\ forall t, t < length rewards ->
       nth t l 0%Qc = sum_n (length rewards - t) (fun k => (gamma ^ k * nth (t + k)%nat rewards 0)%Qc).
Proof.
  intros rewards gamma Hne. exists (mc_loop rewards gamma). split; [destruct rewards; [contradiction|reflexivity]|].
  clear Hne. induction rewards as [|r rest [IHl IH]]; [split; [reflexivity|intros t Ht; cbn in Ht; lia]|].
  destruct rest as [|r' rest].
  - split; [reflexivity|]. intros t Ht. cbn [length] in Ht. assert (t = 0) as -> by lia.
    cbn [length Nat.sub]. rewrite sum_n_S, sum_n_0. cbn. ring.
  - change (mc_loop (r :: r' :: rest) gamma) with
      ((r + gamma * hd 0 (mc_loop (r' :: rest) gamma))%Qc :: mc_loop (r' :: rest) gamma).
    split; [cbn [length]; rewrite IHl; reflexivity|]. intros t Ht. destruct t as [|t].
    + cbn [nth]. rewrite nth_0_hd, IH by (cbn [length]; lia). rewrite Nat.sub_0_r.
      change (length (r :: r' :: rest)) with (S (length (r' :: rest))). rewrite Nat.sub_0_r, sum_n_S.
      rewrite (sum_n_ext _ (fun l => (gamma ^ S l * nth (0 + S l)%nat (r :: r' :: rest) 0)%Qc)
                 (fun l => (gamma * (gamma ^ l * nth (0 + l)%nat (r' :: rest) 0))%Qc)).
      2:{ intros l _. rewrite qcpow_S. cbn [Nat.add]. change (nth (S l) (r :: r' :: rest) 0%Qc) with (nth l (r' :: rest) 0%Qc). ring. }
      rewrite sum_n_scale. cbn [Qcpower nth Nat.add]. ring.
    + cbn [nth]. change (length (r :: r' :: rest) - S t) with (length (r' :: rest) - t).
      rewrite IH by (cbn [length] in *; lia). reflexivity.
Qed.

(** ** lambda-returns *)
Fixpoint sfx {X Y} (f : list X -> Y) (xs : list X) : list Y :=
  match xs with [] => [] | x :: t => f (x :: t) :: sfx f t end.

Lemma sfx_length {X Y} (f : list X -> Y) xs : length (sfx f xs) = length xs.
Proof. induction xs as [|x xs IH]; cbn; auto. Qed.

Section Lam.
Context {X : Type}.
Variables (r v' : X -> Qc) (e : X -> bool) (gamma lam : Qc).

Definition lamF (xs : list X) : Qc :=
  lambda_return gamma lam (map (fun x => (r x, v' x)) (firstn (run_length (map e xs)) xs)).

Fixpoint chain (xs : list X) (vs : list Qc) : Prop :=
  match xs, vs with
  | x :: ((_ :: _) as t), _ :: ((w :: _) as vt) => (e x = false -> w = v' x) /\ chain t vt
  | _, _ => True
  end.

Lemma gae_lambda : forall xs vs, length vs = length xs -> chain xs vs ->
  map (fun x => (fst x + snd x)%Qc) (combine (gae_return vs (map v' xs) (map r xs) (map e xs) gamma lam) vs)
  = sfx lamF xs.
Proof.
  unfold gae_return. induction xs as [|x xs IH]; intros [|v vs] Hl Hc; try discriminate; [reflexivity|].
  cbn [length] in Hl. injection Hl as Hl. cbn [map combine gae_loop sfx fst snd].
  destruct xs as [|y xs].
  - destruct vs; [|discriminate]. cbn [map combine gae_loop sfx hd]. f_equal. unfold lamF. cbn [map run_length firstn].
    destruct (e x); cbn [firstn map lambda_return b2q]; ring.
  - destruct vs as [|w vs]; [discriminate|]. destruct Hc as [Hw Hc]. specialize (IH (w :: vs) Hl Hc).
    f_equal; [|exact IH].
    set (rest := gae_loop _ _) in *.
    assert (Hhd : (hd 0 rest + w = lamF (y :: xs))%Qc).
    { cbn [sfx] in IH. destruct rest as [|g rest'] eqn:Er.
      - cbn in IH. discriminate.
      - cbn [combine map fst snd] in IH. injection IH as IH _. exact IH. }
    unfold lamF. cbn [map run_length]. destruct (e x) eqn:Ee.
    + cbn [firstn map lambda_return b2q]. ring.
    + specialize (Hw eq_refl). subst w.
      unfold lamF in Hhd. cbn [map run_length] in Hhd.
      set (k := if e y then 1 else S (run_length (map e xs))) in *.
      assert (Hk : exists k', k = S k') by (unfold k; destruct (e y); eauto). destruct Hk as [k' Ek].
      rewrite Ek in *. cbn [firstn map] in *.
      set (L := (r y, v' y) :: map (fun x => (r x, v' x)) (firstn k' xs)) in *.
      change (lambda_return gamma lam ((r x, v' x) :: L))
        with (r x + gamma * ((1 - lam) * v' x + lam * lambda_return gamma lam L))%Qc.
      rewrite <- Hhd. cbn [b2q]. ring.
Qed.
End Lam.

Lemma chain_roll {X} (v' : X -> Qc) e xs : chain v' e xs (roll1 (map v' xs)).
Proof.
  destruct xs as [|x xs]; [exact I|]. unfold roll1. cbn [map]. fold (map v' xs).
  generalize (last (v' x :: map v' xs) (v' x)) as a. revert x. induction xs as [|y xs IH]; intros x a.
  - exact I.
  - cbn [map]. change (removelast (v' x :: v' y :: map v' xs)) with (v' x :: removelast (v' y :: map v' xs)).
    split; [reflexivity|exact (IH y (v' x))].
Qed.

Lemma roll1_length {X} (l : list X) : length (roll1 l) = length l.
Proof.
  destruct l as [|x l]; [reflexivity|]. unfold roll1. cbn [length]. f_equal.
  revert x. induction l as [|y l IH]; intros x; [reflexivity|]. change (removelast (x :: y :: l)) with (x :: removelast (y :: l)).
  cbn [length]. rewrite IH. reflexivity.
Qed.

(** ** n-step *)
Lemma gamma_buffer_nth gamma n : forall acc g, g <= n -> nth g (gamma_buffer acc gamma n) 0%Qc = (acc * gamma ^ g)%Qc.
Proof.
  induction n as [|n IH]; intros acc g Hg; (destruct g as [|g]; [cbn; ring|]); [lia|].
  cbn [gamma_buffer nth]. rewrite IH by lia. rewrite qcpow_S. ring.
Qed.

(** ** last_of *)
Section LastOf.
Context {Ob A Inf R : Type}.
Notation slot := (slot Ob A Inf R).

Lemma last_of__spec (q : list slot) : forall f p, let L := last_of_ q f p in
  p <= L <= p + f /\ (forall r, p <= r < L -> qdone q r = false) /\ (L = p + f \/ qdone q L = true).
Proof.
  induction f as [|f IH]; intros p L; subst L; cbn [last_of_].
  - split; [lia|]. split; [intros r Hr; lia|left; lia].
  - destruct (qdone q p) eqn:E.
    + split; [lia|]. split; [intros r Hr; lia|auto].
    + destruct (IH (S p)) as (H1 & H2 & H3). split; [lia|]. split.
      * intros r Hr. destruct (Nat.eq_dec r p) as [->|]; [exact E|]. apply H2. lia.
      * destruct H3 as [H3|H3]; [left; lia|auto].
Qed.

Lemma last_of_spec (q : list slot) p : p < length q -> let L := last_of q p in
  p <= L < length q /\ (forall r, p <= r < L -> qdone q r = false) /\ (L = length q - 1 \/ qdone q L = true).
Proof.
  intros Hp L. destruct (last_of__spec q (length q - 1 - p) p) as (H1 & H2 & H3).
  change (last_of_ q (length q - 1 - p) p) with L in *. split; [lia|]. split; [exact H2|].
  destruct H3 as [H3|H3]; [left; lia|auto].
Qed.

(** The end flag used by the return computations. *)
Definition qend (q : list slot) (p : nat) : bool := qdone q p || (p =? length q - 1).

Lemma last_of_end (q : list slot) p r : p < length q -> p <= r <= last_of q p -> qend q r = (r =? last_of q p).
Proof.
  intros Hp Hr. destruct (last_of_spec q p Hp) as (H1 & H2 & H3). unfold qend.
  destruct (Nat.eqb_spec r (last_of q p)) as [->|Hne].
  - destruct H3 as [E|E]; rewrite E; [rewrite Nat.eqb_refl, orb_true_r; reflexivity|reflexivity].
  - rewrite H2 by lia. cbn [orb]. apply Nat.eqb_neq. lia.
Qed.

Definition walk (q : list slot) (n p : nat) : nat := Nat.min (p + n) (last_of q p).

Lemma walk_S (q : list slot) n p : p < length q -> succ_of q (walk q n p) = walk q (S n) p.
Proof.
  intros Hp. destruct (last_of_spec q p Hp) as (H1 & H2 & H3). unfold walk, succ_of.
  destruct (Nat.lt_ge_cases (p + n) (last_of q p)) as [H|H].
  - rewrite Nat.min_l by lia. rewrite H2 by lia. destruct (Nat.eqb_spec (S (p + n)) (length q)); [lia|]. cbn [orb]. lia.
  - rewrite Nat.min_r by lia. destruct H3 as [H3|H3].
    + destruct (Nat.eqb_spec (S (last_of q p)) (length q)); [cbn [orb]; lia|lia].
    + rewrite H3, orb_true_r. lia.
Qed.
Lemma walk_lt (q : list slot) n p : p < length q -> walk q n p < length q.
Proof. intros Hp. destruct (last_of_spec q p Hp) as (H1 & _). unfold walk. lia. Qed.
Lemma walk_0 (q : list slot) p : p < length q -> walk q 0 p = p.
Proof. intros Hp. destruct (last_of_spec q p Hp) as (H1 & _). unfold walk. lia. Qed.

Lemma run_length_ends (q : list slot) p : p < length q ->
  run_length (map (qend q) (seq p (length q - p))) = last_of q p + 1 - p.
Proof.
  intros Hp. destruct (last_of_spec q p Hp) as (H1 & _ & _).
  assert (G : forall d n, p <= n -> n + d = last_of q p -> run_length (map (qend q) (seq n (length q - n))) = d + 1).
  { induction d as [|d IH]; intros n Hn Hd.
    - replace (length q - n) with (S (length q - n - 1)) by lia. cbn [seq map run_length].
      rewrite (last_of_end q p n Hp) by lia. destruct (Nat.eqb_spec n (last_of q p)); [reflexivity|lia].
    - replace (length q - n) with (S (length q - S n)) by lia. cbn [seq map run_length].
      rewrite (last_of_end q p n Hp) by lia. destruct (Nat.eqb_spec n (last_of q p)); [lia|].
      rewrite IH by lia. lia. }
  rewrite (G (last_of q p - p) p) by lia. lia.
Qed.
End LastOf.
