(** * Proofs of laws of returns *)
From Verif Require Import Py PyLemmas Num BufferModel BufferSpec BufferMainProofs ManagerModel ManagerSpec.
From Verif Require Import ReturnsModel ReturnsSpec ReturnsProofs ReturnsMainProofs LawsSpec.
Open Scope nat_scope.

(** ** Sums *)
Lemma sum_n_plus n f g : sum_n n (fun l => (f l + g l)%Qc) = (sum_n n f + sum_n n g)%Qc.
Proof.
  revert f g; induction n as [|n IH]; intros f g; [rewrite !sum_n_0; ring|]. rewrite !sum_n_S, IH. ring.
Qed.
Lemma geometric lam n : ((1 - lam) * sum_n n (fun k => lam ^ k) = 1 - lam ^ n)%Qc.
Proof.
  induction n as [|n IH]; [rewrite sum_n_0; cbn [Qcpower]; ring|].
  rewrite sum_n_S. rewrite (sum_n_ext _ (fun l => (lam ^ S l)%Qc) (fun l => (lam * lam ^ l)%Qc)) by reflexivity.
  assert (E : sum_n n (fun l => (lam * lam ^ l)%Qc) = (lam * sum_n n (fun k => (lam ^ k)%Qc))%Qc) by apply sum_n_scale.
  rewrite E, qcpow_S. cbn [Qcpower]. set (s := sum_n n _) in *. clearbody s.
  replace ((1 - lam) * (1 + lam * s))%Qc with ((1 - lam) + lam * ((1 - lam) * s))%Qc by ring.
  rewrite IH. ring.
Qed.

(** ** lambda-returns as mixtures *)
Section Mix.
Variables (r w : nat -> Qc) (gamma : Qc).
Definition gn (n p : nat) : Qc := (sum_n n (fun j => (gamma ^ j * r (p + j)%nat)%Qc) + gamma ^ n * w (p + n - 1)%nat)%Qc.

Lemma gn_1 p : gn 1 p = (r p + gamma * w p)%Qc.
Proof.
  unfold gn. rewrite sum_n_S, sum_n_0. cbn [Qcpower]. rewrite Nat.add_0_r. replace (p + 1 - 1) with p by lia. ring.
Qed.
Lemma gn_S n p : 0 < n -> gn (S n) p = (r p + gamma * gn n (S p))%Qc.
Proof.
  intros Hn. unfold gn. rewrite sum_n_S. cbn [Qcpower]. rewrite Nat.add_0_r.
  rewrite (sum_n_ext n _ (fun j => (gamma * (gamma ^ j * r (S p + j)%nat))%Qc)).
  2:{ intros l _. cbn [Qcpower]. replace (p + S l) with (S p + l) by lia. ring. }
  rewrite sum_n_scale. replace (p + S n - 1) with (S p + n - 1) by lia. ring.
Qed.

Lemma lambda_mix lam : forall L p,
  lambda_return gamma lam (map (fun j => (r j, w j)) (seq p (S L))) = mixture lam (S L) (fun n => gn n p).
Proof.
  induction L as [|L IH]; intros p.
  - cbn [seq map lambda_return]. unfold mixture. change (1 - 1) with 0. rewrite sum_n_0, gn_1. cbn [Qcpower]. ring.
  - change (seq p (S (S L))) with (p :: seq (S p) (S L)). cbn [map].
    change (lambda_return gamma lam ((r p, w p) :: map (fun j => (r j, w j)) (seq (S p) (S L))))
      with (r p + gamma * ((1 - lam) * w p + lam * lambda_return gamma lam (map (fun j => (r j, w j)) (seq (S p) (S L)))))%Qc.
    rewrite IH. unfold mixture. change (S (S L) - 1) with (S L). change (S L - 1) with (L - 0). rewrite Nat.sub_0_r.
    rewrite sum_n_S. rewrite gn_1, (gn_S (S L) p) by lia.
    rewrite (sum_n_ext L (fun l => (lam ^ S l * gn (S (S l)) p)%Qc)
      (fun k => (lam * (r p * lam ^ k + gamma * (lam ^ k * gn (S k) (S p))))%Qc)).
    2:{ intros l _. rewrite (gn_S (S l)) by lia. cbn [Qcpower]. ring. }
    rewrite sum_n_scale, sum_n_plus, !sum_n_scale.
    set (sg := sum_n L (fun k => (lam ^ k * gn (S k) (S p))%Qc)).
    pose proof (geometric lam L) as Hg. set (s := sum_n L (fun k => (lam ^ k)%Qc)) in *.
    rewrite !qcpow_S.
    change (lam ^ 0)%Qc with 1%Qc.
    set (lL := (lam ^ L)%Qc) in *.
    assert (E : ((1 - lam) * (lam * (r p * s)) = lam * r p * (1 - lL))%Qc) by (rewrite <- Hg; ring).
    replace ((1 - lam) * (1 * (r p + gamma * w p) + lam * (r p * s + gamma * sg)))%Qc
      with ((1 - lam) * (r p + gamma * w p) + (1 - lam) * (lam * (r p * s)) + (1 - lam) * lam * gamma * sg)%Qc by ring.
    rewrite E. ring.
Qed.

(** Values that satisfy the Bellman equation along a path. *)
Lemma gn_consistent (u : nat -> Qc) : forall n p,
  (forall j, p <= j <= p + n -> u j = (r j + gamma * w j)%Qc) ->
  (forall j, p <= j < p + n -> u (S j) = w j) -> gn (S n) p = u p.
Proof.
  induction n as [|n IH]; intros p H1 H2.
  - rewrite gn_1. rewrite (H1 p) by lia. reflexivity.
  - rewrite gn_S by lia. rewrite (IH (S p)).
    + rewrite (H2 p), (H1 p) by lia. reflexivity.
    + intros j Hj. apply H1. lia.
    + intros j Hj. apply H2. lia.
Qed.
End Mix.

Lemma mixture_const lam L G c : 0 < L -> (forall n, 0 < n <= L -> G n = c) -> mixture lam L G = c.
Proof.
  intros HL H. unfold mixture. rewrite (H L) by lia.
  rewrite (sum_n_ext (L - 1) _ (fun k => (c * lam ^ k)%Qc)).
  2:{ intros l Hl. rewrite (H (S l)) by lia. ring. }
  rewrite sum_n_scale. pose proof (geometric lam (L - 1)) as Hg.
  set (s := sum_n _ _) in *. set (t := (lam ^ (L - 1))%Qc) in *.
  replace ((1 - lam) * (c * s))%Qc with (c * ((1 - lam) * s))%Qc by ring. rewrite Hg. ring.
Qed.

Lemma pow_nonneg g n : (0 <= g)%Qc -> (0 <= g ^ n)%Qc.
Proof. intros H. induction n as [|n IH]; cbn [Qcpower]; [discriminate|]. set (t := (g ^ n)%Qc) in *. clearbody t. qcnra. Qed.

Section Spec.
Context {Ob A Inf : Type}.
Notation slot := (slot Ob A Inf Qc).

(** The n-step return of one position from one value. *)
Definition nval (q : list slot) gamma N p x : Qc :=
  let m := Nat.min N (steps_from q p) in
  (sum_n m (fun j => (gamma ^ j * rew_at q (p + j)%nat)%Qc)
   + gamma ^ m * (if term_at q (p + m - 1)%nat then 0 else x))%Qc.
Lemma nval_target (q : list slot) gamma N p x : nstep_target q gamma N p [x] = [nval q gamma N p x].
Proof. reflexivity. Qed.
Lemma nval_gn (q : list slot) gamma (v : nat -> Qc) N p :
  nval q gamma N p (v (nstep_reached q N p))
  = gn (rew_at q) (next_value q v) gamma (Nat.min N (steps_from q p)) p.
Proof. reflexivity. Qed.

Lemma steps_pos (q : list slot) p : p < length q -> 0 < steps_from q p /\ p + steps_from q p = last_of q p + 1.
Proof. intros H. unfold steps_from. pose proof (last_of_spec q p H) as X. cbv zeta in X. lia. Qed.

Lemma spec_mix (q : list slot) gamma lam v p : p < length q ->
  lambda_return gamma lam (map (fun j => (rew_at q j, next_value q v j)) (rest_of_episode q p))
  = mixture lam (steps_from q p) (fun N => nval q gamma N p (v (nstep_reached q N p))).
Proof.
  intros H. destruct (steps_pos q p H) as [HL _]. unfold rest_of_episode. fold (steps_from q p).
  destruct (steps_from q p) as [|L] eqn:E; [lia|]. rewrite lambda_mix. unfold mixture.
  assert (G : forall n, 0 < n <= S L -> nval q gamma n p (v (nstep_reached q n p)) = gn (rew_at q) (next_value q v) gamma n p).
  { intros n Hn. rewrite nval_gn, E. rewrite Nat.min_l by lia. reflexivity. }
  rewrite (G (S L)) by lia. f_equal. f_equal. apply sum_n_ext. intros l Hl. rewrite (G (S l)) by lia. reflexivity.
Qed.

Lemma spec_consistent (q : list slot) gamma v (u : nat -> Qc) N p : p < length q -> 0 < N ->
  (forall j, j < length q -> u j = (rew_at q j + gamma * next_value q v j)%Qc) ->
  (forall j, last_of q j <> j -> u (S j) = next_value q v j) ->
  nval q gamma N p (v (nstep_reached q N p)) = u p.
Proof.
  intros H HN H1 H2. rewrite nval_gn. destruct (steps_pos q p H) as [HL HE].
  pose proof (last_of_spec q p H) as X. cbv zeta in X.
  destruct (Nat.min N (steps_from q p)) as [|m] eqn:Em; [lia|].
  apply gn_consistent.
  - intros j Hj. apply H1. lia.
  - intros j Hj. apply H2. intros Hl.
    pose proof (last_of_end q p j H ltac:(lia)) as E1.
    pose proof (last_of_end q j j ltac:(lia) ltac:(lia)) as E2. rewrite Hl, Nat.eqb_refl in E2. rewrite E2 in E1.
    symmetry in E1. apply Nat.eqb_eq in E1. lia.
Qed.

Lemma spec_contract (q : list slot) gamma N p x y e : (0 <= gamma)%Qc -> within e x y ->
  within (gamma ^ Nat.min N (steps_from q p) * e)%Qc (nval q gamma N p x) (nval q gamma N p y)
  /\ (term_at q (nstep_reached q N p) = true -> nval q gamma N p x = nval q gamma N p y).
Proof.
  intros Hg [H1 H2]. unfold nval, nstep_reached. fold (steps_from q p).
  set (m := Nat.min N (steps_from q p)). pose proof (pow_nonneg gamma m Hg) as Hp.
  set (s := sum_n m _). clearbody s. set (g := (gamma ^ m)%Qc) in *. clearbody g.
  split.
  - destruct (term_at q (p + m - 1)); split; clear - H1 H2 Hp; qcnra.
  - intros ->. reflexivity.
Qed.
End Spec.

Lemma lambda_contract gamma lam e : (0 <= gamma <= 1)%Qc -> (0 <= lam <= 1)%Qc -> (0 <= e)%Qc ->
  forall (l : list nat) (f g : nat -> Qc * Qc), (forall j, In j l -> fst (f j) = fst (g j) /\ within e (snd (f j)) (snd (g j))) ->
  within (gamma * e)%Qc (lambda_return gamma lam (map f l)) (lambda_return gamma lam (map g l)).
Proof.
  intros Hg Hl He. induction l as [|i [|j l] IH]; intros f g H.
  - cbn. split; clear - Hg He; qcnra.
  - cbn [map lambda_return]. destruct (H i (or_introl eq_refl)) as [E [A1 A2]].
    destruct (f i) as [r v], (g i) as [r' v']. cbn [fst snd] in *. subst r'. split; clear - Hg A1 A2; qcnra.
  - specialize (IH f g (fun j Hj => H j (or_intror Hj))).
    destruct (H i (or_introl eq_refl)) as [E [A1 A2]].
    cbn [map] in *. set (X := lambda_return gamma lam (f j :: map f l)) in *.
    set (Y := lambda_return gamma lam (g j :: map g l)) in *.
    assert (EX : forall a t, lambda_return gamma lam (a :: f j :: t) = (fst a + gamma * ((1 - lam) * snd a + lam * lambda_return gamma lam (f j :: t)))%Qc)
      by (intros [? ?] ?; reflexivity).
    assert (EY : forall a t, lambda_return gamma lam (a :: g j :: t) = (fst a + gamma * ((1 - lam) * snd a + lam * lambda_return gamma lam (g j :: t)))%Qc)
      by (intros [? ?] ?; reflexivity).
    rewrite EX, EY. fold X Y. clearbody X Y. destruct IH as [B1 B2]. rewrite E.
    set (r := fst (g i)). set (v := snd (f i)) in *. set (v' := snd (g i)) in *. clearbody r v v'. clear EX EY E H.
    assert (C : forall a b x y, (a - b <= e)%Qc -> (x - y <= gamma * e)%Qc ->
      (r + gamma * ((1 - lam) * a + lam * x) - (r + gamma * ((1 - lam) * b + lam * y)) <= gamma * e)%Qc).
    { intros a b x y K1 K2.
      assert (K3 : (x - y <= e)%Qc) by (clear - K2 Hg He; qcnra).
      assert (K4 : ((1 - lam) * (a - b) + lam * (x - y) <= e)%Qc) by (clear - K1 K3 Hl; qcnra).
      replace (r + gamma * ((1 - lam) * a + lam * x) - (r + gamma * ((1 - lam) * b + lam * y)))%Qc
        with (gamma * ((1 - lam) * (a - b) + lam * (x - y)))%Qc by ring.
      set (z := ((1 - lam) * (a - b) + lam * (x - y))%Qc) in *. clearbody z. clear - K4 Hg. qcnra. }
    split; apply C; assumption.
Qed.

Lemma gn_bounds r w gamma lo hi : (0 <= gamma <= 1)%Qc -> forall n p,
  (forall j, ((1 - gamma) * lo <= r j <= (1 - gamma) * hi)%Qc) -> (forall j, (lo <= w j <= hi)%Qc) ->
  (lo <= gn r w gamma (S n) p <= hi)%Qc.
Proof.
  intros Hg. induction n as [|n IH]; intros p Hr Hw.
  - rewrite gn_1. specialize (Hr p). specialize (Hw p). set (a := r p) in *. set (c := w p) in *. clearbody a c.
    split; clear - Hg Hr Hw; qcnra.
  - rewrite gn_S by lia. specialize (IH (S p) Hr Hw). specialize (Hr p).
    set (a := r p) in *. set (c := gn r w gamma (S n) (S p)) in *. clearbody a c. split; clear - Hg Hr IH; qcnra.
Qed.

Lemma lambda_bounds gamma lam lo hi : (0 <= gamma <= 1)%Qc -> (0 <= lam <= 1)%Qc ->
  forall l : list (Qc * Qc), l <> [] ->
  (forall x, In x l -> ((1 - gamma) * lo <= fst x <= (1 - gamma) * hi)%Qc /\ (lo <= snd x <= hi)%Qc) ->
  (lo <= lambda_return gamma lam l <= hi)%Qc.
Proof.
  intros Hg Hl. induction l as [|[r v] [|b l] IH]; intros Hne H; [contradiction| |].
  - cbn [lambda_return]. destruct (H (r, v) (or_introl eq_refl)) as [Hr Hv]. cbn [fst snd] in *. split; clear - Hg Hr Hv; qcnra.
  - specialize (IH ltac:(discriminate) (fun x Hx => H x (or_intror Hx))).
    destruct (H (r, v) (or_introl eq_refl)) as [Hr Hv]. cbn [fst snd] in *.
    change (lambda_return gamma lam ((r, v) :: b :: l))
      with (r + gamma * ((1 - lam) * v + lam * lambda_return gamma lam (b :: l)))%Qc.
    set (x := lambda_return gamma lam (b :: l)) in *. clearbody x. clear H Hne.
    assert (K : (lo <= (1 - lam) * v + lam * x <= hi)%Qc) by (split; clear - Hl Hv IH; qcnra).
    set (z := ((1 - lam) * v + lam * x)%Qc) in *. clearbody z. split; clear - Hg Hr K; qcnra.
Qed.

Lemma next_value_bounds {Ob A Inf} (q : list (slot Ob A Inf Qc)) v lo hi p : (lo <= 0 <= hi)%Qc -> (lo <= v p <= hi)%Qc ->
  (lo <= next_value q v p <= hi)%Qc.
Proof. intros H0 H. unfold next_value. destruct (term_at q p); assumption. Qed.

(** ** Buffers *)
Section Buffer.
Context {Ob A Inf : Type}.
Variables (r0 : Qc) (radd : Qc -> Qc -> Qc) (last_frame : Ob -> Ob) (o : opts) (n : nat) (b : buf Ob A Inf Qc) (q : list (slot Ob A Inf Qc)).
Variables (rnd : nat -> nat) (idx : list nat) (ps : list nat).
Hypotheses (Hn : 0 < n) (Hr : reach r0 radd last_frame o n b q) (Hq : q <> [])
  (Hi : sample_indices plain b rnd (Some 0%Z) = Ok idx) (Hps : forall p, In p ps -> p < length q).
Notation at_ p := (Z.of_nat (nth p idx 0)).

Lemma nstep_b (vi : Z -> Qc) gamma N : ps <> [] -> 0 < N ->
  compute_nstep_return (buf_view b) (length ps) (map (fun p => at_ p) ps) (map (fun i => [vi i])) gamma N false
  = Ok (map (fun p => [nval q gamma N p (vi (at_ (nstep_reached q N p)))]) ps).
Proof.
  intros Hne HN.
  rewrite (C23_nstep_buffer_lemma _ _ _ r0 radd last_frame o n b q rnd idx ps (map (fun i => [vi i])) gamma N Hn Hr Hq Hi Hps Hne HN)
    by (intros l; apply map_length).
  f_equal. rewrite map_map. clear. induction ps as [|p l IH]; cbn [map combine]; [reflexivity|].
  f_equal. exact IH.
Qed.

Lemma episodic_b (vi : Z -> Qc) v_s gamma lam : whole_episodes (fun _ => q) (map (pair 0) ps) ->
  (v_s = None \/ exists w, v_s = Some (map w ps) /\ forall p, last_of q p <> p -> w (S p) = next_value q (fun p => vi (at_ p)) p) ->
  exists adv,
  compute_episodic_return (buf_view b) (rows_of q ps) (map (fun p => at_ p) ps) (Some (map (fun p => vi (at_ p)) ps)) v_s gamma lam
  = Ok (map (fun p => mixture lam (steps_from q p) (fun N => nval q gamma N p (vi (at_ (nstep_reached q N p))))) ps, adv)
  /\ (forall w, v_s = Some (map w ps) -> adv = map (fun p => (mixture lam (steps_from q p) (fun N => nval q gamma N p (vi (at_ (nstep_reached q N p)))) - w p)%Qc) ps).
Proof.
  intros Hw Hv.
  destruct (C22_episodic_return_buffer_lemma _ _ _ r0 radd last_frame o n b q rnd idx ps (fun p => vi (at_ p))
    (Some (map (fun p => vi (at_ p)) ps)) v_s gamma lam Hn Hr Hq Hi Hps Hw (or_introl eq_refl) Hv) as [adv [E [Ea _]]].
  exists adv. unfold rows_of. split.
  - rewrite E. f_equal. f_equal. apply map_ext_in. intros p Hp. rewrite spec_mix by (apply Hps, Hp). reflexivity.
  - intros w Ew. rewrite (Ea w Ew). apply map_ext_in. intros p Hp. f_equal. rewrite spec_mix by (apply Hps, Hp). reflexivity.
Qed.
End Buffer.

Section Mgr.
Context {Ob A Inf : Type}.
Variables (r0 : Qc) (radd : Qc -> Qc -> Qc) (last_frame : Ob -> Ob) (o : opts) (ns : list nat) (ops : list (mop Ob A Inf Qc)) (m : mgr Ob A Inf Qc).
Notation q k := (mqueue last_frame o ns ops k).
Notation at_ x := (Z.of_nat (maddress ns ops x)).
Variable xs : list (nat * nat).
Hypotheses (Hn : forall n, In n ns -> 0 < n) (Hr' : exists outs, m_run r0 radd last_frame o (m_init r0 ns) ops = Ok (m, outs))
  (Hxs : forall x, In x xs -> snd x < length (q (fst x))).

Definition mval gamma N (vi : Z -> Qc) (x : nat * nat) : Qc :=
  nval (q (fst x)) gamma N (snd x) (vi (at_ (fst x, nstep_reached (q (fst x)) N (snd x)))).

Lemma nstep_m (vi : Z -> Qc) gamma N : xs <> [] -> 0 < N ->
  compute_nstep_return (mgr_view m) (length xs) (map (fun x => at_ x) xs) (map (fun i => [vi i])) gamma N false
  = Ok (map (fun x => [mval gamma N vi x]) xs).
Proof.
  intros Hne HN. destruct Hr' as [outs Hr].
  rewrite (C23_nstep_manager_lemma _ _ _ r0 radd last_frame o ns ops m outs xs (map (fun i => [vi i])) gamma N Hn Hr Hxs Hne HN)
    by (intros l; apply map_length).
  f_equal. rewrite map_map. clear. induction xs as [|p l IH]; cbn [map combine]; [reflexivity|].
  f_equal. exact IH.
Qed.

Lemma episodic_m (vi : Z -> Qc) v_s gamma lam : (exists ids ts, In (MAdd ids ts) ops) -> whole_episodes (fun k => q k) xs ->
  (v_s = None \/ exists w, v_s = Some (map w xs) /\ forall k p, last_of (q k) p <> p ->
     w (k, S p) = next_value (q k) (fun j => vi (at_ (k, j))) p) ->
  exists adv,
  compute_episodic_return (mgr_view m) (mrows_of (fun k => q k) xs) (map (fun x => at_ x) xs) (Some (map (fun x => vi (at_ x)) xs)) v_s gamma lam
  = Ok (map (fun x => mixture lam (steps_from (q (fst x)) (snd x)) (fun N => mval gamma N vi x)) xs, adv)
  /\ (forall w, v_s = Some (map w xs) -> adv = map (fun x => (mixture lam (steps_from (q (fst x)) (snd x)) (fun N => mval gamma N vi x) - w x)%Qc) xs).
Proof.
  intros Hadd Hw Hv. destruct Hr' as [outs Hr].
  destruct (C22_episodic_return_manager_lemma _ _ _ r0 radd last_frame o ns ops m outs xs (fun x => vi (at_ x))
    (Some (map (fun x => vi (at_ x)) xs)) v_s gamma lam Hn Hr Hadd Hxs Hw (or_introl eq_refl) Hv) as [adv [E [Ea _]]].
  exists adv. unfold mrows_of. split.
  - rewrite E. f_equal. f_equal. apply map_ext_in. intros [k p] Hp. unfold target_of. cbn [fst snd].
    rewrite spec_mix by (apply (Hxs _ Hp)). reflexivity.
  - intros w Ew. rewrite (Ea w Ew). apply map_ext_in. intros [k p] Hp. f_equal. unfold target_of. cbn [fst snd]. rewrite spec_mix by (apply (Hxs _ Hp)). reflexivity.
Qed.
End Mgr.

(** ** Final *)
Lemma mixture_0 L G : 0 < L -> mixture 0 L G = G 1.
Proof.
  intros HL. unfold mixture. destruct L as [|[|L]]; [lia| |].
  - change (1 - 1) with 0. rewrite sum_n_0. cbn [Qcpower]. ring.
  - change (S (S L) - 1) with (S L). rewrite sum_n_S. rewrite (sum_n_ext L _ (fun k => (0 * 0)%Qc)).
    2:{ intros l _. cbn [Qcpower]. ring. }
    rewrite sum_n_scale. cbn [Qcpower]. ring.
Qed.
Lemma qc1_pow n : (1 ^ n = 1)%Qc.
Proof. induction n as [|n IH]; [reflexivity|]. cbn [Qcpower]. rewrite IH. ring. Qed.
Lemma mixture_1 L G : 0 < L -> mixture 1 L G = G L.
Proof. intros HL. unfold mixture. rewrite qc1_pow. ring. Qed.
Lemma map_rel {X} (R : Qc -> Qc -> Prop) (f g : X -> Qc) l : (forall x, In x l -> R (f x) (g x)) -> Forall2 R (map f l) (map g l).
Proof. intros H. induction l as [|x l IH]; cbn [map]; constructor; [apply H; left; reflexivity|apply IH; intros y Hy; apply H; right; exact Hy]. Qed.
Lemma next_within {Ob A Inf} (q : list (slot Ob A Inf Qc)) v v' e p : (0 <= e)%Qc -> within e (v p) (v' p) ->
  within e (next_value q v p) (next_value q v' p).
Proof. intros He H. unfold next_value. destruct (term_at q p); [split; qclra|exact H]. Qed.

(** C301.  The targets of [compute_episodic_return] are the lambda-weighted averages of the n-step
    returns that [compute_nstep_return] computes from the same values. *)
Lemma C301_mixture_buffer_lemma : forall (Ob A Inf : Type) (r0 : Qc) radd (last_frame : Ob -> Ob) o n
    (b : buf Ob A Inf Qc) q rnd idx ps (vi : Z -> Qc) v_s gamma lam,
  0 < n -> reach r0 radd last_frame o n b q -> q <> [] ->
  sample_indices plain b rnd (Some 0%Z) = Ok idx ->
  (forall p, In p ps -> p < length q) -> ps <> [] -> whole_episodes (fun _ => q) (map (pair 0) ps) ->
  let at_ p := Z.of_nat (nth p idx 0) in
  (v_s = None \/ exists w, v_s = Some (map w ps) /\ forall p, last_of q p <> p -> w (S p) = next_value q (fun j => vi (at_ j)) p) ->
  exists G adv,
    (forall N, 0 < N -> compute_nstep_return (buf_view b) (length ps) (map at_ ps) (map (fun i => [vi i])) gamma N false
       = Ok (map (fun p => [G N p]) ps))
    /\ compute_episodic_return (buf_view b) (rows_of q ps) (map at_ ps) (Some (map (fun p => vi (at_ p)) ps)) v_s gamma lam
       = Ok (map (fun p => mixture lam (steps_from q p) (fun N => G N p)) ps, adv).
Proof.
  intros Ob A Inf r0 radd lf o n b q rnd idx ps vi v_s gamma lam Hn Hr Hq Hi Hps Hne Hw at_ Hv.
  exists (fun N p => nval q gamma N p (vi (at_ (nstep_reached q N p)))).
  destruct (episodic_b r0 radd lf o n b q rnd idx ps Hn Hr Hq Hi Hps vi v_s gamma lam Hw Hv) as [adv [E _]]. exists adv. split; [|exact E].
  intros N HN. exact (nstep_b r0 radd lf o n b q rnd idx ps Hn Hr Hq Hi Hps vi gamma N Hne HN).
Qed.

(** C301.  The same for a buffer manager. *)
Lemma C301_mixture_manager_lemma : forall (Ob A Inf : Type) (r0 : Qc) radd (last_frame : Ob -> Ob) o ns
    (ops : list (mop Ob A Inf Qc)) m outs xs (vi : Z -> Qc) v_s gamma lam,
  (forall n, In n ns -> 0 < n) ->
  m_run r0 radd last_frame o (m_init r0 ns) ops = Ok (m, outs) -> (exists ids ts, In (MAdd ids ts) ops) ->
  let q k := mqueue last_frame o ns ops k in
  let at_ x := Z.of_nat (maddress ns ops x) in
  (forall x, In x xs -> snd x < length (q (fst x))) -> xs <> [] -> whole_episodes q xs ->
  (v_s = None \/ exists w, v_s = Some (map w xs) /\ forall k p, last_of (q k) p <> p ->
     w (k, S p) = next_value (q k) (fun j => vi (at_ (k, j))) p) ->
  exists G adv,
    (forall N, 0 < N -> compute_nstep_return (mgr_view m) (length xs) (map at_ xs) (map (fun i => [vi i])) gamma N false
       = Ok (map (fun x => [G N x]) xs))
    /\ compute_episodic_return (mgr_view m) (mrows_of q xs) (map at_ xs) (Some (map (fun x => vi (at_ x)) xs)) v_s gamma lam
       = Ok (map (fun x => mixture lam (steps_from (q (fst x)) (snd x)) (fun N => G N x)) xs, adv).
Proof.
  intros Ob A Inf r0 radd lf o ns ops m outs xs vi v_s gamma lam Hn Hr Hadd q at_ Hxs Hne Hw Hv.
  exists (fun N x => mval lf o ns ops gamma N vi x).
  destruct (episodic_m r0 radd lf o ns ops m xs Hn (ex_intro _ outs Hr) Hxs vi v_s gamma lam Hadd Hw Hv) as [adv [E _]]. exists adv. split; [|exact E].
  intros N HN. exact (nstep_m r0 radd lf o ns ops m xs Hn (ex_intro _ outs Hr) Hxs vi gamma N Hne HN).
Qed.

(** C301.  With lambda = 0 the targets are the 1-step returns, with lambda = 1 the N-step returns for
    any N that no episode exceeds. *)
Lemma C301_extremes_buffer_lemma : forall (Ob A Inf : Type) (r0 : Qc) radd (last_frame : Ob -> Ob) o n
    (b : buf Ob A Inf Qc) q rnd idx ps (vi : Z -> Qc) v_s gamma,
  0 < n -> reach r0 radd last_frame o n b q -> q <> [] ->
  sample_indices plain b rnd (Some 0%Z) = Ok idx ->
  (forall p, In p ps -> p < length q) -> ps <> [] -> whole_episodes (fun _ => q) (map (pair 0) ps) ->
  let at_ p := Z.of_nat (nth p idx 0) in
  (v_s = None \/ exists w, v_s = Some (map w ps) /\ forall p, last_of q p <> p -> w (S p) = next_value q (fun j => vi (at_ j)) p) ->
  exists short long adv0 adv1,
    compute_episodic_return (buf_view b) (rows_of q ps) (map at_ ps) (Some (map (fun p => vi (at_ p)) ps)) v_s gamma 0 = Ok (short, adv0)
    /\ compute_nstep_return (buf_view b) (length ps) (map at_ ps) (map (fun i => [vi i])) gamma 1 false = Ok (map (fun x => [x]) short)
    /\ compute_episodic_return (buf_view b) (rows_of q ps) (map at_ ps) (Some (map (fun p => vi (at_ p)) ps)) v_s gamma 1 = Ok (long, adv1)
    /\ (forall N, length q <= N ->
          compute_nstep_return (buf_view b) (length ps) (map at_ ps) (map (fun i => [vi i])) gamma N false = Ok (map (fun x => [x]) long)).
Proof.
  intros Ob A Inf r0 radd lf o n b q rnd idx ps vi v_s gamma Hn Hr Hq Hi Hps Hne Hw at_ Hv.
  destruct (episodic_b r0 radd lf o n b q rnd idx ps Hn Hr Hq Hi Hps vi v_s gamma 0%Qc Hw Hv) as [adv0 [E0 _]]. destruct (episodic_b r0 radd lf o n b q rnd idx ps Hn Hr Hq Hi Hps vi v_s gamma 1%Qc Hw Hv) as [adv1 [E1 _]].
  do 4 eexists. split; [exact E0|]. split; [|split; [exact E1|]].
  - etransitivity; [exact (nstep_b r0 radd lf o n b q rnd idx ps Hn Hr Hq Hi Hps vi gamma 1 Hne (le_n 1))|]. rewrite map_map. f_equal. apply map_ext_in. intros p Hp. f_equal.
    destruct (steps_pos q p (Hps p Hp)) as [HL _]. symmetry. apply mixture_0, HL.
  - intros N HN. assert (HN' : 0 < N) by (destruct q; [contradiction|cbn [length] in HN; lia]).
    etransitivity; [exact (nstep_b r0 radd lf o n b q rnd idx ps Hn Hr Hq Hi Hps vi gamma N Hne HN')|]. rewrite map_map. f_equal. apply map_ext_in. intros p Hp. f_equal.
    destruct (steps_pos q p (Hps p Hp)) as [HL HE]. rewrite mixture_1 by exact HL.
    pose proof (last_of_spec q p (Hps p Hp)) as X. cbv zeta in X.
    unfold nval, nstep_reached. fold (steps_from q p).
    rewrite !(Nat.min_l (steps_from q p) (steps_from q p)), !(Nat.min_r N (steps_from q p)) by lia. reflexivity.
Qed.

(** C302.  Returns contract: if two value functions are at most [e] apart, n-step returns are at most
    gamma^m e apart, with m the number of steps used, and equal after a terminal step; the targets of
    [compute_episodic_return] are at most gamma e apart. *)
Lemma C302_contraction_buffer_lemma : forall (Ob A Inf : Type) (r0 : Qc) radd (last_frame : Ob -> Ob) o n
    (b : buf Ob A Inf Qc) q rnd idx ps (vi vi' : Z -> Qc) v_s v_s' gamma lam e N,
  0 < n -> reach r0 radd last_frame o n b q -> q <> [] ->
  sample_indices plain b rnd (Some 0%Z) = Ok idx ->
  (forall p, In p ps -> p < length q) -> ps <> [] -> whole_episodes (fun _ => q) (map (pair 0) ps) ->
  let at_ p := Z.of_nat (nth p idx 0) in
  (v_s = None \/ exists w, v_s = Some (map w ps) /\ forall p, last_of q p <> p -> w (S p) = next_value q (fun j => vi (at_ j)) p) ->
  (v_s' = None \/ exists w, v_s' = Some (map w ps) /\ forall p, last_of q p <> p -> w (S p) = next_value q (fun j => vi' (at_ j)) p) ->
  (0 <= gamma <= 1)%Qc -> (0 <= lam <= 1)%Qc -> (0 <= e)%Qc -> 0 < N ->
  (forall i, within e (vi i) (vi' i)) ->
  (exists G G',
     compute_nstep_return (buf_view b) (length ps) (map at_ ps) (map (fun i => [vi i])) gamma N false = Ok (map (fun p => [G p]) ps)
     /\ compute_nstep_return (buf_view b) (length ps) (map at_ ps) (map (fun i => [vi' i])) gamma N false = Ok (map (fun p => [G' p]) ps)
     /\ forall p, In p ps -> within (gamma ^ Nat.min N (steps_from q p) * e)%Qc (G p) (G' p)
          /\ (term_at q (nstep_reached q N p) = true -> G p = G' p))
  /\ exists ret ret' adv adv',
     compute_episodic_return (buf_view b) (rows_of q ps) (map at_ ps) (Some (map (fun p => vi (at_ p)) ps)) v_s gamma lam = Ok (ret, adv)
     /\ compute_episodic_return (buf_view b) (rows_of q ps) (map at_ ps) (Some (map (fun p => vi' (at_ p)) ps)) v_s' gamma lam = Ok (ret', adv')
     /\ Forall2 (within (gamma * e)%Qc) ret ret'.
Proof.
  intros Ob A Inf r0 radd lf o n b q rnd idx ps vi vi' v_s v_s' gamma lam e N Hn Hr Hq Hi Hps Hne Hw at_ Hv Hv' Hg Hl He HN Hd. split.
  - exists (fun p => nval q gamma N p (vi (at_ (nstep_reached q N p)))), (fun p => nval q gamma N p (vi' (at_ (nstep_reached q N p)))).
    split; [exact (nstep_b r0 radd lf o n b q rnd idx ps Hn Hr Hq Hi Hps vi gamma N Hne HN)|]. split; [exact (nstep_b r0 radd lf o n b q rnd idx ps Hn Hr Hq Hi Hps vi' gamma N Hne HN)|].
    intros p Hp. apply spec_contract; [apply Hg|apply Hd].
  - destruct (episodic_b r0 radd lf o n b q rnd idx ps Hn Hr Hq Hi Hps vi v_s gamma lam Hw Hv) as [adv [E _]]. destruct (episodic_b r0 radd lf o n b q rnd idx ps Hn Hr Hq Hi Hps vi' v_s' gamma lam Hw Hv') as [adv' [E' _]].
    do 4 eexists. split; [exact E|]. split; [exact E'|].
    apply map_rel. intros p Hp. specialize (Hps p Hp).
    pose proof (spec_mix q gamma lam (fun p => vi (at_ p)) p Hps) as M. cbv beta in M. unfold at_ in M. rewrite <- M. clear M.
    pose proof (spec_mix q gamma lam (fun p => vi' (at_ p)) p Hps) as M. cbv beta in M. unfold at_ in M. rewrite <- M. clear M.
    apply lambda_contract; try assumption. intros j _. split; [reflexivity|]. cbn [snd]. apply next_within; [exact He|apply Hd].
Qed.

(** C302.  The same for a buffer manager. *)
Lemma C302_contraction_manager_lemma : forall (Ob A Inf : Type) (r0 : Qc) radd (last_frame : Ob -> Ob) o ns
    (ops : list (mop Ob A Inf Qc)) m outs xs (vi vi' : Z -> Qc) v_s v_s' gamma lam e N,
  (forall n, In n ns -> 0 < n) ->
  m_run r0 radd last_frame o (m_init r0 ns) ops = Ok (m, outs) -> (exists ids ts, In (MAdd ids ts) ops) ->
  let q k := mqueue last_frame o ns ops k in
  let at_ x := Z.of_nat (maddress ns ops x) in
  (forall x, In x xs -> snd x < length (q (fst x))) -> xs <> [] -> whole_episodes q xs ->
  (v_s = None \/ exists w, v_s = Some (map w xs) /\ forall k p, last_of (q k) p <> p ->
     w (k, S p) = next_value (q k) (fun j => vi (at_ (k, j))) p) ->
  (v_s' = None \/ exists w, v_s' = Some (map w xs) /\ forall k p, last_of (q k) p <> p ->
     w (k, S p) = next_value (q k) (fun j => vi' (at_ (k, j))) p) ->
  (0 <= gamma <= 1)%Qc -> (0 <= lam <= 1)%Qc -> (0 <= e)%Qc -> 0 < N ->
  (forall i, within e (vi i) (vi' i)) ->
  (exists G G',
     compute_nstep_return (mgr_view m) (length xs) (map at_ xs) (map (fun i => [vi i])) gamma N false = Ok (map (fun x => [G x]) xs)
     /\ compute_nstep_return (mgr_view m) (length xs) (map at_ xs) (map (fun i => [vi' i])) gamma N false = Ok (map (fun x => [G' x]) xs)
     /\ forall x, In x xs -> within (gamma ^ Nat.min N (steps_from (q (fst x)) (snd x)) * e)%Qc (G x) (G' x)
          /\ (term_at (q (fst x)) (nstep_reached (q (fst x)) N (snd x)) = true -> G x = G' x))
  /\ exists ret ret' adv adv',
     compute_episodic_return (mgr_view m) (mrows_of q xs) (map at_ xs) (Some (map (fun x => vi (at_ x)) xs)) v_s gamma lam = Ok (ret, adv)
     /\ compute_episodic_return (mgr_view m) (mrows_of q xs) (map at_ xs) (Some (map (fun x => vi' (at_ x)) xs)) v_s' gamma lam = Ok (ret', adv')
     /\ Forall2 (within (gamma * e)%Qc) ret ret'.
Proof.
  intros Ob A Inf r0 radd lf o ns ops m outs xs vi vi' v_s v_s' gamma lam e N Hn Hr Hadd q at_ Hxs Hne Hw Hv Hv' Hg Hl He HN Hd. split.
  - exists (mval lf o ns ops gamma N vi), (mval lf o ns ops gamma N vi').
    split; [exact (nstep_m r0 radd lf o ns ops m xs Hn (ex_intro _ outs Hr) Hxs vi gamma N Hne HN)|]. split; [exact (nstep_m r0 radd lf o ns ops m xs Hn (ex_intro _ outs Hr) Hxs vi' gamma N Hne HN)|].
    intros x Hp. unfold mval. apply spec_contract; [apply Hg|apply Hd].
  - destruct (episodic_m r0 radd lf o ns ops m xs Hn (ex_intro _ outs Hr) Hxs vi v_s gamma lam Hadd Hw Hv) as [adv [E _]]. destruct (episodic_m r0 radd lf o ns ops m xs Hn (ex_intro _ outs Hr) Hxs vi' v_s' gamma lam Hadd Hw Hv') as [adv' [E' _]].
    do 4 eexists. split; [exact E|]. split; [exact E'|].
    apply map_rel. intros x Hp. specialize (Hxs x Hp). unfold mval.
    pose proof (spec_mix (q (fst x)) gamma lam (fun p => vi (at_ (fst x, p))) (snd x) Hxs) as M. cbv beta in M. unfold at_, q in M. rewrite <- M. clear M.
    pose proof (spec_mix (q (fst x)) gamma lam (fun p => vi' (at_ (fst x, p))) (snd x) Hxs) as M. cbv beta in M. unfold at_, q in M. rewrite <- M. clear M.
    apply lambda_contract; try assumption. intros j _. split; [reflexivity|]. cbn [snd]. apply next_within; [exact He|apply Hd].
Qed.

(** C303.  Values that satisfy the Bellman equation along the stored steps are reproduced: all targets
    and all n-step returns are the values, and all advantages are 0. *)
Lemma C303_consistent_buffer_lemma : forall (Ob A Inf : Type) (r0 : Qc) radd (last_frame : Ob -> Ob) o n
    (b : buf Ob A Inf Qc) q rnd idx ps (vi : Z -> Qc) (u : nat -> Qc) gamma lam,
  0 < n -> reach r0 radd last_frame o n b q -> q <> [] ->
  sample_indices plain b rnd (Some 0%Z) = Ok idx ->
  (forall p, In p ps -> p < length q) -> ps <> [] -> whole_episodes (fun _ => q) (map (pair 0) ps) ->
  let at_ p := Z.of_nat (nth p idx 0) in
  (forall p, p < length q -> u p = (rew_at q p + gamma * next_value q (fun j => vi (at_ j)) p)%Qc) ->
  (forall p, last_of q p <> p -> u (S p) = next_value q (fun j => vi (at_ j)) p) ->
  compute_episodic_return (buf_view b) (rows_of q ps) (map at_ ps) (Some (map (fun p => vi (at_ p)) ps)) (Some (map u ps)) gamma lam
  = Ok (map u ps, map (fun _ => 0%Qc) ps)
  /\ (forall N, 0 < N -> compute_nstep_return (buf_view b) (length ps) (map at_ ps) (map (fun i => [vi i])) gamma N false
       = Ok (map (fun p => [u p]) ps)).
Proof.
  intros Ob A Inf r0 radd lf o n b q rnd idx ps vi u gamma lam Hn Hr Hq Hi Hps Hne Hw at_ H1 H2.
  assert (K : forall N p, In p ps -> 0 < N -> nval q gamma N p (vi (at_ (nstep_reached q N p))) = u p).
  { intros N p Hp HN. apply (spec_consistent q gamma (fun j => vi (at_ j)) u N p (Hps p Hp) HN H1 H2). }
  split.
  - assert (Hv : ((Some (map u ps)) = None \/ exists w, (Some (map u ps)) = Some (map w ps) /\ forall p, last_of q p <> p -> w (S p) = next_value q (fun j => vi (at_ j)) p))
      by (right; exists u; split; [reflexivity|exact H2]).
    destruct (episodic_b r0 radd lf o n b q rnd idx ps Hn Hr Hq Hi Hps vi (Some (map u ps)) gamma lam Hw Hv) as [adv [E Ea]]. rewrite (Ea u eq_refl) in E.
    assert (M : forall p, In p ps -> mixture lam (steps_from q p) (fun N => nval q gamma N p (vi (at_ (nstep_reached q N p)))) = u p).
    { intros p Hp. apply mixture_const; [apply steps_pos, Hps, Hp|]. intros N HN. apply K; [exact Hp|lia]. }
    etransitivity; [exact E|]. f_equal. f_equal; apply map_ext_in; intros p Hp; [exact (M p Hp)|].
    unfold at_ in M. rewrite (M p Hp). ring.
  - intros N HN. etransitivity; [exact (nstep_b r0 radd lf o n b q rnd idx ps Hn Hr Hq Hi Hps vi gamma N Hne HN)|]. f_equal. apply map_ext_in. intros p Hp. f_equal. apply K; assumption.
Qed.

(** C303.  The same for a buffer manager. *)
Lemma C303_consistent_manager_lemma : forall (Ob A Inf : Type) (r0 : Qc) radd (last_frame : Ob -> Ob) o ns
    (ops : list (mop Ob A Inf Qc)) m outs xs (vi : Z -> Qc) (u : nat * nat -> Qc) gamma lam,
  (forall n, In n ns -> 0 < n) ->
  m_run r0 radd last_frame o (m_init r0 ns) ops = Ok (m, outs) -> (exists ids ts, In (MAdd ids ts) ops) ->
  let q k := mqueue last_frame o ns ops k in
  let at_ x := Z.of_nat (maddress ns ops x) in
  (forall x, In x xs -> snd x < length (q (fst x))) -> xs <> [] -> whole_episodes q xs ->
  (forall k p, p < length (q k) -> u (k, p) = (rew_at (q k) p + gamma * next_value (q k) (fun j => vi (at_ (k, j))) p)%Qc) ->
  (forall k p, last_of (q k) p <> p -> u (k, S p) = next_value (q k) (fun j => vi (at_ (k, j))) p) ->
  compute_episodic_return (mgr_view m) (mrows_of q xs) (map at_ xs) (Some (map (fun x => vi (at_ x)) xs)) (Some (map u xs)) gamma lam
  = Ok (map u xs, map (fun _ => 0%Qc) xs)
  /\ (forall N, 0 < N -> compute_nstep_return (mgr_view m) (length xs) (map at_ xs) (map (fun i => [vi i])) gamma N false
       = Ok (map (fun x => [u x]) xs)).
Proof.
  intros Ob A Inf r0 radd lf o ns ops m outs xs vi u gamma lam Hn Hr Hadd q at_ Hxs Hne Hw H1 H2.
  assert (K : forall N x, In x xs -> 0 < N -> mval lf o ns ops gamma N vi x = u x).
  { intros N [k p] Hp HN. unfold mval. cbn [fst snd].
    exact (spec_consistent (q k) gamma (fun j => vi (at_ (k, j))) (fun j => u (k, j)) N p (Hxs _ Hp) HN (H1 k) (H2 k)). }
  split.
  - assert (Hv : ((Some (map u xs)) = None \/ exists w, (Some (map u xs)) = Some (map w xs) /\ forall k p, last_of (q k) p <> p ->
     w (k, S p) = next_value (q k) (fun j => vi (at_ (k, j))) p))
      by (right; exists u; split; [reflexivity|exact H2]).
    destruct (episodic_m r0 radd lf o ns ops m xs Hn (ex_intro _ outs Hr) Hxs vi (Some (map u xs)) gamma lam Hadd Hw Hv) as [adv [E Ea]]. rewrite (Ea u eq_refl) in E.
    assert (M : forall x, In x xs -> mixture lam (steps_from (q (fst x)) (snd x)) (fun N => mval lf o ns ops gamma N vi x) = u x).
    { intros x Hp. apply mixture_const; [apply steps_pos, Hxs, Hp|]. intros N HN. apply K; [exact Hp|lia]. }
    etransitivity; [exact E|]. f_equal. f_equal; apply map_ext_in; intros x Hp; [exact (M x Hp)|].
    unfold at_, q in M. rewrite (M x Hp). ring.
  - intros N HN. etransitivity; [exact (nstep_m r0 radd lf o ns ops m xs Hn (ex_intro _ outs Hr) Hxs vi gamma N Hne HN)|]. f_equal. apply map_ext_in. intros x Hp. f_equal. apply K; assumption.
Qed.

(** C304.  Returns stay in the range of the values: with rewards between (1 - gamma) lo and
    (1 - gamma) hi and values between lo and hi (lo <= 0 <= hi) so are all targets and all n-step returns. *)
Lemma C304_range_buffer_lemma : forall (Ob A Inf : Type) (r0 : Qc) radd (last_frame : Ob -> Ob) o n
    (b : buf Ob A Inf Qc) q rnd idx ps (vi : Z -> Qc) v_s gamma lam lo hi,
  0 < n -> reach r0 radd last_frame o n b q -> q <> [] ->
  sample_indices plain b rnd (Some 0%Z) = Ok idx ->
  (forall p, In p ps -> p < length q) -> ps <> [] -> whole_episodes (fun _ => q) (map (pair 0) ps) ->
  let at_ p := Z.of_nat (nth p idx 0) in
  (v_s = None \/ exists w, v_s = Some (map w ps) /\ forall p, last_of q p <> p -> w (S p) = next_value q (fun j => vi (at_ j)) p) ->
  (0 <= gamma <= 1)%Qc -> (0 <= lam <= 1)%Qc -> (lo <= 0 <= hi)%Qc ->
  (forall i, (lo <= vi i <= hi)%Qc) ->
  (forall p, ((1 - gamma) * lo <= rew_at q p <= (1 - gamma) * hi)%Qc) ->
  (exists ret adv, compute_episodic_return (buf_view b) (rows_of q ps) (map at_ ps) (Some (map (fun p => vi (at_ p)) ps)) v_s gamma lam = Ok (ret, adv)
     /\ length ret = length ps /\ Forall (fun x => (lo <= x <= hi)%Qc) ret)
  /\ (forall N, 0 < N -> exists ret, compute_nstep_return (buf_view b) (length ps) (map at_ ps) (map (fun i => [vi i])) gamma N false
       = Ok (map (fun x => [x]) ret) /\ length ret = length ps /\ Forall (fun x => (lo <= x <= hi)%Qc) ret).
Proof.
  intros Ob A Inf r0 radd lf o n b q rnd idx ps vi v_s gamma lam lo hi Hn Hr Hq Hi Hps Hne Hw at_ Hv Hg Hl H0 Hb Hrw. split.
  - destruct (episodic_b r0 radd lf o n b q rnd idx ps Hn Hr Hq Hi Hps vi v_s gamma lam Hw Hv) as [adv [E _]]. do 2 eexists. split; [exact E|]. rewrite map_length. split; [reflexivity|].
    apply Forall_forall. intros y Hy. apply in_map_iff in Hy as (p & <- & Hp). specialize (Hps p Hp).
    pose proof (spec_mix q gamma lam (fun p => vi (at_ p)) p Hps) as M. cbv beta in M. unfold at_ in M. rewrite <- M. clear M.
    apply lambda_bounds; try assumption.
    + destruct (steps_pos q p Hps) as [HL _]. unfold rest_of_episode. fold (steps_from q p). destruct (steps_from q p); [lia|discriminate].
    + intros [r v] Hx. apply in_map_iff in Hx as (j & Ej & _). injection Ej as <- <-. cbn [fst snd]. split; [apply Hrw|].
      apply next_value_bounds; [exact H0|apply Hb].
  - intros N HN. exists (map (fun p => nval q gamma N p (vi (at_ (nstep_reached q N p)))) ps). rewrite map_map, map_length.
    split; [exact (nstep_b r0 radd lf o n b q rnd idx ps Hn Hr Hq Hi Hps vi gamma N Hne HN)|]. split; [reflexivity|].
    apply Forall_forall. intros y Hy. apply in_map_iff in Hy as (p & <- & Hp). specialize (Hps p Hp).
    destruct (steps_pos q p Hps) as [HL _]. rewrite (nval_gn q gamma (fun p => vi (at_ p)) N p).
    destruct (Nat.min N (steps_from q p)) as [|k] eqn:Ek; [lia|]. apply gn_bounds; try assumption.
    intros j. apply next_value_bounds; [exact H0|apply Hb].
Qed.

(** C301.  [episode_mc_return_to_go] is the advantage of a single episode with values 0 and lambda = 1. *)
Lemma C301_monte_carlo_lemma : forall rewards gamma ends, rewards <> [] -> length ends = length rewards ->
  (forall i, S i < length rewards -> nth i ends false = false) ->
  episode_mc_return_to_go rewards gamma
  = Ok (gae_return (map (fun _ => 0%Qc) rewards) (map (fun _ => 0%Qc) rewards) rewards ends gamma 1).
Proof.
  intros rewards gamma ends Hne Hl He. transitivity (Ok (mc_loop rewards gamma)); [destruct rewards; [contradiction|reflexivity]|].
  f_equal. clear Hne. revert ends Hl He. unfold gae_return. induction rewards as [|r rest IH]; intros [|e ends] Hl He; try discriminate; [reflexivity|].
  cbn [length] in Hl. injection Hl as Hl. destruct rest as [|r' rest].
  - cbn. f_equal. ring.
  - change (mc_loop (r :: r' :: rest) gamma) with
      ((r + gamma * hd 0 (mc_loop (r' :: rest) gamma))%Qc :: mc_loop (r' :: rest) gamma).
    rewrite (IH ends Hl) by (intros i Hi; apply (He (S i)); cbn [length] in *; lia).
    rewrite (He 0 ltac:(cbn [length]; lia) : e = false).
    cbn [map combine gae_loop]. f_equal. cbn [b2q]. ring.
Qed.

(** ** Relations kept by the loops *)
Fixpoint all3 {X Y Z} (R : X -> Y -> Z -> Prop) (l : list X) (m : list Y) (n : list Z) : Prop :=
  match l, m, n with
  | [], [], [] => True
  | x :: l, y :: m, z :: n => R x y z /\ all3 R l m n
  | _, _, _ => False
  end.

Lemma all3_nth {X Y Z} (R : X -> Y -> Z -> Prop) : forall l m n i x, all3 R l m n -> nth_error l i = Some x ->
  exists y z, nth_error m i = Some y /\ nth_error n i = Some z /\ R x y z.
Proof.
  induction l as [|a l IH]; intros [|b m] [|c n] i x H E; try contradiction; [destruct i; discriminate|].
  destruct H as [H1 H2]. destruct i as [|i]; cbn in *; [injection E as <-; eauto|]. eapply IH; eauto.
Qed.
Lemma all3_length {X Y Z} (R : X -> Y -> Z -> Prop) : forall l m n, all3 R l m n -> length m = length l /\ length n = length l.
Proof.
  induction l as [|a l IH]; intros [|b m] [|c n] H; try contradiction; [auto|]. destruct H as [_ H]. cbn. destruct (IH _ _ H). lia.
Qed.
Lemma all3_map {X Y Z X' Y' Z'} (R : X -> Y -> Z -> Prop) (R' : X' -> Y' -> Z' -> Prop) f g h :
  (forall x y z, R x y z -> R' (f x) (g y) (h z)) -> forall l m n, all3 R l m n -> all3 R' (map f l) (map g m) (map h n).
Proof. intros H. induction l as [|a l IH]; intros [|b m] [|c n] K; try contradiction; cbn in *; [exact K|]. destruct K. auto. Qed.
Lemma all3_combine {X Y Z X' Y' Z'} (R : X -> Y -> Z -> Prop) (R' : X' -> Y' -> Z' -> Prop) : forall l m n l' m' n',
  all3 R l m n -> all3 R' l' m' n' ->
  all3 (fun a b c => R (fst a) (fst b) (fst c) /\ R' (snd a) (snd b) (snd c)) (combine l l') (combine m m') (combine n n').
Proof.
  induction l as [|a l IH]; intros [|b m] [|c n] [|a' l'] [|b' m'] [|c' n'] H H'; try contradiction; cbn in *; try exact Logic.I.
  destruct H, H'. split; [split; assumption|]. apply IH; assumption.
Qed.

Section Loops.
Variable R : Qc -> Qc -> Qc -> Prop.
Variable gamma : Qc.
Hypothesis R0 : R 0 0 0.
Hypothesis Rstep : forall r r' r'' v v' v'', R r r' r'' -> R v v' v'' -> R (r + gamma * v)%Qc (r' + gamma * v')%Qc (r'' + gamma * v'')%Qc.
Hypothesis Rfin : forall q q' q'' v v' v'' g N, R q q' q'' -> R v v' v'' ->
  R (q * nth g (gamma_buffer 1 gamma N) 0 + v)%Qc (q' * nth g (gamma_buffer 1 gamma N) 0 + v')%Qc (q'' * nth g (gamma_buffer 1 gamma N) 0 + v'')%Qc.

Lemma mapM_all3 : forall (l m n : list Qc) idx out, all3 R l m n -> mapM (zget l) idx = Ok out ->
  exists out' out'', mapM (zget m) idx = Ok out' /\ mapM (zget n) idx = Ok out'' /\ all3 R out out' out''.
Proof.
  intros l m n idx out H. destruct (all3_length R l m n H) as [Hm Hn].
  assert (Z1 : forall i x, zget l i = Ok x -> exists y z, zget m i = Ok y /\ zget n i = Ok z /\ R x y z).
  { intros i x E. unfold zget in *. rewrite Hm, Hn. destruct (norm_index (length l) i) as [k|]; [|discriminate]. cbn [bind] in *.
    destruct (nth_error l k) as [x'|] eqn:Ek; [|discriminate]. injection E as ->.
    destruct (all3_nth R l m n k x H Ek) as (y & z & Ey & Ez & Hx). rewrite Ey, Ez. eauto. }
  revert out. induction idx as [|i idx IH]; intros out E.
  - injection E as <-. exists [], []. repeat split.
  - cbn [mapM] in *. destruct (zget l i) as [x|] eqn:Ei; [|discriminate]. cbn [bind] in *.
    destruct (Z1 i x Ei) as (y & z & -> & -> & Hx). cbn [bind].
    destruct (mapM (zget l) idx) as [t|] eqn:Et; [|discriminate]. cbn [bind] in E. injection E as <-.
    destruct (IH t eq_refl) as (o' & o'' & -> & -> & E3). cbn [bind].
    do 2 eexists. split; [reflexivity|]. split; [reflexivity|]. split; assumption.
Qed.

Definition st3 (a b c : nat * list Qc) : Prop := fst b = fst a /\ fst c = fst a /\ all3 R (snd a) (snd b) (snd c).

Lemma turns_all3 rew rew' rew'' ends : all3 R rew rew' rew'' -> forall l st st' st'' out,
  all3 st3 st st' st'' -> foldM (nstep_turn rew ends gamma) l st = Ok out ->
  exists out' out'', foldM (nstep_turn rew' ends gamma) l st' = Ok out' /\ foldM (nstep_turn rew'' ends gamma) l st'' = Ok out''
    /\ all3 st3 out out' out''.
Proof.
  intros Hr. induction l as [|[n now] l IH]; intros st st' st'' out Hst E.
  - injection E as <-. exists st', st''. auto.
  - cbn [foldM] in *. unfold nstep_turn at 1 in E. unfold nstep_turn at 1 3.
    destruct (mapM (zget ends) now) as [es|]; [|discriminate]. cbn [bind] in *.
    destruct (mapM (zget rew) now) as [rs|] eqn:Er; [|discriminate]. cbn [bind] in *.
    destruct (mapM_all3 rew rew' rew'' now rs Hr Er) as (rs' & rs'' & E1 & E2 & E3). rewrite E1, E2. cbn [bind].
    revert E. apply IH. clear IH.
    assert (He : all3 (fun a b c : bool * Qc => fst b = fst a /\ fst c = fst a /\ R (snd a) (snd b) (snd c)) (combine es rs) (combine es rs') (combine es rs'')).
    { clear - E3. revert rs rs' rs'' E3. induction es as [|e es IH]; intros rs rs' rs'' H; [exact Logic.I|].
      destruct rs as [|r rs], rs' as [|r' rs'], rs'' as [|r'' rs'']; try contradiction; [exact Logic.I|]. destruct H. cbn. auto. }
    refine (all3_map _ _ _ _ _ _ _ _ _ (all3_combine _ _ _ _ _ _ _ _ Hst He)).
    intros [[g mc] [e r]] [[g' mc'] [e' r']] [[g'' mc''] [e'' r'']]. unfold st3. cbn [fst snd]. intros [[-> [-> Hmc]] [-> [-> Hrr]]].
    split; [reflexivity|]. split; [reflexivity|].
    refine (all3_map R R _ _ _ _ _ _ _ _); [intros; apply Rstep; assumption|].
    destruct e; [|exact Hmc]. clear - R0 Hmc. revert mc mc' mc'' Hmc. induction mc as [|x mc IH]; intros [|y mc'] [|z mc''] H; try contradiction; cbn in *; [exact Logic.I|].
    destruct H. auto.
Qed.

Lemma nstep_all3 rew rew' rew'' ends q q' q'' stacked N out :
  all3 R rew rew' rew'' -> all3 (all3 R) q q' q'' -> nstep_return rew ends q stacked gamma N = Ok out ->
  exists out' out'', nstep_return rew' ends q' stacked gamma N = Ok out' /\ nstep_return rew'' ends q'' stacked gamma N = Ok out''
    /\ all3 (all3 R) out out' out''.
Proof.
  intros Hr Hq E. unfold nstep_return in *.
  destruct (foldM _ _ _) as [st|] eqn:Ef in E; [|discriminate]. cbn [bind] in E. injection E as <-.
  assert (Hst : all3 st3 (map (fun q => (N, map (fun _ => 0%Qc) q)) q) (map (fun q => (N, map (fun _ => 0%Qc) q)) q') (map (fun q => (N, map (fun _ => 0%Qc) q)) q'')).
  { refine (all3_map _ _ _ _ _ _ _ _ _ Hq). intros x y z Hx. split; [reflexivity|]. split; [reflexivity|]. cbn [snd].
    refine (all3_map R R _ _ _ _ _ _ _ Hx). intros; exact R0. }
  destruct (turns_all3 rew rew' rew'' ends Hr _ _ _ _ _ Hst Ef) as (st' & st'' & E1 & E2 & E3). rewrite E1, E2. cbn [bind].
  do 2 eexists. split; [reflexivity|]. split; [reflexivity|].
  refine (all3_map _ _ _ _ _ _ _ _ _ (all3_combine _ _ _ _ _ _ _ _ Hq E3)).
  intros [x [g mc]] [y [g' mc']] [z [g'' mc'']]. unfold st3. cbn [fst snd]. intros [H1 [-> [-> H2]]].
  refine (all3_map _ _ _ _ _ _ _ _ _ (all3_combine _ _ _ _ _ _ _ _ H1 H2)).
  intros [a b] [a' b'] [a'' b'']. cbn [fst snd]. intros [K1 K2]. apply Rfin; assumption.
Qed.
End Loops.

(** Linear combinations. *)
Lemma lin_length a b l m : length m = length l -> length (lin a b l m) = length l.
Proof. intros H. unfold lin. rewrite map_length, combine_length. lia. Qed.
Lemma lin_all3 a b : forall l m, length m = length l -> all3 (fun x y z => z = (a * x + b * y)%Qc) l m (lin a b l m).
Proof. induction l as [|x l IH]; intros [|y m] H; try discriminate; cbn; [exact Logic.I|]. split; [reflexivity|]. apply IH. cbn in H. lia. Qed.
Lemma all3_lin a b : forall l m n, all3 (fun x y z => z = (a * x + b * y)%Qc) l m n -> n = lin a b l m.
Proof. induction l as [|x l IH]; intros [|y m] [|z n] H; try contradiction; [reflexivity|]. destruct H as [-> H]. cbn. f_equal. apply IH, H. Qed.

(** C305.  Advantages are linear in rewards and values together. *)
Lemma C305_linear_gae_lemma : forall a b v w v_ w_ r s ends gamma lam,
  length w = length v -> length v_ = length v -> length w_ = length v -> length r = length v -> length s = length v ->
  gae_return (lin a b v w) (lin a b v_ w_) (lin a b r s) ends gamma lam
  = lin a b (gae_return v v_ r ends gamma lam) (gae_return w w_ s ends gamma lam).
Proof.
  intros a b v w v_ w_ r s ends gamma lam. unfold gae_return.
  revert w v_ w_ r s ends. induction v as [|x v IH]; intros [|y w] [|x_ v_] [|y_ w_] [|p r] [|q s] ends H1 H2 H3 H4 H5; try discriminate.
  - destruct ends; reflexivity.
  - destruct ends as [|e ends]; [reflexivity|]. cbn [length] in *.
    specialize (IH w v_ w_ r s ends ltac:(lia) ltac:(lia) ltac:(lia) ltac:(lia) ltac:(lia)).
    unfold lin at 1 2 3 in IH. unfold lin. cbn [combine map gae_loop fst snd]. f_equal.
    2:{ exact IH. }
    rewrite IH. unfold lin.
    set (A := gae_loop (map _ (combine (combine r v_) v)) _). set (B := gae_loop (map _ (combine (combine s w_) w)) _).
    assert (E : length A = length B).
    { assert (G : forall d d' c, length d = length d' -> length (gae_loop d c) = length (gae_loop d' c)).
      { clear. induction d as [|x d IH]; intros [|y d'] c H; try discriminate; [reflexivity|]. destruct c; [reflexivity|]. cbn. f_equal. apply IH. cbn in H. lia. }
      apply G. rewrite !map_length, !combine_length. lia. }
    destruct A as [|g A], B as [|h B]; try discriminate; cbn [combine map hd fst snd]; ring.
Qed.

(** C305.  n-step returns are linear in rewards and target values together. *)
Lemma C305_linear_nstep_lemma : forall a b rew rew' ends q q' stacked gamma N out out',
  length rew' = length rew -> Forall2 (fun x y => length x = length y) q' q ->
  nstep_return rew ends q stacked gamma N = Ok out -> nstep_return rew' ends q' stacked gamma N = Ok out' ->
  nstep_return (lin a b rew rew') ends (lin2 a b q q') stacked gamma N = Ok (lin2 a b out out').
Proof.
  intros a b rew rew' ends q q' stacked gamma N out out' H1 H2 E E'.
  assert (Hq : all3 (all3 (fun x y z => z = (a * x + b * y)%Qc)) q q' (lin2 a b q q')).
  { clear - H2. induction H2 as [|x y q' q H H2 IH]; cbn; [exact Logic.I|]. split; [apply lin_all3; exact H|exact IH]. }
  destruct (nstep_all3 (fun x y z => z = (a * x + b * y)%Qc) gamma) with (5 := Hq) (4 := lin_all3 a b rew rew' H1) (6 := E)
    as (o & o' & E1 & E2 & E3).
  - ring.
  - intros r r' r'' v v' v'' -> ->. ring.
  - intros x x' x'' v v' v'' g M -> ->. ring.
  - rewrite E' in E1. injection E1 as <-. rewrite E2. f_equal. clear - E3.
    revert out' o' E3. induction out as [|x l IH]; intros [|y m] [|z n] H; try contradiction; [reflexivity|].
    destruct H as [H K]. cbn. f_equal; [apply all3_lin, H|apply IH, K].
Qed.

Lemma gb_nonneg gamma : (0 <= gamma)%Qc -> forall N acc g, (0 <= acc)%Qc -> (0 <= nth g (gamma_buffer acc gamma N) 0)%Qc.
Proof.
  intros Hg. induction N as [|N IH]; intros acc [|g] Ha; cbn [gamma_buffer nth]; try assumption.
  - destruct g; discriminate.
  - apply IH. clear - Hg Ha. qcnra.
Qed.

(** C306.  Raising rewards or target values never lowers an n-step return. *)
Lemma C306_monotone_nstep_lemma : forall rew rew' ends q q' stacked gamma N out, (0 <= gamma)%Qc ->
  Forall2 Qcle rew rew' -> Forall2 (Forall2 Qcle) q q' ->
  nstep_return rew ends q stacked gamma N = Ok out ->
  exists out', nstep_return rew' ends q' stacked gamma N = Ok out' /\ Forall2 (Forall2 Qcle) out out'.
Proof.
  intros rew rew' ends q q' stacked gamma N out Hg H1 H2 E.
  assert (K : forall l m, Forall2 Qcle l m -> all3 (fun x y _ : Qc => (x <= y)%Qc) l m m).
  { induction 1; cbn; auto. }
  assert (K' : forall l m n, all3 (fun x y _ : Qc => (x <= y)%Qc) l m n -> Forall2 Qcle l m).
  { induction l as [|x l IH]; intros [|y m] [|z n] H; try contradiction; constructor; destruct H; eauto. }
  assert (Hq : all3 (all3 (fun x y _ : Qc => (x <= y)%Qc)) q q' q').
  { clear - H2 K. induction H2; cbn; auto. }
  destruct (nstep_all3 (fun x y _ : Qc => (x <= y)%Qc) gamma) with (5 := Hq) (4 := K _ _ H1) (6 := E)
    as (o & o' & E1 & E2 & E3).
  - discriminate.
  - intros r r' _ v v' _ A B. clear - Hg A B. qcnra.
  - intros x x' _ v v' _ g M A B. pose proof (gb_nonneg gamma Hg M 1 g ltac:(discriminate)) as P.
    set (c := nth g _ _) in *. clearbody c. clear - A B P. qcnra.
  - exists o. split; [exact E1|]. clear - E3 K'. revert o o' E3. induction out as [|x l IH]; intros [|y m] [|z n] H; try contradiction; constructor; destruct H; eauto.
Qed.

(** C306.  Raising rewards or next values, or lowering values, never lowers an advantage. *)
Lemma C306_monotone_gae_lemma : forall v w v_ w_ r s ends gamma lam, (0 <= gamma)%Qc -> (0 <= lam)%Qc ->
  Forall2 Qcle w v -> Forall2 Qcle v_ w_ -> Forall2 Qcle r s -> length v_ = length v -> length r = length v ->
  Forall2 Qcle (gae_return v v_ r ends gamma lam) (gae_return w w_ s ends gamma lam).
Proof.
  intros v w v_ w_ r s ends gamma lam Hg Hl H1. unfold gae_return. revert v_ w_ r s ends.
  induction H1 as [|y x w v Hx H1 IH]; intros v_ w_ r s ends H2 H3 L1 L2.
  - destruct v_; [|discriminate]. destruct r; [|discriminate]. inversion H2; subst. inversion H3; subst. constructor.
  - destruct v_ as [|x_ v_]; [discriminate|]. destruct r as [|p r]; [discriminate|].
    inversion H2 as [|? y_ ? w_' Hx_ H2']; subst. inversion H3 as [|? q ? s' Hp H3']; subst.
    destruct ends as [|e ends]; [constructor|]. cbn [length] in *.
    specialize (IH v_ w_' r s' ends H2' H3' ltac:(lia) ltac:(lia)).
    cbn [combine map gae_loop]. constructor; [|exact IH].
    set (A := gae_loop (map _ (combine (combine r v_) v)) _) in *. set (B := gae_loop (map _ (combine (combine s' w_') w)) _) in *.
    assert (K : (hd 0 A <= hd 0 B)%Qc) by (inversion IH; cbn [hd]; [discriminate|assumption]).
    set (c := ((1 - b2q e) * (gamma * lam))%Qc).
    assert (Hc : (0 <= c)%Qc) by (unfold c; destruct e; cbn [b2q]; clear - Hg Hl; qcnra).
    set (h := hd 0%Qc A) in *. set (h' := hd 0%Qc B) in *. clearbody c h h'. clear - Hg Hx Hx_ Hp K Hc.
    qcnra.
Qed.
