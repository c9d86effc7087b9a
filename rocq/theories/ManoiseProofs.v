(** * Proofs of property C383: exploration noise of several agents *)
From Verif Require Import Py PyLemmas Num ActorModel ExpnModel ExpnProofs ManoiseModel ManoiseSpec.
From Coq Require Import Permutation.
Open Scope nat_scope.

Lemma filter_map_S : forall f l, filter f (map S l) = map S (filter (fun j => f (S j)) l).
Proof. intros f. induction l as [|x l IH]; [reflexivity|]. cbn [map filter]. destruct (f (S x)); cbn [map]; rewrite IH; reflexivity. Qed.
Lemma rows_cons : forall a i ids, rows_for a (i :: ids) = (if i =? a then [0] else []) ++ map S (rows_for a ids).
Proof.
  intros a i ids. unfold rows_for. cbn [length seq filter nth]. rewrite <- seq_shift, filter_map_S. cbn [nth]. destruct (i =? a); reflexivity.
Qed.
Lemma own_gather : forall a ids act, length act = length ids -> gather (rows_for a ids) act = own a ids act.
Proof.
  intros a. induction ids as [|i ids IH]; intros act L; [destruct act; reflexivity|]. destruct act as [|x act]; [discriminate|]. cbn [length] in L.
  rewrite rows_cons. unfold gather. rewrite map_app, map_map. cbn [nth own]. specialize (IH act ltac:(congruence)). unfold gather in IH. rewrite IH. destruct (i =? a); reflexivity.
Qed.
Lemma rows_nodup : forall a ids, NoDup (rows_for a ids).
Proof. intros a ids. apply NoDup_filter, seq_NoDup. Qed.
Lemma rows_in : forall a ids j, In j (rows_for a ids) -> j < length ids /\ nth j ids 0 = a.
Proof. intros a ids j H. apply filter_In in H as [H1 H2]. apply in_seq in H1. apply Nat.eqb_eq in H2. split; [lia|exact H2]. Qed.

Lemma scatter_length : forall idx vals act, length (scatter idx vals act) = length act.
Proof. unfold scatter. induction idx as [|j idx IH]; intros vals act; [reflexivity|]. destruct vals as [|v vals]; [reflexivity|]. cbn [combine fold_left fst snd]. rewrite IH. apply upd_length. Qed.
Lemma scatter_other : forall idx vals act j, ~ In j idx -> nth j (scatter idx vals act) 0%Qc = nth j act 0%Qc.
Proof.
  unfold scatter. induction idx as [|i idx IH]; intros vals act j H; [reflexivity|]. destruct vals as [|v vals]; [reflexivity|]. cbn [combine fold_left fst snd].
  rewrite IH by (intros Hj; apply H; right; exact Hj). apply nth_upd_other. intros ->. apply H. left. reflexivity.
Qed.
Lemma scatter_same : forall idx vals act, NoDup idx -> length vals = length idx -> (forall j, In j idx -> j < length act) -> gather idx (scatter idx vals act) = vals.
Proof.
  induction idx as [|i idx IH]; intros vals act N L B; [destruct vals; [reflexivity|discriminate]|]. destruct vals as [|v vals]; [discriminate|]. inversion N as [|i' l' Hi N']; subst i' l'.
  unfold gather, scatter. cbn [combine fold_left fst snd map]. f_equal.
  - pose proof (scatter_other idx vals (upd act i v) i Hi) as E. unfold scatter in E. rewrite E. apply nth_upd_same. apply B. left. reflexivity.
  - apply (IH vals (upd act i v) N'); [cbn [length] in L; congruence|]. intros j Hj. rewrite upd_length. apply B. right. exact Hj.
Qed.

Lemma expl_len : forall ns l z, exists r ns', expl_noise ns (EArr l) z = (EArr r, ns', false) /\ length r = length l.
Proof.
  intros ns l z. destruct ns as [|mu si|mu al be x].
  - exists l, NNone. split; reflexivity.
  - eexists. eexists. split; [reflexivity|]. rewrite map_length, combine_length, map_length, seq_length. apply Nat.min_id.
  - eexists. eexists. split; [reflexivity|]. rewrite map_length, combine_length. fold (length l). rewrite map_length, seq_length. cbn [size_len]. apply Nat.min_id.
Qed.

(** One agent's turn. *)
Lemma agent_ok : forall ids z act b ns, length act = length ids ->
  let '(act', p) := noise_agent ids z act (b, ns) in
  length act' = length ids /\ p = (b, snd (solo ns (own b ids act) (z b))) /\
  own b ids act' = fst (solo ns (own b ids act) (z b)) /\ (forall c, c <> b -> own c ids act' = own c ids act).
Proof.
  intros ids z act b ns L. unfold noise_agent. pose proof (own_gather b ids act L) as G. destruct (rows_for b ids) as [|j idx] eqn:E.
  - cbn [gather map] in G. rewrite <- G. split; [exact L|]. split; [reflexivity|]. split; reflexivity.
  - rewrite G. destruct (expl_len ns (own b ids act) (z b)) as (r & ns' & X & Lr). rewrite X.
    assert (M : exists y m, own b ids act = y :: m) by (rewrite <- G; cbn [gather map]; eexists; eexists; reflexivity). destruct M as (y & m & M).
    assert (S : solo ns (own b ids act) (z b) = (r, ns')) by (unfold solo; rewrite M in X |- *; rewrite X; reflexivity). rewrite S.
    assert (Ls : length (scatter (j :: idx) r act) = length ids) by (rewrite scatter_length; exact L).
    split; [exact Ls|]. split; [reflexivity|]. split.
    + rewrite <- own_gather, E by exact Ls. cbn [fst]. apply scatter_same.
      * rewrite <- E. apply rows_nodup.
      * rewrite Lr, <- G. unfold gather. apply map_length.
      * intros k Hk. rewrite <- E in Hk. apply rows_in in Hk. rewrite L. apply (proj1 Hk).
    + intros c Hc. rewrite <- (own_gather c ids _ Ls), <- (own_gather c ids act L). unfold gather. apply map_ext_in. intros k Hk. apply scatter_other.
      intros Hb. rewrite <- E in Hb. apply rows_in in Hk, Hb. destruct Hk as [_ Hk], Hb as [_ Hb]. congruence.
Qed.

Lemma look_notin : forall {A} a (ps : list (nat * A)), ~ In a (map fst ps) -> look a ps = None.
Proof. intros A a. induction ps as [|[b x] ps IH]; intros H; [reflexivity|]. cbn [look]. cbn [map fst In] in H. destruct (b =? a) eqn:E; [apply Nat.eqb_eq in E; exfalso; apply H; left; exact E|]. apply IH. intros Hi. apply H. right. exact Hi. Qed.

Lemma ma_ok : forall ids z ps act, NoDup (map fst ps) -> length act = length ids ->
  let '(act', ps') := ma_noise ids z act ps in
  length act' = length ids /\ map fst ps' = map fst ps /\
  forall a, match look a ps with
            | Some ns => own a ids act' = fst (solo ns (own a ids act) (z a)) /\ look a ps' = Some (snd (solo ns (own a ids act) (z a)))
            | None => own a ids act' = own a ids act /\ look a ps' = None
            end.
Proof.
  intros ids z. induction ps as [|[b ns] ps IH]; intros act N L.
  - cbn [ma_noise]. split; [exact L|]. split; [reflexivity|]. intros a. split; reflexivity.
  - cbn [map fst] in N. inversion N as [|b' l' Hb N']; subst b' l'. cbn [ma_noise]. pose proof (agent_ok ids z act b ns L) as A. destruct (noise_agent ids z act (b, ns)) as [act1 p]. destruct A as (L1 & -> & O1 & O2).
    specialize (IH act1 N' L1). destruct (ma_noise ids z act1 ps) as [act2 ps2]. destruct IH as (L2 & F2 & Q). split; [exact L2|]. split; [cbn [map fst]; rewrite F2; reflexivity|].
    intros a. specialize (Q a). cbn [look]. destruct (b =? a) eqn:E.
    + apply Nat.eqb_eq in E. subst a. rewrite (look_notin b ps Hb) in Q. destruct Q as [Q _]. split; [rewrite Q; exact O1|reflexivity].
    + apply Nat.eqb_neq in E. rewrite (O2 a (fun H => E (eq_sym H))) in Q. exact Q.
Qed.

(** C383.  In one call the rows of every agent get the noise of its own policy, called with these rows in their order;
    a policy without rows is not called and rows of no agent stay as they are. *)
Lemma C383_call_lemma : forall (ids : list nat) (z : nat -> list Qc) (act : list Qc) (ps : list (nat * enoise)) (a : nat),
  NoDup (map fst ps) -> length act = length ids ->
  length (fst (ma_noise ids z act ps)) = length ids /\
  match look a ps with
  | Some ns => own a ids (fst (ma_noise ids z act ps)) = fst (solo ns (own a ids act) (z a)) /\
               look a (snd (ma_noise ids z act ps)) = Some (snd (solo ns (own a ids act) (z a)))
  | None => own a ids (fst (ma_noise ids z act ps)) = own a ids act
  end.
Proof.
  intros ids z act ps a N L. pose proof (ma_ok ids z ps act N L) as Q. destruct (ma_noise ids z act ps) as [act' ps']. cbn [fst snd]. destruct Q as (L' & _ & Q). split; [exact L'|].
  specialize (Q a). destruct (look a ps) as [ns|]; [exact Q|apply (proj1 Q)].
Qed.

(** C383.  Over any sequence of calls, whichever agents have rows in each, an agent's actions and its noise are those of
    its policy called alone with its rows: the other agents make no difference. *)
Lemma C383_run_lemma : forall (steps : list mstep) (ps : list (nat * enoise)) (a : nat) (ns : enoise),
  NoDup (map fst ps) -> Forall (fun s => length (ms_act s) = length (ms_ids s)) steps -> look a ps = Some ns ->
  map (fun sr : mstep * list Qc => own a (ms_ids (fst sr)) (snd sr)) (combine steps (fst (ma_run ps steps))) = fst (alone a ns steps) /\
  look a (snd (ma_run ps steps)) = Some (snd (alone a ns steps)) /\ length (fst (ma_run ps steps)) = length steps.
Proof.
  induction steps as [|s steps IH]; intros ps a ns N F H; [split; [reflexivity|split; [exact H|reflexivity]]|]. inversion F as [|s' l' F0 F1]; subst s' l'. cbn [ma_run alone].
  pose proof (ma_ok (ms_ids s) (ms_z s) ps (ms_act s) N F0) as Q. destruct (ma_noise (ms_ids s) (ms_z s) (ms_act s) ps) as [act' ps']. destruct Q as (_ & M & Q). specialize (Q a). rewrite H in Q. destruct Q as [Q1 Q2].
  destruct (solo ns (own a (ms_ids s) (ms_act s)) (ms_z s a)) as [r ns1] eqn:S. cbn [fst snd] in Q1, Q2. rewrite <- M in N. specialize (IH ps' a ns1 N F1 Q2).
  destruct (ma_run ps' steps) as [out ps2]. destruct (alone a ns1 steps) as [out' ns2]. cbn [fst snd combine map length] in *. destruct IH as (I1 & I2 & I3).
  split; [rewrite Q1, I1; reflexivity|]. split; [exact I2|rewrite I3; reflexivity].
Qed.

Lemma own_ext : forall ids (l m : list Qc), length l = length ids -> length m = length ids -> (forall a, own a ids l = own a ids m) -> l = m.
Proof.
  induction ids as [|i ids IH]; intros l m L M H; [destruct l, m; discriminate || reflexivity|]. destruct l as [|x l]; [discriminate|]. destruct m as [|y m]; [discriminate|]. cbn [length] in L, M.
  pose proof (H i) as E. cbn [own] in E. rewrite Nat.eqb_refl in E. injection E as E1 E2. subst y. f_equal. apply IH; [congruence|congruence|]. intros a. specialize (H a). cbn [own] in H. destruct (i =? a); [injection H as H; exact H|exact H].
Qed.
Lemma look_perm : forall {A} a (ps qs : list (nat * A)), NoDup (map fst ps) -> Permutation ps qs -> look a ps = look a qs.
Proof.
  intros A a ps qs N P. induction P as [|[b x] ps qs P IH|[b x] [c y] ps|ps qs rs P1 IH1 P2 IH2].
  - reflexivity.
  - cbn [look]. cbn [map] in N. inversion N. rewrite IH by assumption. reflexivity.
  - cbn [look]. cbn [map fst] in N. inversion N as [|b' l' Hn N2]; subst. destruct (c =? a) eqn:Ec, (b =? a) eqn:Eb; try reflexivity. apply Nat.eqb_eq in Ec, Eb. subst. exfalso. apply Hn. left. reflexivity.
  - rewrite IH1 by exact N. apply IH2. apply (Permutation_NoDup (Permutation_map fst P1) N).
Qed.
(** C383.  The order of the agents makes no difference. *)
Lemma C383_order_lemma : forall (ids : list nat) (z : nat -> list Qc) (act : list Qc) (ps qs : list (nat * enoise)),
  NoDup (map fst ps) -> Permutation ps qs -> length act = length ids ->
  fst (ma_noise ids z act ps) = fst (ma_noise ids z act qs) /\
  forall a, look a (snd (ma_noise ids z act ps)) = look a (snd (ma_noise ids z act qs)).
Proof.
  intros ids z act ps qs N P L. pose proof (ma_ok ids z ps act N L) as Q1. pose proof (ma_ok ids z qs act (Permutation_NoDup (Permutation_map fst P) N) L) as Q2.
  destruct (ma_noise ids z act ps) as [a1 p1], (ma_noise ids z act qs) as [a2 p2]. cbn [fst snd]. destruct Q1 as (L1 & _ & Q1), Q2 as (L2 & _ & Q2). split.
  - apply (own_ext ids); [exact L1|exact L2|]. intros a. specialize (Q1 a). specialize (Q2 a). rewrite <- (look_perm a ps qs N P) in Q2. destruct (look a ps) as [ns|]; destruct Q1 as [-> _], Q2 as [-> _]; reflexivity.
  - intros a. specialize (Q1 a). specialize (Q2 a). rewrite <- (look_perm a ps qs N P) in Q2. destruct (look a ps) as [ns|]; destruct Q1 as [_ ->], Q2 as [_ ->]; reflexivity.
Qed.
