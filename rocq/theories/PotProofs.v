(** * Proofs about potential-based shaping *)
From Verif Require Import Py PyLemmas Num PotSpec.
Open Scope nat_scope.

Lemma delta_shape (gamma : Qc) : forall v v_ r p p_, length v_ = length v -> length r = length v -> length p = length v -> length p_ = length v ->
  map (fun x : Qc * Qc * Qc => let '(r, v', v) := x in (r + v' * gamma - v)%Qc)
      (combine (combine (vminus (vplus r (vtimes gamma p_)) p) (vminus v_ p_)) (vminus v p))
  = map (fun x : Qc * Qc * Qc => let '(r, v', v) := x in (r + v' * gamma - v)%Qc) (combine (combine r v_) v).
Proof.
  induction v as [|x v IH]; intros [|y v_] [|z r] [|a p] [|b p_]; cbn; try discriminate; auto.
  intros H1 H2 H3 H4. f_equal; [ring|]. apply IH; congruence.
Qed.

(** C338.  With rewards [r + gamma * p' - p] and values [v - p] the advantages are the same. *)
Lemma C338_gae_lemma : forall v v_ r p p_ ends gamma lam,
  length v_ = length v -> length r = length v -> length p = length v -> length p_ = length v ->
  gae_return (vminus v p) (vminus v_ p_) (vminus (vplus r (vtimes gamma p_)) p) ends gamma lam = gae_return v v_ r ends gamma lam.
Proof. intros. unfold gae_return. rewrite delta_shape by assumption. reflexivity. Qed.

Lemma mask_minus : forall (v p : list Qc) (m : list bool), length p = length v ->
  map (fun x : Qc * bool => (fst x * b2q (snd x))%Qc) (combine (vminus v p) m)
  = vminus (map (fun x : Qc * bool => (fst x * b2q (snd x))%Qc) (combine v m)) (map (fun x : Qc * bool => (fst x * b2q (snd x))%Qc) (combine p m)).
Proof.
  induction v as [|x v IH]; intros [|y p] [|b m]; cbn; try discriminate; auto.
  intros H. f_equal; [ring|]. apply IH; congruence.
Qed.
Lemma vminus_length : forall l m, length m = length l -> length (vminus l m) = length l.
Proof. intros l m H. unfold vminus. rewrite map_length, combine_length. lia. Qed.
Lemma shape_rew (gamma : Qc) : forall rows mask p p_, length mask = length rows -> length p = length rows -> length p_ = length rows ->
  map (fun x : Qc * bool * bool => fst (fst x)) (shape_rows gamma rows mask p p_)
  = vminus (vplus (map (fun x : Qc * bool * bool => fst (fst x)) rows) (vtimes gamma (map (fun x : Qc * bool => (fst x * b2q (snd x))%Qc) (combine p_ mask)))) p.
Proof.
  induction rows as [|[[r a] b] rows IH]; intros [|k mask] [|y p] [|z p_]; cbn; try discriminate; auto.
  intros H1 H2 H3. f_equal. apply IH; congruence.
Qed.
Lemma shape_flags (gamma : Qc) (unf : list nat) : forall rows mask p p_ (idx : list Z), length mask = length rows -> length p = length rows -> length p_ = length rows ->
  map (fun x : Qc * bool * bool * Z => let '((_, term, trunc), i) := x in term || trunc || existsb (fun u => (Z.of_nat u =? i)%Z) unf) (combine (shape_rows gamma rows mask p p_) idx)
  = map (fun x : Qc * bool * bool * Z => let '((_, term, trunc), i) := x in term || trunc || existsb (fun u => (Z.of_nat u =? i)%Z) unf) (combine rows idx).
Proof.
  induction rows as [|[[r a] b] rows IH]; intros [|k mask] [|y p] [|z p_] [|i idx]; cbn; try discriminate; auto.
  intros H1 H2 H3. f_equal. apply IH; congruence.
Qed.
Lemma gae_loop_length : forall d c, length c = length d -> length (gae_loop d c) = length d.
Proof. induction d as [|x d IH]; intros [|y c]; intros H; try discriminate; cbn; auto. Qed.
Lemma ret_minus : forall (adv v p : list Qc), length adv = length v -> length p = length v ->
  map (fun x : Qc * Qc => (fst x + snd x)%Qc) (combine adv (vminus v p)) = vminus (map (fun x : Qc * Qc => (fst x + snd x)%Qc) (combine adv v)) p.
Proof.
  induction adv as [|a adv IH]; intros [|x v] [|y p]; cbn; try discriminate; auto.
  intros H1 H2. f_equal; [ring|]. apply IH; congruence.
Qed.

(** C338.  compute_episodic_return on shaped rewards and values: the same advantages, and returns lower
    by the potential; where it raises, it raises the same. *)
Lemma C338_episodic_lemma : forall (Ob A Inf : Type) (b : ibuf Ob A Inf) rows indices mask v_s_ v_s now next gamma lam ret adv,
  value_mask b indices = Ok mask -> length now = length rows -> length next = length rows ->
  compute_episodic_return b rows indices (Some v_s_) (Some v_s) gamma lam = Ok (ret, adv) ->
  compute_episodic_return b (shape_rows gamma rows mask now next) indices (Some (vminus v_s_ next)) (Some (vminus v_s now)) gamma lam
  = Ok (vminus ret now, adv).
Proof.
  intros Ob A Inf b rows indices mask v_s_ v_s now next gamma lam ret adv Hm Hn Hx.
  unfold compute_episodic_return. rewrite Hm. cbn [bind].
  unfold guard. destruct (length v_s_ =? length mask) eqn:E1; [|discriminate]. cbn [bind].
  destruct (ib_unfinished b) as [unf|e] eqn:Eu; [|discriminate]. cbn [bind].
  apply Nat.eqb_eq in E1.
  destruct ((length (map (fun x : Qc * bool => (fst x * b2q (snd x))%Qc) (combine v_s_ mask)) =? length (map (fun x : Qc * bool * bool => fst (fst x)) rows))
            && (length v_s =? length (map (fun x : Qc * bool * bool => fst (fst x)) rows))) eqn:E2; [|discriminate].
  apply andb_prop in E2. destruct E2 as [E2 E3]. rewrite Nat.eqb_eq in E2, E3.
  rewrite map_length, combine_length, map_length in E2. rewrite map_length in E3.
  destruct (length indices =? length (map (fun x : Qc * bool * bool => fst (fst x)) rows)) eqn:E4; [|discriminate].
  apply Nat.eqb_eq in E4. rewrite map_length in E4.
  assert (Lm : length mask = length rows) by lia. assert (Lv : length v_s_ = length rows) by lia.
  intros H. injection H as Hr Ha.
  rewrite vminus_length by congruence. replace (length v_s_ =? length mask) with true by (symmetry; apply Nat.eqb_eq; lia). cbn [bind].
  rewrite mask_minus by congruence.
  rewrite shape_rew, shape_flags by congruence.
  rewrite !vminus_length, !map_length, !combine_length.
  all: try (unfold vplus, vtimes; rewrite ?map_length, ?combine_length, ?map_length, ?combine_length; lia).
  unfold vplus at 1 2 3. unfold vtimes. rewrite !map_length, !combine_length, !map_length, !combine_length.
  replace ((Nat.min (length v_s_) (length mask) =? Nat.min (length rows) (Nat.min (length next) (length mask))) && (length v_s =? Nat.min (length rows) (Nat.min (length next) (length mask)))) with true
    by (symmetry; apply andb_true_intro; split; apply Nat.eqb_eq; lia).
  replace (length indices =? Nat.min (length rows) (Nat.min (length next) (length mask))) with true by (symmetry; apply Nat.eqb_eq; lia).
  fold (vtimes gamma (map (fun x : Qc * bool => (fst x * b2q (snd x))%Qc) (combine next mask))).
  rewrite C338_gae_lemma by (rewrite ?map_length, ?combine_length, ?map_length; lia).
  rewrite ret_minus; [rewrite Hr, Ha; reflexivity| |congruence].
  unfold gae_return. rewrite gae_loop_length; rewrite ?map_length, ?combine_length, ?combine_length, ?map_length, ?combine_length; lia.
Qed.

Section Targets.
Context {Ob A Inf : Type}.
Variable phi : Ob -> Qc.
Variable gamma : Qc.
Notation trans := (trans Ob A Inf Qc).
Variable W : trans -> list trans -> Qc.
Variable W' : trans -> list trans -> Qc.
Hypothesis HW : forall t rest, W' (shape phi gamma t) (map (shape phi gamma) rest) = (W t rest - phi (t_obs_next t))%Qc.
Lemma is_nil_map {T U} (f : T -> U) l : is_nil (map f l) = is_nil l.
Proof. destruct l; reflexivity. Qed.
Lemma n_step_cons (V : trans -> list trans -> Qc) N t rest : n_step V gamma N (t :: rest) =
  (t_rew t + gamma * (if t_term t then 0 else if t_trunc t || is_nil rest then V t rest
     else match N with S (S N' as N1) => n_step V gamma N1 rest | _ => V t rest end))%Qc.
Proof. destruct N; reflexivity. Qed.
Lemma n_step_shape : forall ts N, connected ts ->
  n_step W' gamma N (map (shape phi gamma) ts) = (n_step W gamma N ts - start_value phi ts)%Qc.
Proof.
  induction ts as [|t rest IH]; intros N Hc; [destruct N; cbn; ring|].
  cbn [map]. rewrite !n_step_cons. cbn [start_value]. rewrite is_nil_map, HW. cbn [t_term t_trunc t_rew shape]. unfold bonus.
  destruct (t_term t) eqn:E1; [ring|]. destruct (t_trunc t || is_nil rest) eqn:E2; [ring|].
  apply orb_false_elim in E2. destruct E2 as [E2 E3].
  destruct N as [|[|N]]; [ring..|].
  destruct rest as [|t' rest]; [discriminate|]. destruct Hc as [Hc1 Hc2].
  rewrite IH by exact Hc2. cbn [start_value]. rewrite Hc1 by (unfold ends; rewrite E1, E2; reflexivity). ring.
Qed.
Lemma td_shape lam : forall ts, connected ts ->
  td_lambda W' gamma lam (map (shape phi gamma) ts) = (td_lambda W gamma lam ts - start_value phi ts)%Qc.
Proof.
  induction ts as [|t rest IH]; intros Hc; [cbn; ring|].
  cbn [map td_lambda start_value]. rewrite is_nil_map, HW. cbn [t_term t_trunc t_rew shape]. unfold bonus.
  destruct (t_term t) eqn:E1; [ring|]. destruct (t_trunc t || is_nil rest) eqn:E2; [ring|].
  apply orb_false_elim in E2. destruct E2 as [E2 E3].
  destruct rest as [|t' rest]; [discriminate|]. destruct Hc as [Hc1 Hc2].
  rewrite IH by exact Hc2. cbn [start_value]. rewrite Hc1 by (unfold ends; rewrite E1, E2; reflexivity). ring.
Qed.
End Targets.

(** C338.  n-step and TD(lambda) targets of a shaped trajectory, with values lower by the potential, are
    lower by the potential of the first observation. *)
Lemma C338_targets_lemma : forall (Ob A Inf : Type) (phi : Ob -> Qc) (gamma lam : Qc) (V V' : Ob -> Qc) (ts : list (trans Ob A Inf Qc)) N,
  (forall ob, V' ob = (V ob - phi ob)%Qc) -> connected ts ->
  n_step (fun t _ => V' (t_obs_next t)) gamma N (map (shape phi gamma) ts) = (n_step (fun t _ => V (t_obs_next t)) gamma N ts - start_value phi ts)%Qc
  /\ td_lambda (fun t _ => V' (t_obs_next t)) gamma lam (map (shape phi gamma) ts) = (td_lambda (fun t _ => V (t_obs_next t)) gamma lam ts - start_value phi ts)%Qc.
Proof.
  intros Ob A Inf phi gamma lam V V' ts N HV Hc. split; [apply n_step_shape|apply td_shape]; try exact Hc; intros t rest; cbn; apply HV.
Qed.

Section Env.
Context {Ob A B Inf ES : Type}.
Variable estep : nat -> ES -> B -> ES * sres Ob Inf Qc.
Variable ereset : nat -> ES -> ES * (Ob * Inf).
Variable phi : Ob -> Qc.
Variable gamma : Qc.
Lemma solo_shape : forall (acts : list (A * B)) e s ob,
  solo (pot_step phi gamma estep) (pot_reset ereset) e (s, ob) ob acts = map (shape phi gamma) (solo estep ereset e s ob acts).
Proof.
  induction acts as [|[a b] acts IH]; intros e s ob; [reflexivity|].
  cbn [solo map]. unfold transition, after, pot_step, shape. cbn [fst snd].
  destruct (estep e s b) as [s' r] eqn:E. cbn [fst snd r_rew r_term r_trunc r_obs r_info r_done t_obs t_act t_rew t_term t_trunc t_obs_next t_info].
  f_equal. unfold r_done. cbn [r_term r_trunc]. destruct (r_term r || r_trunc r).
  - unfold pot_reset. cbn [fst snd]. destruct (ereset e s') as [s2 [ob2 i2]]. cbn [fst snd]. apply IH.
  - cbn [fst snd]. apply IH.
Qed.
Lemma solo_connected : forall (acts : list (A * B)) e s ob, connected (solo estep ereset e s ob acts).
Proof.
  induction acts as [|[a b] acts IH]; intros e s ob; [exact I|].
  cbn [solo]. specialize (IH e (fst (after estep ereset e s b)) (snd (after estep ereset e s b))).
  destruct acts as [|[a' b'] acts]; [exact I|]. cbn [solo] in *.
  split; [|exact IH]. unfold ends, transition, after. cbn [t_term t_trunc t_obs t_obs_next].
  destruct (estep e s b) as [s' r]. cbn [fst snd]. unfold r_done. intros ->. reflexivity.
Qed.
End Env.

(** C338.  An environment that shapes its rewards gives the shaped trajectory for the same actions, and
    trajectories of environments are connected. *)
Lemma C338_env_lemma : forall (Ob A B Inf ES : Type) (estep : nat -> ES -> B -> ES * sres Ob Inf Qc) (ereset : nat -> ES -> ES * (Ob * Inf))
    (phi : Ob -> Qc) (gamma : Qc) (e : nat) (s : ES) (ob : Ob) (acts : list (A * B)),
  solo (pot_step phi gamma estep) (pot_reset ereset) e (s, ob) ob acts = map (shape phi gamma) (solo estep ereset e s ob acts)
  /\ connected (solo estep ereset e s ob acts).
Proof. intros. split; [apply solo_shape|apply solo_connected]. Qed.
