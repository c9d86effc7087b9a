(** * Property C338: potential-based shaping of rewards *)
From Verif Require Import Py PyLemmas Num PotSpec PotProofs.
Open Scope nat_scope.

(** C338.  With rewards [r + gamma * p' - p] and values [v - p] the advantages are the same. *)
Theorem C338_gae : forall v v_ r p p_ ends gamma lam,
  length v_ = length v -> length r = length v -> length p = length v -> length p_ = length v ->
  gae_return (vminus v p) (vminus v_ p_) (vminus (vplus r (vtimes gamma p_)) p) ends gamma lam = gae_return v v_ r ends gamma lam.
Proof. exact C338_gae_lemma. Qed.
Print Assumptions C338_gae.

(** C338.  compute_episodic_return on shaped rewards and values: the same advantages, and returns lower
    by the potential; where it raises, it raises the same. *)
Theorem C338_episodic : forall (Ob A Inf : Type) (b : ibuf Ob A Inf) rows indices mask v_s_ v_s now next gamma lam ret adv,
  value_mask b indices = Ok mask -> length now = length rows -> length next = length rows ->
  compute_episodic_return b rows indices (Some v_s_) (Some v_s) gamma lam = Ok (ret, adv) ->
  compute_episodic_return b (shape_rows gamma rows mask now next) indices (Some (vminus v_s_ next)) (Some (vminus v_s now)) gamma lam
  = Ok (vminus ret now, adv).
Proof. exact C338_episodic_lemma. Qed.
Print Assumptions C338_episodic.

(** C338.  n-step and TD(lambda) targets of a shaped trajectory, with values lower by the potential, are
    lower by the potential of the first observation. *)
Theorem C338_targets : forall (Ob A Inf : Type) (phi : Ob -> Qc) (gamma lam : Qc) (V V' : Ob -> Qc) (ts : list (trans Ob A Inf Qc)) N,
  (forall ob, V' ob = (V ob - phi ob)%Qc) -> connected ts ->
  n_step (fun t _ => V' (t_obs_next t)) gamma N (map (shape phi gamma) ts) = (n_step (fun t _ => V (t_obs_next t)) gamma N ts - start_value phi ts)%Qc
  /\ td_lambda (fun t _ => V' (t_obs_next t)) gamma lam (map (shape phi gamma) ts) = (td_lambda (fun t _ => V (t_obs_next t)) gamma lam ts - start_value phi ts)%Qc.
Proof. exact C338_targets_lemma. Qed.
Print Assumptions C338_targets.

(** C338.  An environment that shapes its rewards gives the shaped trajectory for the same actions, and
    trajectories of environments are connected. *)
Theorem C338_env : forall (Ob A B Inf ES : Type) (estep : nat -> ES -> B -> ES * sres Ob Inf Qc) (ereset : nat -> ES -> ES * (Ob * Inf))
    (phi : Ob -> Qc) (gamma : Qc) (e : nat) (s : ES) (ob : Ob) (acts : list (A * B)),
  solo (pot_step phi gamma estep) (pot_reset ereset) e (s, ob) ob acts = map (shape phi gamma) (solo estep ereset e s ob acts)
  /\ connected (solo estep ereset e s ob acts).
Proof. exact C338_env_lemma. Qed.
Print Assumptions C338_env.

(** ** Non-vacuity: an environment that counts its steps modulo 3, truncated every second time and
    terminated otherwise; potential 10 times the count. *)
Definition pe_step (e : nat) (s : nat) (b : nat) : nat * sres nat unit Qc :=
  (S s, mkSres (S s mod 3) (Q2Qc (Z.of_nat b # 1)) (S s mod 6 =? 3) (S s mod 6 =? 0) tt).
Definition pe_reset (e : nat) (s : nat) : nat * (nat * unit) := (s, (0, tt)).
Definition pe_phi (ob : nat) : Qc := Q2Qc (10 * Z.of_nat ob # 1).
Definition pe_V (ob : nat) : Qc := Q2Qc (7 # 1).
Definition pe_acts : list (nat * nat) := map (fun i => (i, i)) (seq 1 8).
Definition pe_ts := solo pe_step pe_reset 0 1 1 pe_acts.
Definition pe_half : Qc := Q2Qc (1 # 2).
Definition pe_targets (V : nat -> Qc) (ts : list (trans nat nat unit Qc)) : list Q :=
  map (fun s => this (n_step (fun t _ => V (t_obs_next t)) pe_half 2 s)) (suffixes ts).
Example C338_ex :
  map (fun t => this (t_rew t)) (solo (pot_step pe_phi pe_half pe_step) (pot_reset pe_reset) 0 (1, 1) 1 pe_acts) = [1; -18; 8; 4; -15; 11; 7; -12]%Q
  /\ map (fun t => (t_term t, t_trunc t)) pe_ts = [(false, false); (true, false); (false, false); (false, false); (false, true); (false, false); (false, false); (true, false)]
  /\ pe_targets pe_V pe_ts = [2; 2; (27 # 4); (33 # 4); (17 # 2); (45 # 4); 11; 8]%Q
  /\ pe_targets (fun ob => (pe_V ob - pe_phi ob)%Qc) (map (shape pe_phi pe_half) pe_ts) = [-8; -18; (27 # 4); (-7 # 4); (-23 # 2); (45 # 4); 1; -12]%Q
  /\ map (fun s => this (start_value pe_phi s)) (suffixes pe_ts) = [10; 20; 0; 10; 20; 0; 10; 20]%Q.
Proof. vm_compute. repeat split. Qed.
Example C338_gae_ex :
  map this (gae_return [1%Qc; Q2Qc 4] [Q2Qc 3; 0%Qc] [1%Qc; 1%Qc] [false; true] pe_half 1%Qc) = [0; -3]%Q
  /\ map this (gae_return (vminus [1%Qc; Q2Qc 4] [Q2Qc 5; Q2Qc 6]) (vminus [Q2Qc 3; 0%Qc] [Q2Qc 7; Q2Qc 8])
       (vminus (vplus [1%Qc; 1%Qc] (vtimes pe_half [Q2Qc 7; Q2Qc 8])) [Q2Qc 5; Q2Qc 6]) [false; true] pe_half 1%Qc) = [0; -3]%Q.
Proof. vm_compute. repeat split. Qed.
Definition pe_row (r : Z) (term : bool) : option (slot nat nat unit Qc) := Some (mkSlot 0 0 (Q2Qc (r # 1)) term false term None tt).
Definition pe_b : ibuf nat nat unit := mkI (Some [pe_row 1 false; pe_row 2 true; pe_row 3 false]) (fun l => Ok l) (Ok [2]).
Definition pe_rows : list (Qc * bool * bool) := [(1%Qc, false, false); (Q2Qc 2, true, false); (Q2Qc 3, false, false)].
Definition pe_show (x : res (list Qc * list Qc)) : list Q * list Q := match x with Ok (r, a) => (map this r, map this a) | Err _ => ([], []) end.
Example C338_episodic_ex :
  value_mask pe_b [0; 1; 2]%Z = Ok [true; false; true]
  /\ pe_show (compute_episodic_return pe_b pe_rows [0; 1; 2]%Z (Some [Q2Qc 6; Q2Qc 6; Q2Qc 6]) (Some [Q2Qc 6; Q2Qc 6; Q2Qc 6]) pe_half 1%Qc) = ([2; 2; 6], [-4; -4; 0])%Q
  /\ pe_show (compute_episodic_return pe_b (shape_rows pe_half pe_rows [true; false; true] [Q2Qc 1; Q2Qc 2; Q2Qc 3] [Q2Qc 2; Q2Qc 9; Q2Qc 4]) [0; 1; 2]%Z
       (Some (vminus [Q2Qc 6; Q2Qc 6; Q2Qc 6] [Q2Qc 2; Q2Qc 9; Q2Qc 4])) (Some (vminus [Q2Qc 6; Q2Qc 6; Q2Qc 6] [Q2Qc 1; Q2Qc 2; Q2Qc 3])) pe_half 1%Qc) = ([1; 0; 3], [-4; -4; 0])%Q.
Proof. vm_compute. repeat split. Qed.
