(** * Properties C350-C351: order-preserving changes of values; changes of unit and origin *)
From Verif Require Import Py PyLemmas Num ReturnsModel DqnModel StatModel TatSpec QuantModel ActorModel OnpolModel AffSpec AffProofs.
Open Scope nat_scope.

(** C350.  The greedy actions, masked or not, and the actions of the random policy do not change if all values are
    changed by one strictly increasing function. *)
Theorem C350_greedy : forall (f : Qc -> Qc) (logits : list (list Qc)) (mask : option (list (list bool))), increasing f ->
  greedy (map (map f) logits) mask = greedy logits mask.
Proof. exact C350_greedy_lemma. Qed.
Print Assumptions C350_greedy.

(** C350.  The random policy as well. *)
Theorem C350_random : forall (f : Qc -> Qc) (logits : list (list Qc)) (mask : list (list bool)), increasing f ->
  random_forward (map (map f) logits) mask = random_forward logits mask.
Proof. exact C350_random_lemma. Qed.
Print Assumptions C350_random.

(** C350.  The targets of DQN change by the same function; with double DQN and a target network the two networks
    may be changed by different functions, and the targets follow the target network. *)
Theorem C350_target : forall (f g : Qc -> Qc) (q_new q_old : list (list Qc)) (mask : option (list (list bool))),
  increasing f ->
  (forall use_target is_double, target_q use_target is_double (map (map f) q_new) (map (map f) q_old) mask
     = rmap (map f) (target_q use_target is_double q_new q_old mask))
  /\ target_q true true (map (map f) q_new) (map (map g) q_old) mask = rmap (map g) (target_q true true q_new q_old mask).
Proof. exact C350_target_lemma. Qed.
Print Assumptions C350_target.

(** C350.  QR-DQN chooses and bootstraps alike under a change of unit and origin: the target quantiles are changed
    in the same way. *)
Theorem C350_quantile_target : forall (a b : Qc) (use_target is_double : bool) (z_new z_old : list (list Qc)), (0 < a)%Qc ->
  (forall z, In z z_new -> z <> []) ->
  qr_target use_target is_double np_mean (map (map (fun x => a * x + b)%Qc) z_new) (map (map (fun x => a * x + b)%Qc) z_old)
  = rmap (map (fun x => a * x + b)%Qc) (qr_target use_target is_double np_mean z_new z_old).
Proof. exact C350_quantile_target_lemma. Qed.
Print Assumptions C350_quantile_target.

(** C351.  Shifting current and target quantiles by one number changes neither the loss of a row nor its priority. *)
Theorem C351_quantile : forall (b : Qc) (taus curr targets : list Qc),
  quantile_row taus (map (fun x => x + b)%Qc curr) (map (fun x => x + b)%Qc targets) = quantile_row taus curr targets
  /\ quantile_priority (map (fun x => x + b)%Qc curr) (map (fun x => x + b)%Qc targets) = quantile_priority curr targets.
Proof. exact C351_quantile_lemma. Qed.
Print Assumptions C351_quantile.

(** C351.  The gradient of FQF's fraction proposal is that of the values up to the unit, whatever the origin. *)
Theorem C351_fraction : forall (a b : Qc) (hats qs : list Qc), (0 < a)%Qc ->
  fraction_gradient (map (fun x => a * x + b)%Qc hats) (map (fun x => a * x + b)%Qc qs) = map (fun x => a * x)%Qc (fraction_gradient hats qs).
Proof. exact C351_fraction_lemma. Qed.
Print Assumptions C351_fraction.

(** C351.  Normalised advantages do not depend on the origin, nor on the unit if eps is measured in it. *)
Theorem C351_advantages : forall (sqrt : Qc -> Qc) (a b eps : Qc) (adv : list Qc),
  ((0 < a)%Qc -> sqrt (a * a * sample_var adv)%Qc = (a * sqrt (sample_var adv))%Qc ->
   norm_adv sqrt (a * eps)%Qc (map (fun x => a * x + b)%Qc adv) = norm_adv sqrt eps adv)
  /\ norm_adv sqrt eps (map (fun x => x + b)%Qc adv) = norm_adv sqrt eps adv.
Proof. exact C351_advantages_lemma. Qed.
Print Assumptions C351_advantages.

(** C351.  PPO: the clipped objective is positively homogeneous in the advantage, and the value loss depends only on
    differences of values. *)
Theorem C351_ppo : forall (a b eps_clip ratio adv v_old ret value : Qc) (dual_clip : option Qc) (value_clip : bool), (0 < a)%Qc ->
  ppo_objective eps_clip dual_clip ratio (a * adv)%Qc = (a * ppo_objective eps_clip dual_clip ratio adv)%Qc
  /\ v_clip eps_clip (v_old + b)%Qc (value + b)%Qc = (v_clip eps_clip v_old value + b)%Qc
  /\ ppo_vf value_clip eps_clip (v_old + b)%Qc (ret + b)%Qc (value + b)%Qc = ppo_vf value_clip eps_clip v_old ret value.
Proof. exact C351_ppo_lemma. Qed.
Print Assumptions C351_ppo.

(** C351.  Scaling mean and deviation of the Ornstein-Uhlenbeck noise scales the whole run of noise. *)
Theorem C351_noise : forall (c mu alpha beta : Qc) (calls : list (size_arg * list Qc)),
  ou_run (c * mu)%Qc alpha (c * beta)%Qc calls OUNone = map (map (fun x => c * x)%Qc) (ou_run mu alpha beta calls OUNone).
Proof. exact C351_noise_lemma. Qed.
Print Assumptions C351_noise.

(** ** Non-vacuity *)
Definition az (z : Z) : Qc := Q2Qc (inject_Z z).
Definition aq (a : Z) (b : positive) : Qc := Q2Qc (a # b).
(** An increasing function that is not affine. *)
Definition bend (x : Qc) : Qc := if Qcleb 0 x then (az 3 * x)%Qc else x.
Example C350_ex_bend : increasing bend.
Proof.
  intros x y H. unfold bend. destruct (Qcleb_spec 0 x) as [E|E], (Qcleb_spec 0 y) as [E'|E']; unfold az; change (inject_Z 3) with 3%Q; clear - H E E'; qclra.
Qed.
Definition aL : list (list Qc) := [[az (- 2); az 1; az 5]; [az 4; az (- 1); az 4]].
Definition aM : option (list (list bool)) := Some [[true; true; false]; [false; true; false]].
Example C350_ex : greedy aL None = Ok [2; 0] /\ greedy aL aM = Ok [1; 1] /\ greedy (map (map bend) aL) aM = Ok [1; 1]
  /\ match target_q true true aL aL aM, target_q true true (map (map bend) aL) (map (map Qcopp) aL) aM, target_q true false (map (map bend) aL) (map (map bend) aL) aM with
     | Ok a, Ok b, Ok c => map (map this) [a; b; c] = [[1; - 1]; [- 1; 1]; [15; 12]]%Q | _, _, _ => False end.
Proof. vm_compute. repeat split. Qed.
Example C350_ex_random : random_forward aL [[true; true; false]; [false; false; true]] = [1; 2].
Proof. vm_compute. reflexivity. Qed.
Example C350_ex_quantile : match qr_target true false np_mean (map (map (fun x => az 2 * x + az 1)%Qc) aL) (map (map (fun x => az 2 * x + az 1)%Qc) aL) with
  | Ok l => map this l = [9; - 1; 9]%Q | _ => False end.
Proof. vm_compute. reflexivity. Qed.

Example C351_ex_quantile : match quantile_row [aq 1 4; aq 3 4] [az 1; az 3] [az 2; az 6] with Ok x => this x | _ => 0%Q end = (13 # 8)%Q
  /\ match quantile_row [aq 1 4; aq 3 4] [az 8; az 10] [az 9; az 13] with Ok x => this x | _ => 0%Q end = (13 # 8)%Q.
Proof. vm_compute. split; reflexivity. Qed.
Example C351_ex_fraction : map this (fraction_gradient [az 1; az 4; az 6] [az 2; az 5]) = [- 1; 0]%Q
  /\ map this (fraction_gradient [az 5; az 11; az 15] [az 7; az 13]) = [- 2; 0]%Q.
Proof. vm_compute. split; reflexivity. Qed.
(** A square root that is exact at the variances that occur (4 and 36). *)
Definition aroot (v : Qc) : Qc := if Qceqb v (az 4) then az 2 else if Qceqb v (az 36) then az 6 else az 1.
Example C351_ex_adv : this (sample_var [az 1; az 3; az 5]) = 4%Q
  /\ aroot (az 3 * az 3 * sample_var [az 1; az 3; az 5])%Qc = (az 3 * aroot (sample_var [az 1; az 3; az 5]))%Qc
  /\ option_map (map this) (norm_adv aroot (az 2) [az 1; az 3; az 5]) = Some [- 1 # 2; 0; 1 # 2]%Q
  /\ option_map (map this) (norm_adv aroot (az 6) [az 4; az 10; az 16]) = Some [- 1 # 2; 0; 1 # 2]%Q.
Proof. split; [vm_compute; reflexivity|]. split; [apply Qc_is_canon; vm_compute; reflexivity|]. vm_compute. split; reflexivity. Qed.
Example C351_ex_ppo : map this [ppo_objective (aq 1 5) (Some (az 2)) (az 3) (az (- 1)); ppo_objective (aq 1 5) (Some (az 2)) (az 3) (az (- 4));
    ppo_vf true (aq 1 5) (az 1) (az 4) (az 3); ppo_vf true (aq 1 5) (az 8) (az 11) (az 10)] = [- 2; - 8; 196 # 25; 196 # 25]%Q.
Proof. vm_compute. reflexivity. Qed.
Example C351_ex_noise : map (map this) (ou_run (az 2) (aq 1 2) (az 1) [(SizeTuple 2, [az 1; az 0]); (SizeTuple 2, [az 0; az 4]); (SizeTuple 1, [az 1])] OUNone)
    = [[2; 1]; [2; 11 # 2]; [2]]%Q
  /\ map (map this) (ou_run (az 6) (aq 1 2) (az 3) [(SizeTuple 2, [az 1; az 0]); (SizeTuple 2, [az 0; az 4]); (SizeTuple 1, [az 1])] OUNone)
    = [[6; 3]; [6; 33 # 2]; [6]]%Q.
Proof. vm_compute. split; reflexivity. Qed.
