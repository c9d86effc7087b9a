(** * Model of the offline learners: policy/imitation/{bcq, cql, td3_bc, discrete_bcq, discrete_crr}.py

    Networks are arbitrary functions; [torch.logsumexp], [exp] arbitrary functions; floats are exact
    rationals.  Gradients and optimizer steps are left out: the model gives the targets and losses. *)
From Verif Require Export Py Num BufferModel ManagerModel ReturnsModel DqnModel StatModel.
Open Scope nat_scope.

(** ** cql.py:212-235 [process_buffer]; [idx] is the result of [sample_indices(0)] *)
Section Calibrate.
Context {Ob A Inf : Type}.
(** [rew[indices]], [terminated[indices]], [truncated[indices]] of [buffer.sample(0)]. *)
Definition sampled_rows (b : ibuf Ob A Inf) (idx : list nat) : res (list (Qc * bool * bool)) :=
  let* rew := column s_rew 0%Qc b in
  let* term := column s_term false b in
  let* trunc := column s_trunc false b in
  mapM (fun i => let* r := zget rew (Z.of_nat i) in let* te := zget term (Z.of_nat i) in
                 let* tr := zget trunc (Z.of_nat i) in Ok (r, te, tr)) idx.
Definition calibration_returns (b : ibuf Ob A Inf) (idx : list nat) (gamma : Qc) : res (list Qc) :=
  let* rows := sampled_rows b idx in
  let* x := compute_episodic_return b rows (map Z.of_nat idx) None None gamma 1%Qc in
  Ok (fst x).
(** A new [Batch] from the keys of [buffer._meta] and [calibration_returns]: [old] is the key if it is there already. *)
Definition process_buffer (calibrated : bool) (b : ibuf Ob A Inf) (idx : list nat) (gamma : Qc) (old : option (list Qc))
  : res (option (list Qc)) :=
  if calibrated then
    let* returns := calibration_returns b idx gamma in
    match old with Some _ => Err TypeError | None => Ok (Some returns) end
  else Ok old.
(** base.py:625-627: the value of the key in [buffer[indices]]. *)
Definition calibration_of (col : list Qc) (i : nat) : res Qc := zget col (Z.of_nat i).
End Calibrate.

(** ** Targets *)
(** [x.repeat_interleave(n, dim=0)], also [x.unsqueeze(1).repeat(1, n, ..).view(len * n, ..)]. *)
Definition repeat_rows {X} (n : nat) (l : list X) : list X := flat_map (fun x => repeat x n) l.
(** [x.reshape(rows, n)]. *)
Fixpoint reshape {X} (rows n : nat) (l : list X) : list (list X) :=
  match rows with O => [] | S r => firstn n l :: reshape r n (skipn n l) end.
Definition maxl (l : list Qc) : Qc := match l with [] => 0%Qc | x :: l => fold_left Qcmaxb l x end.

Section Bcq.
Context {Ob A : Type}.
(** The target critics, [vae.decode] of the k-th row of the repeated observations (it draws noise). *)
Variables (q1 q2 : Ob -> A -> Qc) (decode : nat -> Ob -> A).
(** bcq.py:182-187. *)
Definition clipped (lmbda x y : Qc) : Qc := (lmbda * Qcminb x y + (1 - lmbda) * Qcmaxb x y)%Qc.
(** bcq.py:169-196; rows are (reward, done, next observation). *)
Definition bcq_targets (num_sampled : nat) (lmbda gamma : Qc) (batch : list (Qc * bool * Ob)) : list Qc :=
  let obs_next := repeat_rows num_sampled (map snd batch) in
  let tq := map (fun x : nat * Ob => let '(k, o) := x in let a := decode k o in clipped lmbda (q1 o a) (q2 o a))
                (combine (seq 0 (length obs_next)) obs_next) in
  let tq := map maxl (reshape (length batch) num_sampled tq) in
  map (fun x : Qc * bool * Ob * Qc => let '((r, d, _), t) := x in (r + (if d then 0 else 1) * gamma * t)%Qc) (combine batch tq).
(** bcq.py:125-149 [forward], one observation: [acts] are the perturbed decoded actions. *)
Definition bcq_forward (q : Ob -> A -> Qc) (o : Ob) (acts : list A) (d : A) : A :=
  nth (argmax (map (q o) acts)) acts d.
End Bcq.

(** cql.py:277-290: rows are (reward, done, min of the target critics at the sampled action, its log
    probability). *)
Definition cql_targets (alpha gamma : Qc) (batch : list (Qc * bool * Qc * Qc)) : list Qc :=
  map (fun x : Qc * bool * Qc * Qc => let '(r, d, q, lp) := x in (r + (if d then 0 else 1) * gamma * (q - alpha * lp))%Qc) batch.
(** discrete_crr.py:125-132: rows are (reward, done, target q values, probabilities of the target actor). *)
Definition qdot (l p : list Qc) : Qc := qsum (map (fun x => (fst x * snd x)%Qc) (combine l p)).
Definition crr_targets (gamma : Qc) (batch : list (Qc * bool * (list Qc * list Qc))) : list Qc :=
  map (fun x : Qc * bool * (list Qc * list Qc) => let '(r, d, (q, p)) := x in (r + gamma * (if d then 0 else qdot q p))%Qc) batch.

(** ** cql.py:300-369: the conservative term *)
(** [FloatTensor(..).uniform_(a, b)]; [u] in [0, 1). *)
Definition uniform (a b : Qc) (u : list Qc) : res (list Qc) :=
  if Qcltb b a then Err RuntimeError else Ok (map (fun x => (a + x * (b - a))%Qc) u).
Definition cql_random_actions (min_action max_action : Qc) (u : list Qc) : res (list Qc) :=
  uniform (- min_action)%Qc max_action u.

Section Cql.
Variable lse : list Qc -> Qc.                    (* [torch.logsumexp] *)
Variable temperature weight : Qc.
(** The values of one critic at the [rows * n] repeated observations: random, current and next policy
    actions; [calibration]: the returns of the rows.  The [reshape] of cql.py:329-336 has no effect (its
    result is dropped). *)
Definition calibrate_with (n : nat) (calibration : option (list Qc)) (vals : list Qc) : list Qc :=
  match calibration with
  | None => vals
  | Some rets => map (fun x : Qc * Qc => Qcmaxb (fst x) (snd x)) (combine vals (repeat_rows n rets))
  end.
Definition cat_q (n : nat) (calibration : option (list Qc)) (random current next : list Qc) : list (list Qc) :=
  map (fun x => [fst x; fst (snd x); snd (snd x)])
    (combine (calibrate_with n calibration random) (combine (calibrate_with n calibration current) (calibrate_with n calibration next))).
Definition cql_term (n : nat) (calibration : option (list Qc)) (random current next current_q : list Qc) : Qc :=
  (np_mean (map (fun l => lse (map (fun x => x / temperature) l)) (cat_q n calibration random current next)) * weight * temperature
   - np_mean current_q * weight)%Qc.
End Cql.
(** cql.py:372-378. *)
Definition cql_alpha (e alpha_min alpha_max : Qc) : Qc := Qcminb (Qcmaxb e alpha_min) alpha_max.

(** ** discrete_bcq.py:128-148 [forward], one row; [None] is the threshold -inf *)
Section Dbcq.
Variable INF : Qc.
Definition dbcq_mask (log_tau : option Qc) (logits : list Qc) : list bool :=
  let top := maxl logits in
  map (fun x => match log_tau with None => false | Some t => Qcltb (x - top)%Qc t end) logits.
Definition dbcq_act (log_tau : option Qc) (q logits : list Qc) : nat :=
  argmax (map (fun x : Qc * bool => (fst x - INF * (if snd x then 1 else 0))%Qc) (combine q (dbcq_mask log_tau logits))).
End Dbcq.

(** ** td3_bc.py:115-117: the part of the actor loss that depends on the critic *)
Definition qc_abs (x : Qc) : Qc := if Qcltb x 0 then (- x)%Qc else x.
Definition td3bc_term (alpha : Qc) (q : list Qc) : option Qc :=
  let m := np_mean (map qc_abs q) in
  if Qceqb m 0 then None else Some (- (alpha / m) * np_mean q)%Qc.

(** ** discrete_crr.py:134-146 *)
Inductive crr_mode := CrrExp | CrrBinary | CrrAll.
Definition crr_advantage (q probs : list Qc) (a : nat) : Qc := (nth a q 0 - qdot q probs)%Qc.
Definition crr_coef (exp : Qc -> Qc) (beta bound : Qc) (m : crr_mode) (adv : Qc) : Qc :=
  match m with
  | CrrBinary => if Qcltb 0 adv then 1%Qc else 0%Qc
  | CrrExp => Qcminb (Qcmaxb (exp (adv / beta)%Qc) 0) bound
  | CrrAll => 1%Qc
  end.
(** discrete_crr.py:147: [dist.log_prob(act)] has shape (B,), the weights shape (B, 1) (or are the scalar 1.0):
    the product has shape (B, B). *)
Definition crr_actor_loss (logp : list Qc) (coef : option (list Qc)) : Qc :=
  match coef with
  | None => np_mean (map (fun lp => (- lp * 1)%Qc) logp)
  | Some c => np_mean (flat_map (fun w => map (fun lp => (- lp * w)%Qc) logp) c)
  end.
