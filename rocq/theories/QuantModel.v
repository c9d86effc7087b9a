(** * Model of the quantile learners and of branching DQN:
      policy/modelfree/{qrdqn, iqn, fqf, bdq}.py, policy/imitation/discrete_cql.py,
      [FractionProposalNetwork] of utils/net/discrete.py

    Networks are arbitrary functions, floats are exact rationals; gradients and optimizer steps are left out. *)
From Verif Require Export Py Num DqnModel StatModel.
Open Scope nat_scope.

Definition half : Qc := Q2Qc (1 # 2).

(** ** Fractions *)
(** qrdqn.py:83-87: midpoints of [linspace(0, 1, n + 1)]. *)
Definition linspace01 (n : nat) : list Qc := map (fun i => (qn i / qn n)%Qc) (seq 0 (S n)).
Definition midpoints (taus : list Qc) : list Qc := map (fun x : Qc * Qc => ((fst x + snd x) / (1 + 1))%Qc) (combine (removelast taus) (tl taus)).
Definition tau_hat (n : nat) : list Qc := midpoints (linspace01 n).
(** discrete.py:238-251 [FractionProposalNetwork.forward], one row: [probs] of the categorical distribution. *)
Fixpoint cumsum_from (acc : Qc) (l : list Qc) : list Qc :=
  match l with [] => [] | x :: l => (acc + x)%Qc :: cumsum_from (acc + x)%Qc l end.
Definition taus_of (probs : list Qc) : list Qc := 0%Qc :: cumsum_from 0 probs.
Definition tau_hats_of (probs : list Qc) : list Qc := midpoints (taus_of probs).
(** fqf.py:138-139: values of the actions, one action: [z] the quantile values at the midpoints. *)
Definition fqf_q (taus z : list Qc) : Qc :=
  qsum (map (fun x : Qc * Qc => (fst x * snd x)%Qc)
            (combine (map (fun x : Qc * Qc => (snd x - fst x)%Qc) (combine (removelast taus) (tl taus))) z)).
(** qrdqn.py:104-105, one action. *)
Definition qr_q (z : list Qc) : Qc := np_mean z.

(** ** The loss *)
(** [F.smooth_l1_loss(target, curr, reduction="none")] with [d = target - curr]. *)
Definition huber (d : Qc) : Qc := if Qcltb (qabs d) 1 then (half * (d * d))%Qc else (qabs d - half)%Qc.
(** qrdqn.py:119: [(tau - (target - curr).le(0).float()).abs()]. *)
Definition qweight (tau d : Qc) : Qc := qabs (tau - (if Qcleb d 0 then 1 else 0))%Qc.
(** The terms of one current quantile against all targets, summed. *)
Definition quantile_term (tau : Qc) (targets : list Qc) (c : Qc) : Qc :=
  qsum (map (fun t => (huber (t - c) * qweight tau (t - c))%Qc) targets).
(** qrdqn.py:117-123, iqn.py:142-153, fqf.py:165-175, discrete_cql.py:99-106: one row; tau and curr are
    broadcast along the same axis. *)
Definition quantile_row (taus curr targets : list Qc) : res Qc :=
  guard (length taus =? length curr) RuntimeError
    (Ok (np_mean (map (fun x : Qc * Qc => quantile_term (fst x) targets (snd x)) (combine taus curr)))).
Definition quantile_loss (rows : list (list Qc * list Qc * list Qc * Qc)) : res Qc :=
  let* l := mapM (fun x => let '(taus, curr, targets, w) := x in let* r := quantile_row taus curr targets in Ok (r * w)%Qc) rows in
  Ok (np_mean l).
(** qrdqn.py:126: the new priority of one row. *)
Definition quantile_priority (curr targets : list Qc) : Qc :=
  np_mean (map (fun c => qsum (map (fun t => qabs (huber (t - c)%Qc)) targets)) curr).

(** qrdqn.py:90-102 [_target_q], one row: [z_new], [z_old] are the quantile values per action of the two networks,
    [value] the value of an action; [is_double] is not looked at. *)
Definition qr_target (use_target is_double : bool) (value : list Qc -> Qc) (z_new z_old : list (list Qc)) : res (list Qc) :=
  let act := argmax (map value z_new) in
  match nth_error (if use_target then z_old else z_new) act with Some z => Ok z | None => Err IndexError end.

(** iqn.py:103-120: the number of sampled fractions. *)
Inductive netname := Online | Old.
Definition iqn_samples (sample_size online target : nat) (training : bool) (m : netname) : nat :=
  match m with Old => target | Online => if training then online else sample_size end.

(** fqf.py:183-203, one row: [hats] are the values at the midpoints, [qs] at the inner fractions. *)
Definition fraction_gradient (hats qs : list Qc) : list Qc :=
  let prev := firstn 1 hats ++ removelast qs in
  let next := tl qs ++ skipn (length hats - 1) hats in
  map (fun x : Qc * (Qc * Qc) * (Qc * Qc) =>
         let '((q, (h1, h2)), (p, n)) := x in
         let v1 := (q - h1)%Qc in let v2 := (q - h2)%Qc in
         ((if Qcltb p q then v1 else - v1) + (if Qcltb q n then v2 else - v2))%Qc)
      (combine (combine qs (combine (removelast hats) (tl hats))) (combine prev next)).

(** discrete_cql.py:113-116: rows are (values of the actions, action). *)
Definition cql_min_q_loss (lse : list Qc -> Qc) (rows : list (list Qc * nat)) : Qc :=
  (np_mean (map (fun r : list Qc * nat => lse (fst r)) rows) - np_mean (map (fun r : list Qc * nat => nth (snd r) (fst r) 0%Qc) rows))%Qc.

(** ** bdq.py *)
Section Bdq.
Context {Ob : Type}.
Variables q_new q_old : Ob -> list (list Qc).     (* branches, actions *)
(** bdq.py:98-114 [_target_q], one row before [squeeze]. *)
Definition bdq_branch_values (use_target is_double : bool) (o : Ob) : list Qc :=
  let tq := if use_target then q_old o else q_new o in
  map (fun x : list Qc * list Qc => let '(new, t) := x in nth (argmax (if is_double then new else t)) t 0%Qc) (combine (q_new o) tq).
(** A tensor of at most two dimensions. *)
Inductive tensor := T0 (x : Qc) | T1 (l : list Qc) | T2 (l : list (list Qc)).
(** [squeeze()] of a tensor of shape (rows, branches); both are positive. *)
Definition squeeze2 (l : list (list Qc)) : tensor :=
  match l with
  | [[x]] => T0 x
  | [row] => T1 row
  | _ => if forallb (fun r => length r =? 1) l then T1 (concat l) else T2 l
  end.
(** A row of the sample: reward, [buffer.done], "is an unfinished index", next observation. *)
Record brow := mkB { w_rew : Qc; w_done : bool; w_unfinished : bool; w_next : Ob }.
(** bdq.py:116-138 [_compute_return]; [process_fn] calls it without [gamma], so the default is used, whatever the
    discount factor of the policy.  The result is constant along branches and actions: one number per entry of
    the first axis.  Broadcasting (bdq.py:131): the reward has shape (rows,). *)
Definition bdq_returns (discount_factor : Qc) (use_target is_double : bool) (batch : list brow) : res (list Qc) :=
  let gamma := Q2Qc (99 # 100) in
  let one (r : brow) (v : Qc) := (w_rew r + gamma * v * (1 - b2q (w_done r || w_unfinished r)))%Qc in
  match squeeze2 (map (fun r => bdq_branch_values use_target is_double (w_next r)) batch) with
  | T0 x => Ok (map (fun r => one r x) batch)
  | T1 l => if length batch =? length l then Ok (map (fun x : brow * Qc => one (fst x) (snd x)) (combine batch l))
            else match batch with [r] => Ok (map (one r) l) | _ => Err ValueError end
  | T2 l => Ok (map (fun x : brow * list Qc => one (fst x) (np_mean (snd x))) (combine batch l))
  end.
End Bdq.
Arguments brow : clear implicits.
Arguments tensor : clear implicits.
(** bdq.py:165-184 [learn]: [returns] along the first axis, [rows]: the values of the chosen actions, per branch; entries of
    other actions are 0 in both masked tensors.  Result: the errors, with broadcasting of a single row. *)
Definition bdq_td (returns : list Qc) (rows : list (list Qc)) : res (list (list Qc)) :=
  if length returns =? length rows then Ok (map (fun x : Qc * list Qc => map (fun q => (fst x - q)%Qc) (snd x)) (combine returns rows))
  else match rows with
       | [row] => Ok (map (fun r => map (fun q => (r - q)%Qc) row) returns)
       | _ => Err RuntimeError
       end.
Definition bdq_loss (weight : list Qc) (td : list (list Qc)) : Qc :=
  np_mean (map (fun x : Qc * list Qc => (np_mean (map (fun d => d * d) (snd x)) * fst x)%Qc) (combine weight td)).
Definition bdq_priority (td : list (list Qc)) : list Qc := map qsum td.
(** bdq.py:188-204 [exploration_noise], rows of an action array; [u], [rand]: the draws; [mask]: added to the random actions. *)
Definition bdq_explore (near0 : bool) (eps : Qc) (u : list Qc) (rand : list (list Z)) (mask : option (list (list Z))) (act : list (list Z))
  : list (list Z) :=
  if near0 then act
  else let rand := match mask with
                   | None => rand
                   | Some m => map (fun x : list Z * list Z => map (fun y : Z * Z => (fst y + snd y)%Z) (combine (fst x) (snd x))) (combine rand m)
                   end in
       map (fun x : list Z * (Qc * list Z) => if Qcltb (fst (snd x)) eps then snd (snd x) else fst x) (combine act (combine u rand)).
