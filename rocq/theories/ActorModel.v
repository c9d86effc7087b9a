(** * Model of the off-policy actor-critic learners: policy/modelfree/{ddpg, td3, sac, discrete_sac, redq}.py,
      utils/optim.py, exploration/random.py

    Networks, their gradients and optimizers are arbitrary functions; a module is the list of its parameter
    tensors (each flattened), its [.grad] fields and the optimizer it was given to.  Networks are deterministic
    (no dropout).  Random draws are an argument.  Floats are exact rationals. *)
From Verif Require Export Py Num PolicyModel DqnModel StatModel.
Open Scope nat_scope.

Definition prm := list (list Qc).
(** Accumulation of gradients by [backward]. *)
Definition padd (g d : prm) : prm := map (fun rs => map (fun xy : Qc * Qc => (fst xy + snd xy)%Qc) (combine (fst rs) (snd rs))) (combine g d).
Definition pscale (c : Qc) (g : prm) : prm := map (map (Qcmult c)) g.

(** ** utils/optim.py *)
(** utils/optim.py:33-43; [OtherClass]: any other class, also subclasses of these. *)
Inductive optclass := Adam | SGD | RMSprop | Adadelta | AdamW | Adamax | NAdam | SparseAdam | LBFGS | OtherClass (n : nat).
Definition is_standard (c : optclass) : bool := match c with OtherClass _ => false | _ => true end.

(** Options of an optimizer (learning rate, ...); state of an optimizer; observations; random draws of one call. *)
Section Optim.
Context {Cfg OS Ob Rnd : Type}.
Record row := mkR { r_obs : Ob; r_act : list Qc; r_ret : Qc }.
(** [mb_w]: [batch.weight] if there (same length). *)
Record mb := mkMB { mb_rows : list row; mb_w : option (list Qc) }.
(** The functions the learners are generic in. *)
Record world := mkW {
  (** state of a new optimizer *)
  w_os0 : OS;
  (** one step: new state and parameters from class, options, state, parameters and gradient *)
  w_ostep : optclass -> Cfg -> OS -> prm -> prm -> OS * prm;
  (** total norm of the gradients *)
  w_norm : prm -> Qc;
  (** networks: actor, critic, ensemble of critics *)
  w_actor : prm -> Ob -> list Qc;
  w_critic : prm -> Ob -> list Qc -> Qc;
  w_ens : prm -> Ob -> list Qc -> list Qc;
  (** gradient of the critic's loss: parameters and batch *)
  w_dcritic : prm -> mb -> prm;
  (** value and gradients of the actor's loss, from the parameters of actor and critics, the entropy coefficient, the
      draws and the batch: value, gradient of the actor's parameters, gradient of the parameters of critic [i] *)
  w_aloss : prm -> list prm -> Qc -> Rnd -> list row -> Qc;
  w_dactor : prm -> list prm -> Qc -> Rnd -> list row -> prm;
  w_dspill : nat -> prm -> list prm -> Qc -> Rnd -> list row -> prm }.
Variable W : world.
Local Notation os0 := (w_os0 W). Local Notation ostep := (w_ostep W). Local Notation norm := (w_norm W).
Local Notation actor := (w_actor W). Local Notation critic := (w_critic W). Local Notation ensemble := (w_ens W).
Local Notation d_critic := (w_dcritic W). Local Notation actor_loss := (w_aloss W).
Local Notation d_actor := (w_dactor W). Local Notation d_spill := (w_dspill W).

(** [o_groups]: the options in [param_groups], used by [step] and changed by learning rate schedulers (one group
    only); [o_defaults]: [optim.defaults], the options passed to the constructor. *)
Record optim := mkO { o_cls : optclass; o_groups : Cfg; o_defaults : Cfg; o_st : OS }.
(** optim.py:48-69 *)
Definition clone_optimizer (o : optim) : res optim :=
  guard (is_standard (o_cls o)) ValueError (Ok (mkO (o_cls o) (o_defaults o) (o_defaults o) os0)).

Record net := mkN { n_par : prm; n_grad : option prm; n_opt : optim }.
Definition zero_grad (n : net) : net := mkN (n_par n) None (n_opt n).
Definition backward (d : prm) (n : net) : net :=
  mkN (n_par n) (Some match n_grad n with None => d | Some g => padd g d end) (n_opt n).
(** Parameters whose gradient is [None] are skipped. *)
Definition opt_step (n : net) : net :=
  match n_grad n with
  | None => n
  | Some g => let o := n_opt n in let '(st, p) := ostep (o_cls o) (o_groups o) (o_st o) (n_par n) g in
              mkN p (Some g) (mkO (o_cls o) (o_groups o) (o_defaults o) st)
  end.

(** [nn.utils.clip_grad_norm_]: the gradients are multiplied by [min (1, max_norm / (total_norm + 1e-6))]. *)
Definition clip_coef (max_norm total : Qc) : Qc := Qcminb 1 (max_norm / (total + Q2Qc (1 # 1000000)))%Qc.
Definition clip_grad_norm (max_norm : Qc) (n : net) : net :=
  match n_grad n with
  | None => n
  | Some g => mkN (n_par n) (Some (pscale (clip_coef max_norm (norm g)) g)) (n_opt n)
  end.
(** optim.py:8-30; [d]: the gradient of the loss; [has_module]: a module was passed (its parameters are those of
    the optimizer).  Returns the state also if it raises. *)
Definition optim_step (d : prm) (has_module : bool) (max_grad_norm : option Qc) (n : net) : net * option exn :=
  let n := backward d (zero_grad n) in
  match max_grad_norm with
  | Some m => if Qceqb m 0 then (opt_step n, None)
              else if has_module then (opt_step (clip_grad_norm m n), None)
              else (n, Some ValueError)
  | None => (opt_step n, None)
  end.

(** ** Learning *)
Definition td (p : prm) (b : mb) : list Qc := map (fun r => critic p (r_obs r) (r_act r) - r_ret r)%Qc (mb_rows b).
Definition weighted (w : option (list Qc)) (e : list Qc) : list Qc :=
  match w with None => map (fun x => x * x)%Qc e | Some w => map (fun xw : Qc * Qc => (fst xw * fst xw * snd xw)%Qc) (combine e w) end.
(** ddpg.py:181-197 *)
Definition mse_optimizer (b : mb) (c : net) : list Qc * Qc * net :=
  let e := td (n_par c) b in
  let loss := np_mean (weighted (mb_w b) e) in
  (e, loss, opt_step (backward (d_critic (n_par c) b) (zero_grad c))).

(** base.py:287-290; an exception ends [learn] (the partially updated target is not represented). *)
Definition sync (tau : Qc) (old new : prm) : res prm :=
  match soft_update tau old new with (p, None) => Ok p | (_, Some e) => Err e end.

(** State of DDPG, TD3 and SAC (sac.py: [s_aold] is there but unused). *)
Record st := mkS { s_a : net; s_aold : prm; s_c1 : net; s_c1old : prm; s_c2 : net; s_c2old : prm;
                   s_cnt : nat; s_last : Qc }.
Record stats := mkStats { t_actor : Qc; t_c1 : Qc; t_c2 : Qc }.

(** ddpg.py:97-105, td3.py:102-109, sac.py:131-135; [c2]: the second critic and its optimizer, if given.
    [check]: the ValueError of td3.py:102-103 (absent from sac.py). *)
Definition init (check : bool) (a : net) (c1 : net) (c2 : option prm) (o2 : option optim) : res st :=
  let* _ := match c2, o2 with Some _, None => if check then Err ValueError else Ok tt | _, _ => Ok tt end in
  let p2 := match c2 with Some p => p | None => n_par c1 end in
  let* opt2 := match o2 with Some o => Ok o | None => clone_optimizer (n_opt c1) end in
  Ok (mkS a (n_par a) c1 (n_par c1) (mkN p2 None opt2) p2 0 0%Qc).

(** ddpg.py:199-210 (the fields of the second critic are not used). *)
Definition ddpg_learn (tau : Qc) (x : Rnd) (b : mb) (s : st) : res (st * list Qc * stats) :=
  let '(e, closs, c1) := mse_optimizer b (s_c1 s) in
  let ps := [n_par c1] in let pa := n_par (s_a s) in let rows := mb_rows b in
  let aloss := actor_loss pa ps 0%Qc x rows in
  let a := backward (d_actor pa ps 0%Qc x rows) (zero_grad (s_a s)) in
  let c1 := backward (d_spill 0 pa ps 0%Qc x rows) c1 in
  let a := opt_step a in
  let* aold := sync tau (s_aold s) (n_par a) in
  let* c1old := sync tau (s_c1old s) (n_par c1) in
  Ok (mkS a aold c1 c1old (s_c2 s) (s_c2old s) (s_cnt s) (s_last s), e, mkStats aloss closs 0%Qc).

Definition halves (e1 e2 : list Qc) : list Qc := map (fun xy : Qc * Qc => ((fst xy + snd xy) / Q2Qc (2 # 1))%Qc) (combine e1 e2).

(** td3.py:143-163; [self._cnt % 0] raises.  The actor's loss uses the first critic only. *)
Definition td3_learn (tau : Qc) (freq : nat) (x : Rnd) (b : mb) (s : st) : res (st * list Qc * stats) :=
  let '(e1, l1, c1) := mse_optimizer b (s_c1 s) in
  let '(e2, l2, c2) := mse_optimizer b (s_c2 s) in
  let w := halves e1 e2 in
  guard (negb (freq =? 0)) ZeroDivisionError
  (if s_cnt s mod freq =? 0 then
    let ps := [n_par c1] in let pa := n_par (s_a s) in let rows := mb_rows b in
    let aloss := actor_loss pa ps 0%Qc x rows in
    let a := backward (d_actor pa ps 0%Qc x rows) (zero_grad (s_a s)) in
    let c1 := backward (d_spill 0 pa ps 0%Qc x rows) c1 in
    let a := opt_step a in
    let* c1old := sync tau (s_c1old s) (n_par c1) in
    let* c2old := sync tau (s_c2old s) (n_par c2) in
    let* aold := sync tau (s_aold s) (n_par a) in
    Ok (mkS a aold c1 c1old c2 c2old (S (s_cnt s)) aloss, w, mkStats aloss l1 l2)
  else
    Ok (mkS (s_a s) (s_aold s) c1 (s_c1old s) c2 (s_c2old s) (S (s_cnt s)) (s_last s), w, mkStats (s_last s) l1 l2)).

(** sac.py:226-262, discrete_sac.py:130-185 for a fixed entropy coefficient (its tuning: ParamsModel).
    [joint]: SAC, whose actor loss reaches the critics; in discrete SAC they are under [no_grad]. *)
Definition sac_learn (joint : bool) (tau alpha : Qc) (x : Rnd) (b : mb) (s : st) : res (st * list Qc * stats) :=
  let '(e1, l1, c1) := mse_optimizer b (s_c1 s) in
  let '(e2, l2, c2) := mse_optimizer b (s_c2 s) in
  let w := halves e1 e2 in
  let ps := [n_par c1; n_par c2] in let pa := n_par (s_a s) in let rows := mb_rows b in
  let aloss := actor_loss pa ps alpha x rows in
  let a := backward (d_actor pa ps alpha x rows) (zero_grad (s_a s)) in
  let c1 := if joint then backward (d_spill 0 pa ps alpha x rows) c1 else c1 in
  let c2 := if joint then backward (d_spill 1 pa ps alpha x rows) c2 else c2 in
  let a := opt_step a in
  let* c1old := sync tau (s_c1old s) (n_par c1) in
  let* c2old := sync tau (s_c2old s) (n_par c2) in
  Ok (mkS a (s_aold s) c1 c1old c2 c2old (s_cnt s) (s_last s), w, mkStats aloss l1 l2).

(** redq.py: the critic is an ensemble. *)
(** [td] of shape (ensemble, batch), here row-wise: for each row the errors of all members. *)
Definition redq_td (p : prm) (b : mb) : list (list Qc) :=
  map (fun r => map (fun q => q - r_ret r)%Qc (ensemble p (r_obs r) (r_act r))) (mb_rows b).
Definition redq_loss (b : mb) (e : list (list Qc)) : Qc :=
  np_mean match mb_w b with
          | None => concat (map (map (fun x => x * x)%Qc) e)
          | Some w => concat (map (fun ew : list Qc * Qc => map (fun x => x * x * snd ew)%Qc (fst ew)) (combine e w))
          end.
(** redq.py:195-239 for a fixed entropy coefficient; [s_c1] the ensemble, [s_cnt] the [critic_gradient_step];
    redq.py:144-146 [sync_weight] (the same mixture as [soft_update]). *)
Definition redq_learn (tau alpha : Qc) (delay : nat) (x : Rnd) (b : mb) (s : st) : res (st * list Qc * stats) :=
  let e := redq_td (n_par (s_c1 s)) b in
  let closs := redq_loss b e in
  let c1 := opt_step (backward (d_critic (n_par (s_c1 s)) b) (zero_grad (s_c1 s))) in
  let w := map np_mean e in
  let cnt := S (s_cnt s) in
  guard (negb (delay =? 0)) ZeroDivisionError
  (let upd := cnt mod delay =? 0 in
   let ps := [n_par c1] in let pa := n_par (s_a s) in let rows := mb_rows b in
   let aloss := actor_loss pa ps alpha x rows in
   let a := if upd then opt_step (backward (d_actor pa ps alpha x rows) (zero_grad (s_a s))) else s_a s in
   let c1 := if upd then backward (d_spill 0 pa ps alpha x rows) c1 else c1 in
   let* c1old := sync tau (s_c1old s) (n_par c1) in
   let last := if upd then aloss else s_last s in
   Ok (mkS a (s_aold s) c1 c1old (s_c2 s) (s_c2old s) cnt last, w, mkStats last closs 0%Qc)).

(** The states after each of a sequence of [learn] calls. *)
Definition call := (Rnd * mb)%type.
Fixpoint trace (learn : Rnd -> mb -> st -> res (st * list Qc * stats)) (cs : list call) (s : st) : res (list (st * list Qc * stats)) :=
  match cs with
  | [] => Ok []
  | (x, b) :: cs => let* r := learn x b s in let* l := trace learn cs (fst (fst r)) in Ok (r :: l)
  end.

(** ** Targets of one row ([o]: the observation n steps ahead) *)
(** ddpg.py:136-141 *)
Definition ddpg_target (s : st) (o : Ob) : Qc := critic (s_c1old s) o (actor (s_aold s) o).
(** td3.py:133-137: [z]: standard normal draws *)
Definition smooth_noise (policy_noise noise_clip : Qc) (z : list Qc) : list Qc :=
  let noise := map (fun x => x * policy_noise)%Qc z in
  if Qcltb 0 noise_clip then map (clampq (- noise_clip) noise_clip) noise else noise.
Definition smoothed_action (policy_noise noise_clip : Qc) (z a : list Qc) : list Qc :=
  map (fun xy : Qc * Qc => (fst xy + snd xy)%Qc) (combine a (smooth_noise policy_noise noise_clip z)).
(** td3.py:128-141 *)
Definition td3_target (policy_noise noise_clip : Qc) (z : list Qc) (s : st) (o : Ob) : Qc :=
  let a := smoothed_action policy_noise noise_clip z (actor (s_aold s) o) in
  Qcminb (critic (s_c1old s) o a) (critic (s_c2old s) o a).
(** sac.py:211-224: action and log probability of the current actor *)
Definition sac_target (alpha : Qc) (s : st) (o : Ob) (a : list Qc) (log_prob : Qc) : Qc :=
  (Qcminb (critic (s_c1old s) o a) (critic (s_c2old s) o a) - alpha * log_prob)%Qc.
End Optim.

(** redq.py:177-193: [qs]: the values of all members; [idx]: the result of [np.random.choice] *)
Definition minl (l : list Qc) : Qc := match l with [] => 0%Qc | x :: l => fold_left Qcminb l x end.
Inductive tmode := TMin | TMean.
Definition redq_target (mode : tmode) (alpha log_prob : Qc) (qs : list Qc) (idx : list nat) : res Qc :=
  let* sub := mapM (fun i => zget qs (Z.of_nat i)) idx in
  match mode with
  | TMin => match sub with [] => Err IndexError | _ => Ok (minl sub - alpha * log_prob)%Qc end
  | TMean => Ok (np_mean sub - alpha * log_prob)%Qc
  end.

(** discrete_sac.py:117-128: probabilities, their logarithms and the values of the two target critics *)
Definition dot (a b : list Qc) : Qc := qsum (map (fun xy : Qc * Qc => (fst xy * snd xy)%Qc) (combine a b)).
Definition entropy (p logp : list Qc) : Qc := (- dot p logp)%Qc.
Definition minrow (a b : list Qc) : list Qc := map (fun xy : Qc * Qc => Qcminb (fst xy) (snd xy)) (combine a b).
Definition dsac_target (alpha : Qc) (p logp q1 q2 : list Qc) : Qc := (dot p (minrow q1 q2) + alpha * entropy p logp)%Qc.

(** ** exploration/random.py:35-82 [OUNoise] for arrays of rank one
    State: [None], a scalar or an array.  [size]: a tuple, or another sequence (unequal to every [shape]). *)
Inductive ouval := OUNone | OUScal (x : Qc) | OUArr (l : list Qc).
Inductive size_arg := SizeTuple (n : nat) | SizeList (n : nat).
Definition size_len (z : size_arg) : nat := match z with SizeTuple n | SizeList n => n end.
(** random.py:76-77 *)
Definition ou_restart (x : ouval) (z : size_arg) : ouval :=
  match x with
  | OUNone => OUScal 0
  | OUScal v => OUScal v
  | OUArr l => match z with SizeTuple n => if length l =? n then OUArr l else OUScal 0 | SizeList _ => OUScal 0 end
  end.
Definition ou_get (x : ouval) (j : nat) : Qc := match x with OUNone => 0%Qc | OUScal v => v | OUArr l => nth j l 0%Qc end.
(** random.py:78-82; [z]: the draws; [mu]: the argument or the attribute *)
Definition ou_call (mu alpha beta : Qc) (size : size_arg) (z : list Qc) (x : ouval) : list Qc * ouval :=
  let x := ou_restart x size in
  let r := map (fun j => ou_get x j + alpha * (mu - ou_get x j) + beta * nth j z 0)%Qc (seq 0 (size_len size)) in
  (r, OUArr r).
(** Successive calls. *)
Fixpoint ou_run (mu alpha beta : Qc) (calls : list (size_arg * list Qc)) (x : ouval) : list (list Qc) :=
  match calls with
  | [] => []
  | (sz, z) :: cs => let '(r, x') := ou_call mu alpha beta sz z x in r :: ou_run mu alpha beta cs x'
  end.
