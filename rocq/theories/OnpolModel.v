(** * Model of the on-policy learners: [policy/modelfree/pg.py], [a2c.py], [ppo.py]

    Numbers are exact rationals; [sqrt] is a parameter.  Networks are functions of weights [W] and a
    row; one step of the optimizer is an arbitrary function of the weights and of the minibatch.  The
    buffer and [compute_episodic_return] are those of ReturnsModel.v, [Batch.split] that of
    SplitModel.v, [RunningMeanStd] that of StatModel.v. *)
From Verif Require Export Py Num SplitModel StatModel ReturnsModel.
Open Scope nat_scope.

(** ** The losses of one row *)
Definition clampb (lo hi x : Qc) : Qc := Qcminb hi (Qcmaxb lo x).

(** ppo.py:191-200, one entry of [torch.min(surr1, surr2)] or of the [torch.where]; [clip_loss] is
    minus the mean of these.  [if self.dual_clip]: 0 counts as None (the constructor rejects it). *)
Definition ppo_objective (eps_clip : Qc) (dual_clip : option Qc) (ratio adv : Qc) : Qc :=
  let surr1 := (ratio * adv)%Qc in
  let surr2 := (clampb (1 - eps_clip) (1 + eps_clip) ratio * adv)%Qc in
  match dual_clip with
  | Some c =>
      let clip1 := Qcminb surr1 surr2 in
      let clip2 := Qcmaxb clip1 (c * adv)%Qc in
      if Qcltb adv 0 then clip2 else clip1
  | None => Qcminb surr1 surr2
  end.
Definition ppo_clip_loss (eps_clip : Qc) (dual_clip : option Qc) (rows : list (Qc * Qc)) : Qc :=
  (- np_mean (map (fun x => ppo_objective eps_clip dual_clip (fst x) (snd x)) rows))%Qc.

(** ppo.py:203-212, one entry before the mean. *)
Definition v_clip (eps_clip v_old value : Qc) : Qc := (v_old + clampb (- eps_clip) eps_clip (value - v_old))%Qc.
Definition sqr (x : Qc) : Qc := (x * x)%Qc.
Definition ppo_vf (value_clip : bool) (eps_clip v_old ret value : Qc) : Qc :=
  if value_clip then Qcmaxb (sqr (ret - value)) (sqr (ret - v_clip eps_clip v_old value)) else sqr (ret - value).

(** ppo.py:188-190.  [Tensor.std] divides by n - 1: a single row gives NaN, for the whole minibatch
    ([None]). *)
Definition norm_adv (sqrt : Qc -> Qc) (eps : Qc) (adv : list Qc) : option (list Qc) :=
  match adv with
  | _ :: _ :: _ =>
      let mean := np_mean adv in
      let std := sqrt (qsum (map (fun a => sqr (a - mean)) adv) / sq (length adv - 1))%Qc in
      Some (map (fun a => ((a - mean) / (std + eps))%Qc) adv)
  | _ => None
  end.

(** ** Rows and policies *)
Definition pick {X} (l : list X) (c : list nat) : list X :=
  flat_map (fun i => match nth_error l i with Some x => [x] | None => [] end) c.

Section Onpol.
Context {Ob A Inf W : Type}.
Variable sqrt : Qc -> Qc.
Variable critic : W -> Ob -> Qc.
Variable log_prob : W -> Ob -> A -> Qc.

(** A row of the batch that [update] sampled, and what [process_fn] adds to it. *)
Record orow : Type := mkO { o_obs : Ob; o_next : Ob; o_act : A; o_rew : Qc; o_term : bool; o_trunc : bool }.
Record mrow : Type := mkM { m_row : orow; m_v : Qc; m_ret : Qc; m_adv : Qc; m_logp : Qc }.
Variable opt : W -> list mrow -> W.

Record pol : Type := mkPol { p_w : W; p_rms : rms }.
Record cfg : Type := mkCfg {
  c_max_batch : Z; c_rew_norm : bool; c_gamma : Qc; c_lam : Qc; c_eps : Qc; c_recompute : bool }.

(** a2c.py:124-132, ppo.py:160-164: a network applied to minibatches of at most (about)
    [max_batchsize] rows; [torch.cat] of no tensors raises. *)
Definition chunked {X Y} (f : X -> Y) (max_batch : Z) (l : list X) : res (list Y) :=
  let* cs := SplitModel.split (length l) max_batch None true in
  match cs with
  | [] => Err RuntimeError
  | _ => Ok (concat (map (fun c => map f (pick l c)) cs))
  end.

(** a2c.py:118-156 [_compute_returns]: v_s, returns, adv. *)
Definition compute_returns (c : cfg) (p : pol) (b : ibuf Ob A Inf) (rows : list orow) (indices : list Z)
  : res (pol * (list Qc * list Qc * list Qc)) :=
  let* v := chunked (fun r => critic (p_w p) (o_obs r)) (c_max_batch c) rows in
  let* v' := chunked (fun r => critic (p_w p) (o_next r)) (c_max_batch c) rows in
  let scale := sqrt (r_var (p_rms p) + c_eps c)%Qc in
  let unnorm l := if c_rew_norm c then map (fun x => (x * scale)%Qc) l else l in
  let* ra := compute_episodic_return b (map (fun r => (o_rew r, o_term r, o_trunc r)) rows) indices
               (Some (unnorm v')) (Some (unnorm v)) (c_gamma c) (c_lam c) in
  let '(ret, adv) := ra in
  if c_rew_norm c then
    let* rms := rms_update (p_rms p) ret in
    Ok (mkPol (p_w p) rms, (v, map (fun x => (x / scale)%Qc) ret, adv))
  else Ok (p, (v, ret, adv)).

Definition join (rows : list orow) (x : list Qc * list Qc * list Qc) (logp : list Qc) : list mrow :=
  let '(v, ret, adv) := x in
  map (fun y : orow * (Qc * (Qc * (Qc * Qc))) =>
         let '(r, (v, (ret, (adv, lp)))) := y in mkM r v ret adv lp)
      (combine rows (combine v (combine ret (combine adv logp)))).

(** ppo.py:149-166 [process_fn]. *)
Definition ppo_process (c : cfg) (p : pol) (b : ibuf Ob A Inf) (rows : list orow) (indices : list Z)
  : res (pol * list mrow) :=
  let* px := compute_returns c p b rows indices in
  let '(p, x) := px in
  let* logp := chunked (fun r => log_prob (p_w p) (o_obs r) (o_act r)) (c_max_batch c) rows in
  Ok (p, join rows x logp).

(** [split_batch_size = batch_size or -1]. *)
Definition split_size (batch_size : option Z) : Z := match batch_size with None => -1 | Some n => if (n =? 0)%Z then -1 else n end%Z.

(** ppo.py:169-235 [learn]; [perms]: the permutations drawn by [split], one per repetition.  Returns
    also the minibatches, in order ([gradient_steps] and the length of [losses] are their number).
    With [recompute] false this is the loop of a2c.py:160-194 and pg.py:210-231 as well. *)
Fixpoint learn_loop (c : cfg) (b : ibuf Ob A Inf) (indices : list Z) (size : Z) (first : bool)
    (perms : list (list nat)) (p : pol) (rows : list mrow) {struct perms} : res (pol * list (list mrow)) :=
  match perms with
  | [] => Ok (p, [])
  | perm :: perms =>
      let* pr := if c_recompute c && negb first then
                   let* px := compute_returns c p b (map m_row rows) indices in
                   Ok (fst px, join (map m_row rows) (snd px) (map m_logp rows))
                 else Ok (p, rows) in
      let '(p, rows) := pr in
      let* cs := SplitModel.split (length rows) size (Some perm) true in
      let mbs := map (pick rows) cs in
      let p := mkPol (fold_left opt mbs (p_w p)) (p_rms p) in
      let* r := learn_loop c b indices size false perms p rows in
      Ok (fst r, mbs ++ snd r)
  end.
Definition ppo_learn (c : cfg) (b : ibuf Ob A Inf) (indices : list Z) (batch_size : option Z)
    (perms : list (list nat)) (p : pol) (rows : list mrow) : res (pol * list (list mrow)) :=
  learn_loop c b indices (split_size batch_size) true perms p rows.

(** One [update]: process_fn and learn. *)
Definition ppo_update (c : cfg) (b : ibuf Ob A Inf) (batch_size : option Z)
    (u : list orow * list Z * list (list nat)) (p : pol) : res (pol * list (list mrow)) :=
  let '(rows, indices, perms) := u in
  let* pm := ppo_process c p b rows indices in
  ppo_learn c b indices batch_size perms (fst pm) (snd pm).

(** ** pg.py:127-173: Monte Carlo returns, [v_s_] is the running mean everywhere *)
Definition pg_process (c : cfg) (p : pol) (b : ibuf Ob A Inf) (rows : list orow) (indices : list Z)
  : res (pol * list Qc) :=
  let* ra := compute_episodic_return b (map (fun r => (o_rew r, o_term r, o_trunc r)) rows) indices
               (Some (map (fun _ => r_mean (p_rms p)) indices)) None (c_gamma c) 1%Qc in
  if c_rew_norm c then
    let* rms := rms_update (p_rms p) (fst ra) in
    Ok (mkPol (p_w p) rms,
        map (fun x => ((x - r_mean (p_rms p)) / sqrt (r_var (p_rms p) + c_eps c))%Qc) (fst ra))
  else Ok (p, fst ra).
End Onpol.
Arguments orow : clear implicits.
Arguments mrow : clear implicits.
Arguments pol : clear implicits.
