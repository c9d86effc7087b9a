(** * Model of policy/modelbased/icm.py, policy/imitation/gail.py and of [BasePolicy.post_process_fn]

    NumPy arrays of rewards live in a heap, since icm.py:134-151 depends on their identity:
    [Batch(orig_rew=batch.rew)] keeps the same array (batch.py [_parse_value] copies no arrays) and
    [batch.rew += x] changes it in place.  Networks are arbitrary functions of the current weights,
    floats exact rationals. *)
From Verif Require Export Py Num SplitModel StatModel BufferModel SegTreeModel PrioModel ReturnsModel OnpolModel.
Open Scope nat_scope.

Definition ref := nat.
Definition heap := list (list Qc).
Definition deref (h : heap) (r : ref) : list Qc := nth r h [].
(** A new array: its reference is the size of the heap before. *)
Definition alloc (h : heap) (a : list Qc) : heap * ref := (h ++ [a], length h).
(** [a += x] on arrays of the same length. *)
Definition iadd (h : heap) (r : ref) (x : list Qc) : res heap :=
  guard (length (deref h r) =? length x) ValueError
    (Ok (upd h r (map (fun y => (fst y + snd y)%Qc) (combine (deref h r) x)))).

Section Icm.
Context {Ob A Inf W : Type}.

(** A sampled batch: everything but the reward by value, [b_rew] a reference, [b_policy] the key
    [policy]: the references in [Batch(orig_rew, act_hat, mse_loss)] (only the first and the loss). *)
Record ibatch : Type := mkIB { b_rows : list (orow Ob A); b_rew : ref; b_policy : option (ref * list Qc) }.
(** The rows with the rewards of the referenced array. *)
Definition set_rew (r : orow Ob A) (x : Qc) : orow Ob A := mkO (o_obs r) (o_next r) (o_act r) x (o_term r) (o_trunc r).
Definition rows_of (h : heap) (b : ibatch) : list (orow Ob A) :=
  map (fun y => set_rew (fst y) (snd y)) (combine (b_rows b) (deref h (b_rew b))).

(** base.py:526-534 [ReplayBuffer.sample]: [buffer[indices]] copies (indexing with an array). *)
Definition sample_batch (h : heap) (rows : list (orow Ob A)) : heap * ibatch :=
  let '(h, r) := alloc h (map o_rew rows) in (h, mkIB rows r None).

(** The model's mse loss (icm.py [IntrinsicCuriosityModule.forward]) of each row. *)
Variable mse : W -> orow Ob A -> Qc.
Variable reward_scale : Qc.

(** icm.py:124-137 [process_fn] before the call of the inner policy. *)
Definition icm_process (w : W) (h : heap) (b : ibatch) : res (heap * ibatch) :=
  let loss := map (mse w) (rows_of h b) in
  let b := mkIB (b_rows b) (b_rew b) (Some (b_rew b, loss)) in
  let* h := iadd h (b_rew b) (map (fun x => (x * reward_scale)%Qc) loss) in
  Ok (h, b).
(** icm.py:139-151 [post_process_fn] after the call of the inner policy. *)
Definition icm_post (b : ibatch) : res ibatch :=
  match b_policy b with
  | Some (orig, loss) => Ok (mkIB (b_rows b) orig (Some (orig, loss)))
  | None => Err AttributeError
  end.

(** base.py:506-553 [update] of an ICMPolicy around a policy whose process_fn gets the rows and
    returns [X], and whose learn and post_process_fn get [X]; neither writes to [batch.rew].
    [h] holds the buffer's arrays. *)
Section Update.
Context {S X : Type}.
Variable inner_process : S -> list (orow Ob A) -> res (S * X).
Variable inner_learn : S -> X -> res S.
Definition icm_update (w : W) (s : S) (h : heap) (rows : list (orow Ob A)) : res (S * X * heap * ibatch) :=
  let '(h, b) := sample_batch h rows in
  let* hb := icm_process w h b in
  let '(h, b) := hb in
  let* sx := inner_process s (rows_of h b) in
  let* s := inner_learn (fst sx) (snd sx) in
  let* b := icm_post b in
  Ok (s, snd sx, h, b).
End Update.

(** The inner policies.  An actor-critic learner (PG; likewise A2C, PPO) computes its returns from
    the batch (base.py:575-626), an n-step learner (DQN, DDPG, SAC, ...) from the buffer
    (base.py:629-686, [rew = buffer.rew]). *)
Definition inner_episodic (bf : ibuf Ob A Inf) (indices : list Z) (v' v : list Qc) (gamma lam : Qc)
    (s : unit) (rows : list (orow Ob A)) : res (unit * (list Qc * list Qc)) :=
  let* x := compute_episodic_return bf (map (fun r => (o_rew r, o_term r, o_trunc r)) rows) indices (Some v') (Some v) gamma lam in
  Ok (tt, x).
Definition inner_nstep (bf : ibuf Ob A Inf) (len : nat) (indices : list Z) (target : list Z -> list (list Qc)) (gamma : Qc)
    (n : nat) (s : unit) (rows : list (orow Ob A)) : res (unit * list (list Qc)) :=
  let* x := compute_nstep_return bf len indices target gamma n false in
  Ok (tt, x).
End Icm.
Arguments ibatch : clear implicits.

(** ** Flags of nested policies: icm.py:86-115, torch_utils.py:25-42, pg.py:198-206 *)
Inductive ptree : Type :=
| Base (det_eval : bool) (within : bool) (training : bool) (eps : option Qc)
| Icm (inner : ptree) (within : bool) (training : bool) (model_training : bool).
(** [policy_within_training_step]: sets the attribute of the given object. *)
Definition within_step (p : ptree) (flag : bool) : ptree :=
  match p with Base d _ t e => Base d flag t e | Icm q _ t m => Icm q flag t m end.
(** [train(mode)]. *)
Fixpoint set_train (p : ptree) (mode : bool) : ptree :=
  match p with Base d w _ e => Base d w mode e | Icm q w _ _ => Icm (set_train q mode) w mode mode end.
(** [set_eps]; a policy without it has [eps = None]. *)
Fixpoint set_eps (p : ptree) (e : Qc) : res ptree :=
  match p with
  | Base d w t (Some _) => Ok (Base d w t (Some e))
  | Base _ _ _ None => Err AttributeError
  | Icm (Base _ _ _ None) _ _ _ => Err NotImplementedError
  | Icm q w t m => let* q := set_eps q e in Ok (Icm q w t m)
  end.
(** [forward]: does it take the mode of the distribution? *)
Fixpoint takes_mode (p : ptree) : bool :=
  match p with Base det w _ _ => det && negb w | Icm q _ _ _ => takes_mode q end.
Fixpoint innermost (p : ptree) : ptree := match p with Icm q _ _ _ => innermost q | _ => p end.

(** ** gail.py *)
Section Gail.
Context {Row W : Type}.
(** [F.logsigmoid], the discriminator, one step of its optimizer on a chunk and an expert batch. *)
Variable logsig : Qc -> Qc.
Variable disc : W -> Row -> Qc.
Variable disc_opt : W -> list Row -> list Row -> W.
(** gail.py:147-159. *)
Definition gail_rew (w : W) (b : Row) : Qc := (- logsig (- disc w b))%Qc.
(** gail.py:161-198: the loop of [learn]; [perm] is the permutation of [split], [expert k n] the
    [n] rows sampled in turn [k].  Returns the chunks with their expert batches. *)
Fixpoint gail_loop (w : W) (bsz : nat) (expert : nat -> nat -> list Row) (k : nat) (chunks : list (list Row)) : W * list (list Row * list Row) :=
  match chunks with
  | [] => (w, [])
  | c :: chunks => let e := expert k bsz in
                   let '(w, l) := gail_loop (disc_opt w c e) bsz expert (S k) chunks in (w, (c, e) :: l)
  end.
Definition gail_disc (w : W) (disc_update_num : nat) (perm : list nat) (expert : nat -> nat -> list Row) (rows : list Row)
  : res (W * list (list Row * list Row)) :=
  if disc_update_num =? 0 then Err ZeroDivisionError else
  let bsz := length rows / disc_update_num in
  let* cs := SplitModel.split (length rows) (Z.of_nat bsz) (Some perm) true in
  Ok (gail_loop w bsz expert 0 (map (pick rows) cs)).
End Gail.

(** ** base.py:482-504 [post_process_fn] with a prioritized buffer

    [set]: what process_fn or learn assigned to [batch.weight] (the TD errors), [None] if nothing. *)
Section Post.
Variables (pw ipw : Qc -> Qc) (eps : Qc).
Definition prio_update (norm : bool) (p : prio) (indices : list Z) (set : option (list Qc)) : res prio :=
  let* w := batch_weight ipw norm p indices in
  update_weight pw eps p indices (match set with Some td => td | None => w end).
End Post.
