(** * Properties C143-C147: ICM, GAIL, priorities after an update *)
From Verif Require Import Py PyLemmas Num SplitModel StatModel SegTreeModel BufferModel BufferMainProofs PrioModel PrioSpec PrioProofs
  PrioMainProofs ReturnsModel OnpolModel IcmModel IcmProofs.
From Coq Require Import Permutation.
Open Scope nat_scope.

(** C143.  A whole update leaves the arrays of the buffer alone; the wrapped policy gets the rows with
    the scaled intrinsic reward added; and [batch.rew] is left with these rewards, not the original ones. *)
Theorem C143_update : forall (Ob A W S X : Type) (mse : W -> orow Ob A -> Qc) (scale : Qc)
    (process : S -> list (orow Ob A) -> res (S * X)) (learn : S -> X -> res S) w s h rows s1 x s2,
  process s (map (fun r => set_rew r (o_rew r + mse w r * scale)%Qc) rows) = Ok (s1, x) -> learn s1 x = Ok s2 ->
  exists h' b', icm_update mse scale process learn w s h rows = Ok (s2, x, h', b')
    /\ (forall r, r < length h -> deref h' r = deref h r)
    /\ deref h' (b_rew b') = map (fun r => (o_rew r + mse w r * scale)%Qc) rows.
Proof. exact C143_update_lemma. Qed.
Print Assumptions C143_update.

(** C143.  So the comment "restore original reward" holds exactly when no row got a bonus. *)
Theorem C143_restore_refuted : forall (Ob A W S X : Type) (mse : W -> orow Ob A -> Qc) (scale : Qc)
    (process : S -> list (orow Ob A) -> res (S * X)) (learn : S -> X -> res S) w s h rows s' x h' b',
  icm_update mse scale process learn w s h rows = Ok (s', x, h', b') ->
  (deref h' (b_rew b') = map o_rew rows <-> forall r, In r rows -> (mse w r * scale)%Qc = 0%Qc).
Proof. exact C143_restore_refuted_lemma. Qed.
Print Assumptions C143_restore_refuted.

(** C144.  Wrapped around a learner that computes its returns from the batch (PG, A2C, PPO), ICM adds
    to every return (and advantage) the discounted bonuses of the rest of its episode and changes
    nothing else; each return depends linearly on them. *)
Theorem C144_episodic : forall (Ob A Inf W : Type) (mse : W -> orow Ob A -> Qc) (scale : Qc) (bf : ibuf Ob A Inf) ix v' v gamma lam w h rows ret adv,
  compute_episodic_return bf (map (fun r => (o_rew r, o_term r, o_trunc r)) rows) ix (Some v') (Some v) gamma lam = Ok (ret, adv) ->
  exists unf bonus ret' adv' h' b', ib_unfinished bf = Ok unf /\ length bonus = length rows
    /\ icm_update mse scale (inner_episodic bf ix v' v gamma lam) (fun s _ => Ok s) w tt h rows = Ok (tt, (ret', adv'), h', b')
    /\ length ret' = length rows /\ length adv' = length rows
    /\ (forall i r j, nth_error rows i = Some r -> nth_error ix i = Some j ->
          nth i bonus 0%Qc = (mse w r * scale + if o_term r || o_trunc r || existsb (fun u => (Z.of_nat u =? j)%Z) unf then 0 else gamma * lam * nth (S i) bonus 0)%Qc)
    /\ (forall i, i < length rows -> nth i ret' 0%Qc = (nth i ret 0 + nth i bonus 0)%Qc /\ nth i adv' 0%Qc = (nth i adv 0 + nth i bonus 0)%Qc).
Proof. exact C144_episodic_lemma. Qed.
Print Assumptions C144_episodic.

(** C144.  Wrapped around an n-step learner (DQN, DDPG, TD3, SAC, ...), the intrinsic reward has no effect
    on the returns, whatever the model and the scale: these are computed from [buffer.rew]. *)
Theorem C144_nstep_refuted : forall (Ob A Inf W : Type) (mse : W -> orow Ob A -> Qc) (scale : Qc) (bf : ibuf Ob A Inf) len ix target gamma n w h rows rets,
  compute_nstep_return bf len ix target gamma n false = Ok rets ->
  exists h' b', icm_update mse scale (inner_nstep bf len ix target gamma n) (fun s _ => Ok s) w tt h rows = Ok (tt, rets, h', b').
Proof. exact C144_nstep_refuted_lemma. Qed.
Print Assumptions C144_nstep_refuted.

Theorem C145_train : forall p mode, all_training mode (set_train p mode).
Proof. exact C145_train_lemma. Qed.
Print Assumptions C145_train.

(** C145.  [set_eps] reaches the wrapped policy if that has it, and raises otherwise. *)
Theorem C145_eps : forall p e,
  (forall d w t x, innermost p = Base d w t (Some x) -> exists p', set_eps p e = Ok p' /\ innermost p' = Base d w t (Some e))
  /\ (forall d w t q f g h, p = Icm q f g h -> innermost p = Base d w t None -> set_eps p e = Err NotImplementedError).
Proof. exact C145_eps_lemma. Qed.
Print Assumptions C145_eps.

(** C145.  Within a training step a policy on its own samples its actions; a wrapped one samples them
    exactly if it has no deterministic evaluation (or was left within a training step before). *)
Theorem C145_sampling : forall p, takes_mode (within_step p true)
  = match p with Base _ _ _ _ => false | Icm _ _ _ _ => match innermost p with Base d w _ _ => d && negb w | _ => false end end.
Proof. exact C145_sampling_lemma. Qed.
Print Assumptions C145_sampling.

(** C145.  So a policy with deterministic evaluation does not explore once it is wrapped. *)
Theorem C145_wrapped_refuted : forall t e w m f, let p := Base true false t e in
  takes_mode (within_step p true) = false /\ takes_mode (within_step (Icm p w m f) true) = true.
Proof. exact C145_wrapped_refuted_lemma. Qed.
Print Assumptions C145_wrapped_refuted.

(** C146.  With [n] rows, [k = disc_update_num <= n]: the discriminator is updated [n / (n/k)] times, that is
    at least [k] and less than [2 k] times, each time with [n/k] expert rows, and sees every row once.  It is
    updated [k] times exactly when [n mod k < n / k]. *)
Theorem C146_steps : forall (Row W : Type) (opt : W -> list Row -> list Row -> W) w k perm expert (rows : list Row),
  1 <= k -> k <= length rows -> Permutation perm (seq 0 (length rows)) ->
  exists w' l, gail_disc opt w k perm expert rows = Ok (w', l)
    /\ Permutation (concat (map fst l)) rows
    /\ (forall i x, nth_error l i = Some x -> snd x = expert i (length rows / k) /\ length rows / k <= length (fst x))
    /\ k <= length l < 2 * k /\ (length l = k <-> length rows mod k < length rows / k).
Proof. exact C146_steps_lemma. Qed.
Print Assumptions C146_steps.

(** C146.  With fewer rows than updates the update fails. *)
Theorem C146_few_rows : forall (Row W : Type) (opt : W -> list Row -> list Row -> W) w k perm expert (rows : list Row),
  length rows < k -> gail_disc opt w k perm expert rows = Err AssertionError.
Proof. exact C146_few_rows_lemma. Qed.
Print Assumptions C146_few_rows.

(** C146.  The documented number of updates is not kept: 7 instead of 4. *)
Theorem C146_count_refuted : exists (rows : list nat) l, length rows = 7
  /\ gail_disc (fun w _ _ => S w) 0 4 (seq 0 7) (fun _ n => repeat 0 n) rows = Ok (7, l).
Proof. exact C146_count_refuted_lemma. Qed.
Print Assumptions C146_count_refuted.

(** C146.  The reward is positive and grows with the logit of the discriminator, if log-sigmoid is
    negative and increasing. *)
Theorem C146_reward : forall (Row W : Type) (logsig : Qc -> Qc) (disc : W -> Row -> Qc) w,
  (forall x, (logsig x < 0)%Qc) -> (forall x y, (x < y)%Qc -> (logsig x < logsig y)%Qc) ->
  (forall b, (0 < gail_rew logsig disc w b)%Qc)
  /\ forall b b', ((disc w b < disc w b')%Qc <-> (gail_rew logsig disc w b < gail_rew logsig disc w b')%Qc).
Proof. exact C146_reward_lemma. Qed.
Print Assumptions C146_reward.

(** C147.  If the learner stores its errors in [batch.weight], an update gives every sampled transition the
    priority of the error of one of its occurrences and leaves the other priorities alone. *)
Theorem C147_errors : forall pw ipw eps (Ob A Inf R : Type) (r0 : R) radd (last_frame : Ob -> Ob) o n
    (ops : list (pop Ob A Inf R)) b norm (index : list nat) td,
  (forall x, (0 < x)%Qc -> (0 < pw x)%Qc) -> (forall x, (0 < x)%Qc -> (0 < ipw x)%Qc) -> (0 < eps)%Qc -> 0 < n ->
  pops_ok pw eps r0 radd last_frame o n (ps_init n) ops ->
  p_run pw eps r0 radd last_frame o (pb_init r0 n) ops = Ok b ->
  index <> [] -> (forall i, In i index -> i < size (b_st (pb_buf b))) -> length td = length index ->
  exists p', prio_update pw ipw eps norm (pb_prio b) (map Z.of_nat index) (Some td) = Ok p'
    /\ forall i, i < n ->
       (In i index -> exists k e, nth_error index k = Some i /\ nth_error td k = Some e /\ st_getitem (p_tree p') (Z.of_nat i) = Ok (pw (qabs e + eps)%Qc))
       /\ (~ In i index -> st_getitem (p_tree p') (Z.of_nat i) = st_getitem (p_tree (pb_prio b)) (Z.of_nat i)).
Proof. exact C147_errors_lemma. Qed.
Print Assumptions C147_errors.

(** C147.  A learner that stores nothing (PG, A2C, PPO, imitation, BCQ, CQL, CRR, ...) makes the update write the
    importance weights back as priorities: of two sampled transitions the one with the higher priority
    has the lower one afterwards. *)
Theorem C147_reversed_refuted : forall pw ipw eps (Ob A Inf R : Type) (r0 : R) radd (last_frame : Ob -> Ob) o n
    (ops : list (pop Ob A Inf R)) b norm (index : list nat),
  (forall x, (0 < x)%Qc -> (0 < pw x)%Qc) -> (forall x y, (0 < x)%Qc -> (x < y)%Qc -> (pw x < pw y)%Qc) ->
  (forall x, (0 < x)%Qc -> (0 < ipw x)%Qc) -> (forall x y, (0 < x)%Qc -> (x < y)%Qc -> (ipw y < ipw x)%Qc) ->
  (0 < eps)%Qc -> 0 < n ->
  pops_ok pw eps r0 radd last_frame o n (ps_init n) ops ->
  p_run pw eps r0 radd last_frame o (pb_init r0 n) ops = Ok b ->
  index <> [] -> (forall i, In i index -> i < size (b_st (pb_buf b))) ->
  exists p', prio_update pw ipw eps norm (pb_prio b) (map Z.of_nat index) None = Ok p'
    /\ forall i j, In i index -> In j index ->
       exists wi wj wi' wj', st_getitem (p_tree (pb_prio b)) (Z.of_nat i) = Ok wi /\ st_getitem (p_tree (pb_prio b)) (Z.of_nat j) = Ok wj
         /\ st_getitem (p_tree p') (Z.of_nat i) = Ok wi' /\ st_getitem (p_tree p') (Z.of_nat j) = Ok wj'
         /\ ((wi < wj)%Qc -> (wj' < wi')%Qc).
Proof. exact C147_reversed_refuted_lemma. Qed.
Print Assumptions C147_reversed_refuted.

Definition iz (z : Z) : Qc := Q2Qc (inject_Z z).
Definition irow (i : nat) (r : Z) (term : bool) : orow nat nat := mkO i (S i) i (iz r) term false.
Definition irows := [irow 0 1 false; irow 1 2 false; irow 2 3 true; irow 3 4 false].
Definition islot (r : orow nat nat) : slot nat nat unit Qc :=
  mkSlot (o_obs r) (o_act r) (o_rew r) (o_term r) (o_trunc r) (o_term r || o_trunc r) (Some (o_next r)) tt.
Definition ibuf0 : ibuf nat nat unit := mkI (Some (map (fun r => Some (islot r)) irows)) (fun l => Ok (map (fun i => if (i =? 3)%Z || (i =? 2)%Z then i else (i + 1)%Z) l)) (Ok [3]).
Definition imse (w : Qc) (r : orow nat nat) : Qc := (w * iz (Z.of_nat (o_obs r)))%Qc.
Definition izero := map (fun _ : orow nat nat => 0%Qc) irows.
Definition irews (x : res (unit * (list Qc * list Qc) * heap * ibatch nat nat)) :=
  match x with Ok (_, (ret, _), h, b) => Some (map this ret, map (map this) h, map this (deref h (b_rew b))) | Err _ => None end.
(** Bonus 0, 10, 20, 30: the sampled rewards are left at 1, 12, 23, 34; the buffer's array [100] is not touched. *)
Example C143_ex : irews (icm_update imse (iz 5) (inner_episodic ibuf0 [0; 1; 2; 3]%Z izero izero 1 1) (fun s _ => Ok s) (iz 2) tt [[iz 100]] irows)
  = Some ([36; 35; 23; 34]%Q, [[100]; [1; 12; 23; 34]]%Q, [1; 12; 23; 34]%Q).
Proof. vm_compute. reflexivity. Qed.
Example C144_ex : match compute_episodic_return ibuf0 (map (fun r => (o_rew r, o_term r, o_trunc r)) irows) [0; 1; 2; 3]%Z (Some izero) (Some izero) 1 1 with
  Ok (ret, _) => map this ret = [6; 5; 3; 4]%Q | Err _ => False end.
Proof. vm_compute. reflexivity. Qed.
Example C144_ex_nstep : match compute_nstep_return ibuf0 4 [0; 1; 2; 3]%Z (map (fun _ => [iz 10])) 1 2 false with
  Ok l => map (map this) l = [[13]; [5]; [3]; [14]]%Q | Err _ => False end.
Proof. vm_compute. reflexivity. Qed.
Example C145_ex : let p := Icm (Icm (Base true false false (Some 0%Qc)) false false false) false false false in
  takes_mode (within_step p true) = true /\ takes_mode (within_step (Base true false false None) true) = false
  /\ exists p', set_eps p 1%Qc = Ok p' /\ innermost p' = Base true false false (Some 1%Qc).
Proof. cbv zeta. split; [reflexivity|]. split; [reflexivity|]. eexists. split; reflexivity. Qed.
Example C146_ex : exists l, gail_disc (fun w _ _ => S w) 0 2 [4; 2; 0; 1; 3] (fun k n => repeat (10 * k) n) [0; 1; 2; 3; 4] = Ok (2, l)
  /\ l = [([4; 2], [0; 0]); ([0; 1; 3], [10; 10])].
Proof. eexists. split; vm_compute; reflexivity. Qed.
Example C146_ex_hyp : Permutation [4; 2; 0; 1; 3] (seq 0 5).
Proof. apply Permutation_sym, NoDup_Permutation_bis; [apply seq_NoDup | cbn; lia |]. intros x Hx. cbn in Hx |- *. intuition. Qed.
(** A negative, increasing function. *)
Definition lsig (x : Qc) : Qc := if Qcltb x 0 then (x - 1)%Qc else (- / (x + 1))%Qc.
Example C146_ex_logsig : map (fun z => this (gail_rew lsig (fun _ b => iz b) tt z)) [-3; -1; 0; 2]%Z = [1#4; 1#2; 1; 3]%Q.
Proof. vm_compute. reflexivity. Qed.
Definition iops : list (pop nat nat unit Z) := [PAdd (zt 1 false); PAdd (zt 2 true); PWeights [1; 0]%Z [qq (-15) 8; qq 3 8]].
Definition isq (x : Qc) := (x * x)%Qc.
Example C147_ex_ok : pops_ok isq (qq 1 8) 0%Z Z.add (fun x : nat => x) plain 3 (ps_init 3) iops.
Proof.
  cbn [pops_ok iops pop_ok]. split; [exact Logic.I|]. split; [exact Logic.I|]. split; [|exact Logic.I].
  split; [discriminate|]. split; [reflexivity|]. intros i [<-|[<-|[]]]; vm_compute; split; (discriminate || reflexivity).
Qed.
Example C147_ex_hyp : (forall x, 0 < x -> 0 < isq x)%Qc /\ (forall x y, 0 < x -> x < y -> isq x < isq y)%Qc
  /\ (forall x, 0 < x -> 0 < / x)%Qc /\ (forall x y, 0 < x -> x < y -> / y < / x)%Qc.
Proof.
  assert (I : forall x, (0 < x)%Qc -> (0 < / x)%Qc).
  { intros x Hx. assert (E : (1 / x = / x)%Qc) by (unfold Qcdiv; ring). rewrite <- E. apply qdiv_pos; [exact Hx|]. qclra. }
  split; [unfold isq; intros; qcnra|]. split; [unfold isq; intros; qcnra|]. split; [exact I|].
  intros x y Hx Hy. assert (Hy' : (0 < y)%Qc) by qclra. pose proof (I x Hx) as Ix. pose proof (I y Hy') as Iy.
  assert (E : (/ x - / y = (y - x) * (/ x * / y))%Qc).
  { field. split; intros F; rewrite F in *; qclra. }
  assert (0 < / x * / y)%Qc by (clear - Ix Iy; qcnra). assert (0 < y - x)%Qc by qclra.
  assert (0 < (y - x) * (/ x * / y))%Qc by (clear - H H0; qcnra). rewrite <- E in H1. qclra.
Qed.
(** Priorities 1/4 and 4: after an update without errors 4 and 1/4 are in opposite order. *)
Example C147_ex : match p_run isq (qq 1 8) 0%Z Z.add (fun x : nat => x) plain (pb_init 0%Z 3) iops with
  | Err _ => False
  | Ok b => match prio_update isq (fun x => (/ x)%Qc) (qq 1 8) true (pb_prio b) [0; 1]%Z None with
            | Ok p => match mapM (st_getitem (p_tree (pb_prio b))) [0; 1]%Z, mapM (st_getitem (p_tree p)) [0; 1]%Z with
                      | Ok l, Ok l' => map this l = [1#4; 4]%Q /\ map this l' = [81#64; 9#256]%Q | _, _ => False end
            | Err _ => False end
  end.
Proof. vm_compute. auto. Qed.
