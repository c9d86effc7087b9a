(** * Properties C166-C175: off-policy actor-critic learners *)
From Verif Require Import Py PyLemmas Num PolicyModel PolicyProofs DqnModel DqnProofs StatModel StatProofs ReturnsSpec ReturnsProofs OnpolProofs ActorModel ActorProofs.
Open Scope nat_scope.

(** C166.  DDPG: no call raises, and after [n] calls the target networks are the exponential moving averages of
    the actors and critics after each call. *)
Theorem C166_ddpg : forall (Cfg OS Ob Rnd : Type) (W : @world Cfg OS Ob Rnd) tau cs s, keeps_shape W -> well_shaped s ->
  exists l, trace (ddpg_learn W tau) cs s = Ok l /\ length l = length cs
    /\ forall n, n <= length cs ->
         ema tau (s_aold s) (fun k => n_par (s_a (at_call s l (S k)))) n (s_aold (at_call s l n))
         /\ ema tau (s_c1old s) (fun k => n_par (s_c1 (at_call s l (S k)))) n (s_c1old (at_call s l n)).
Proof. exact C166_ddpg_lemma. Qed.
Print Assumptions C166_ddpg.

(** C166.  SAC and discrete SAC: the same for the targets of both critics; the copy of the actor made by the
    constructor of DDPG never changes. *)
Theorem C166_sac : forall (Cfg OS Ob Rnd : Type) (W : @world Cfg OS Ob Rnd) joint tau alpha cs s, keeps_shape W -> well_shaped s ->
  exists l, trace (sac_learn W joint tau alpha) cs s = Ok l /\ length l = length cs
    /\ forall n, n <= length cs ->
         ema tau (s_c1old s) (fun k => n_par (s_c1 (at_call s l (S k)))) n (s_c1old (at_call s l n))
         /\ ema tau (s_c2old s) (fun k => n_par (s_c2 (at_call s l (S k)))) n (s_c2old (at_call s l n))
         /\ s_aold (at_call s l n) = s_aold s.
Proof. exact C166_sac_lemma. Qed.
Print Assumptions C166_sac.

(** C166.  REDQ: the target of the ensemble, also between the updates of the actor. *)
Theorem C166_redq : forall (Cfg OS Ob Rnd : Type) (W : @world Cfg OS Ob Rnd) tau alpha delay cs s, delay <> 0 -> keeps_shape W -> well_shaped s ->
  exists l, trace (redq_learn W tau alpha delay) cs s = Ok l /\ length l = length cs
    /\ forall n, n <= length cs -> ema tau (s_c1old s) (fun k => n_par (s_c1 (at_call s l (S k)))) n (s_c1old (at_call s l n)).
Proof. exact C166_redq_lemma. Qed.
Print Assumptions C166_redq.

(** C166.  TD3 (a new policy): the targets of actor and critics are the moving averages over the calls 0, f, 2 f, ...,
    with [f] the update_actor_freq. *)
Theorem C166_td3 : forall (Cfg OS Ob Rnd : Type) (W : @world Cfg OS Ob Rnd) tau f cs s, f <> 0 -> s_cnt s = 0 -> keeps_shape W -> well_shaped s ->
  exists l, trace (td3_learn W tau f) cs s = Ok l /\ length l = length cs
    /\ forall n, n <= length cs ->
         ema tau (s_aold s) (fun k => n_par (s_a (at_call s l (S (k * f))))) ((n + f - 1) / f) (s_aold (at_call s l n))
         /\ ema tau (s_c1old s) (fun k => n_par (s_c1 (at_call s l (S (k * f))))) ((n + f - 1) / f) (s_c1old (at_call s l n))
         /\ ema tau (s_c2old s) (fun k => n_par (s_c2 (at_call s l (S (k * f))))) ((n + f - 1) / f) (s_c2old (at_call s l n)).
Proof. exact C166_td3_lemma. Qed.
Print Assumptions C166_td3.

(** C167.  TD3: call [k] updates both critics; it updates the actor and the targets if [k] is a multiple of the
    update_actor_freq and leaves them alone otherwise; the reported actor loss is that of the last such call. *)
Theorem C167_td3 : forall (Cfg OS Ob Rnd : Type) (W : @world Cfg OS Ob Rnd) tau f cs s l, s_cnt s = 0 -> trace (td3_learn W tau f) cs s = Ok l ->
  forall k x b r, nth_error cs k = Some (x, b) -> nth_error l k = Some r ->
    let before := at_call s l k in let after := fst (fst r) in
    view (s_c1 after) = descend W (s_c1 before) (w_dcritic W (n_par (s_c1 before)) b)
    /\ view (s_c2 after) = descend W (s_c2 before) (w_dcritic W (n_par (s_c2 before)) b)
    /\ (k mod f = 0 -> view (s_a after) = descend W (s_a before) (w_dactor W (n_par (s_a before)) [n_par (s_c1 after)] 0%Qc x (mb_rows b)))
    /\ (k mod f <> 0 -> s_a after = s_a before /\ s_aold after = s_aold before /\ s_c1old after = s_c1old before /\ s_c2old after = s_c2old before)
    /\ exists x' b', nth_error cs (k / f * f) = Some (x', b') /\
         t_actor (snd r) = w_aloss W (n_par (s_a (at_call s l (k / f * f)))) [n_par (s_c1 (at_call s l (S (k / f * f))))] 0%Qc x' (mb_rows b').
Proof. exact C167_td3_lemma. Qed.
Print Assumptions C167_td3.

(** C167.  REDQ (a new policy): call [k] updates the ensemble and its target; it updates the actor if [k + 1] is a
    multiple of actor_delay; the reported actor loss is that of the last such call, the initial 0.0 before the first. *)
Theorem C167_redq : forall (Cfg OS Ob Rnd : Type) (W : @world Cfg OS Ob Rnd) tau alpha d cs s l, s_cnt s = 0 ->
  trace (redq_learn W tau alpha d) cs s = Ok l ->
  forall k x b r, nth_error cs k = Some (x, b) -> nth_error l k = Some r ->
    let before := at_call s l k in let after := fst (fst r) in
    view (s_c1 after) = descend W (s_c1 before) (w_dcritic W (n_par (s_c1 before)) b)
    /\ (S k mod d = 0 -> view (s_a after) = descend W (s_a before) (w_dactor W (n_par (s_a before)) [n_par (s_c1 after)] alpha x (mb_rows b))
                         /\ t_actor (snd r) = w_aloss W (n_par (s_a before)) [n_par (s_c1 after)] alpha x (mb_rows b))
    /\ (S k mod d <> 0 -> s_a after = s_a before /\ t_actor (snd r) = s_last before)
    /\ (S k < d -> t_actor (snd r) = s_last s /\ s_a after = s_a s).
Proof. exact C167_redq_lemma. Qed.
Print Assumptions C167_redq.

(** C167.  A frequency of zero raises in the first call. *)
Theorem C167_zero : forall (Cfg OS Ob Rnd : Type) (W : @world Cfg OS Ob Rnd) tau alpha x b s,
  td3_learn W tau 0 x b s = Err ZeroDivisionError /\ redq_learn W tau alpha 0 x b s = Err ZeroDivisionError.
Proof. exact C167_zero_lemma. Qed.
Print Assumptions C167_zero.

(** C168.  Whatever is left in the [.grad] fields, every optimizer step of a [learn] call uses the gradient of its own
    loss only (the actor's loss also sends gradients into the critics): critics by their loss at the old parameters,
    the actor by its loss at the new critics.  Options of the optimizers are kept. *)
Theorem C168_gradients : forall (Cfg OS Ob Rnd : Type) (W : @world Cfg OS Ob Rnd) tau f joint alpha x b s s' w t,
  (ddpg_learn W tau x b s = Ok (s', w, t) ->
     view (s_c1 s') = descend W (s_c1 s) (w_dcritic W (n_par (s_c1 s)) b)
     /\ view (s_a s') = descend W (s_a s) (w_dactor W (n_par (s_a s)) [n_par (s_c1 s')] 0%Qc x (mb_rows b))
     /\ options (s_c1 s') = options (s_c1 s) /\ options (s_a s') = options (s_a s))
  /\ (td3_learn W tau f x b s = Ok (s', w, t) ->
     view (s_c1 s') = descend W (s_c1 s) (w_dcritic W (n_par (s_c1 s)) b)
     /\ view (s_c2 s') = descend W (s_c2 s) (w_dcritic W (n_par (s_c2 s)) b)
     /\ view (s_a s') = (if s_cnt s mod f =? 0 then descend W (s_a s) (w_dactor W (n_par (s_a s)) [n_par (s_c1 s')] 0%Qc x (mb_rows b)) else view (s_a s))
     /\ options (s_c1 s') = options (s_c1 s) /\ options (s_c2 s') = options (s_c2 s) /\ options (s_a s') = options (s_a s))
  /\ (sac_learn W joint tau alpha x b s = Ok (s', w, t) ->
     view (s_c1 s') = descend W (s_c1 s) (w_dcritic W (n_par (s_c1 s)) b)
     /\ view (s_c2 s') = descend W (s_c2 s) (w_dcritic W (n_par (s_c2 s)) b)
     /\ view (s_a s') = descend W (s_a s) (w_dactor W (n_par (s_a s)) [n_par (s_c1 s'); n_par (s_c2 s')] alpha x (mb_rows b))
     /\ options (s_c1 s') = options (s_c1 s) /\ options (s_c2 s') = options (s_c2 s) /\ options (s_a s') = options (s_a s))
  /\ (redq_learn W tau alpha f x b s = Ok (s', w, t) ->
     view (s_c1 s') = descend W (s_c1 s) (w_dcritic W (n_par (s_c1 s)) b)
     /\ view (s_a s') = (if S (s_cnt s) mod f =? 0 then descend W (s_a s) (w_dactor W (n_par (s_a s)) [n_par (s_c1 s')] alpha x (mb_rows b)) else view (s_a s))
     /\ options (s_c1 s') = options (s_c1 s) /\ options (s_a s') = options (s_a s)).
Proof. exact C168_gradients_lemma. Qed.
Print Assumptions C168_gradients.

(** C169.  REFUTED: without critic2 the second critic of TD3 and SAC is a copy with an optimizer of the same options;
    both then see the same batches, targets and weights, so they stay equal after every sequence of [learn] calls: the
    minimum of the two is the first, and the new weight is the error of the first. *)
Theorem C169_same_refuted : forall (Cfg OS Ob Rnd : Type) (W : @world Cfg OS Ob Rnd) check a c1 s, is_standard (o_cls (n_opt c1)) = true ->
  o_groups (n_opt c1) = o_defaults (n_opt c1) -> o_st (n_opt c1) = w_os0 W -> init W check a c1 None None = Ok s ->
  forall tau f joint alpha cs l, trace (td3_learn W tau f) cs s = Ok l \/ trace (sac_learn W joint tau alpha) cs s = Ok l ->
  forall k, k <= length cs ->
    let s' := at_call s l k in
    n_par (s_c1 s') = n_par (s_c2 s') /\ s_c1old s' = s_c2old s'
    /\ (forall pn nc z o, let act := smoothed_action pn nc z (w_actor W (s_aold s') o) in td3_target W pn nc z s' o = w_critic W (s_c1old s') o act)
    /\ (forall o act lp, sac_target W alpha s' o act lp = (w_critic W (s_c1old s') o act - alpha * lp)%Qc)
    /\ (forall b, halves (td W (n_par (s_c1 s')) b) (td W (n_par (s_c2 s')) b) = td W (n_par (s_c1 s')) b).
Proof. exact C169_same_refuted_lemma. Qed.
Print Assumptions C169_same_refuted.

(** C169.  Always: TD3 refuses a second critic without optimizer, SAC takes a copy of the first critic's options for it;
    a second critic that is passed is used as it is, its target is a copy, and it is trained by its own optimizer on its own loss. *)
Theorem C169_given : forall (Cfg OS Ob Rnd : Type) (W : @world Cfg OS Ob Rnd) check a c1 p2 o2,
  init W true a c1 (Some p2) None = Err ValueError
  /\ (exists s, init W check a c1 (Some p2) (Some o2) = Ok s /\ n_par (s_c2 s) = p2 /\ s_c2old s = p2 /\ n_opt (s_c2 s) = o2
        /\ s_c1 s = c1 /\ s_c1old s = n_par c1 /\ s_aold s = n_par a
        /\ forall tau f x b s' w t, td3_learn W tau f x b s = Ok (s', w, t) -> view (s_c2 s') = w_ostep W (o_cls o2) (o_groups o2) (o_st o2) p2 (w_dcritic W p2 b)).
Proof. exact C169_given_lemma. Qed.
Print Assumptions C169_given.

(** C170.  With a positive noise_clip every component of the smoothed action is within noise_clip of the target actor's
    action; the target value is at most the value of either target critic, and one of them. *)
Theorem C170_noise_partial : forall (Cfg OS Ob Rnd : Type) (W : @world Cfg OS Ob Rnd) pn nc z s o, (0 < nc)%Qc ->
  let a := w_actor W (s_aold s) o in let act := smoothed_action pn nc z a in length z = length a ->
  length act = length a
  /\ (forall j, j < length a -> (nth j a 0 - nc <= nth j act 0)%Qc /\ (nth j act 0 <= nth j a 0 + nc)%Qc)
  /\ (td3_target W pn nc z s o <= w_critic W (s_c1old s) o act)%Qc /\ (td3_target W pn nc z s o <= w_critic W (s_c2old s) o act)%Qc
  /\ (td3_target W pn nc z s o = w_critic W (s_c1old s) o act \/ td3_target W pn nc z s o = w_critic W (s_c2old s) o act).
Proof. exact C170_noise_partial_lemma. Qed.
Print Assumptions C170_noise_partial.

(** C170.  REFUTED: the smoothed action stays in the action range.  Wherever the target actor's action is at the upper
    bound and the draw positive, the critics are evaluated outside the range. *)
Theorem C170_range_refuted : forall pn nc (hi : Qc) z a j, (0 < pn)%Qc -> length z = length a -> j < length a ->
  nth j a 0%Qc = hi -> (0 < nth j z 0)%Qc -> (hi < nth j (smoothed_action pn nc z a) 0)%Qc.
Proof. exact C170_range_refuted_lemma. Qed.
Print Assumptions C170_range_refuted.

(** C171.  REDQ: for every non-empty subset of the ensemble both modes give a target; it lies between the smallest and the
    largest value of the whole ensemble minus the entropy term, the minimum is at most the mean and equals one of the
    chosen values; the whole ensemble as subset gives the same target in every order. *)
Theorem C171_redq : forall alpha lp qs idx, idx <> [] -> Forall (fun i => i < length qs) idx ->
  exists tmin tmean, redq_target TMin alpha lp qs idx = Ok tmin /\ redq_target TMean alpha lp qs idx = Ok tmean
    /\ (tmin <= tmean)%Qc
    /\ (exists i, In i idx /\ tmin = (nth i qs 0 - alpha * lp)%Qc) /\ (forall i, In i idx -> (tmin <= nth i qs 0 - alpha * lp)%Qc)
    /\ (forall lo hi, (forall q, In q qs -> (lo <= q)%Qc /\ (q <= hi)%Qc) -> (lo - alpha * lp <= tmin)%Qc /\ (tmean <= hi - alpha * lp)%Qc)
    /\ (NoDup idx -> length idx = length qs ->
         redq_target TMin alpha lp qs (seq 0 (length qs)) = Ok tmin /\ redq_target TMean alpha lp qs (seq 0 (length qs)) = Ok tmean
         /\ tmean = (np_mean qs - alpha * lp)%Qc).
Proof. exact C171_redq_lemma. Qed.
Print Assumptions C171_redq.

(** C171.  Discrete SAC: the target is the mean, under the policy, of SAC's target of each action; it is at most the value
    computed with either critic alone. *)
Theorem C171_dsac : forall alpha p logp q1 q2, length logp = length p -> length q1 = length p -> length q2 = length p ->
  (forall i, (0 <= nth i p 0)%Qc) ->
  dsac_target alpha p logp q1 q2 = sum_n (length p) (fun i => nth i p 0 * (Qcminb (nth i q1 0) (nth i q2 0) - alpha * nth i logp 0))%Qc
  /\ (dsac_target alpha p logp q1 q2 <= dot p q1 + alpha * entropy p logp)%Qc
  /\ (dsac_target alpha p logp q1 q2 <= dot p q2 + alpha * entropy p logp)%Qc.
Proof. exact C171_dsac_lemma. Qed.
Print Assumptions C171_dsac.

(** C171.  Bounds of the discrete target: with non-positive log probabilities and a non-negative coefficient it is at
    least the smallest of all values of both critics. *)
Theorem C171_lower : forall alpha p logp q1 q2 lo, length logp = length p -> length q1 = length p -> length q2 = length p ->
  (forall i, (0 <= nth i p 0)%Qc) -> qsum p = 1%Qc -> (0 <= alpha)%Qc -> (forall i, (nth i logp 0 <= 0)%Qc) ->
  (forall x, In x q1 \/ In x q2 -> (lo <= x)%Qc) -> (lo <= dsac_target alpha p logp q1 q2)%Qc.
Proof. exact C171_lower_lemma. Qed.
Print Assumptions C171_lower.

(** C172.  After construction or [reset()], calls with one shape give the Ornstein-Uhlenbeck process: value [k] of
    component [j] is mu + (1 - alpha)^(k+1) (x0_j - mu) + beta sum_i (1 - alpha)^(k-i) z_ij, started at x0 (0 if None). *)
Theorem C172_process_partial : forall mu alpha beta n zs x0, match x0 with OUArr l => length l = n | _ => True end ->
  length (ou_run mu alpha beta (map (pair (SizeTuple n)) zs) x0) = length zs
  /\ forall k r, nth_error (ou_run mu alpha beta (map (pair (SizeTuple n)) zs) x0) k = Some r ->
    length r = n /\ forall j, j < n ->
      nth j r 0%Qc = (mu + Qcpower (1 - alpha) (S k) * (ou_get x0 j - mu) + beta * sum_n (S k) (fun i => Qcpower (1 - alpha) (k - i) * nth j (nth i zs []) 0))%Qc.
Proof. exact C172_process_partial_lemma. Qed.
Print Assumptions C172_process_partial.

(** C172.  REFUTED: with a size that is a list (annotated as Sequence), or one that differs from the previous shape,
    the process starts again at 0 (not at x0) in every call: values are independent of all earlier ones. *)
Theorem C172_restart_refuted : forall mu alpha beta sz z l j, j < size_len sz -> sz <> SizeTuple (length l) ->
  nth j (fst (ou_call mu alpha beta sz z (OUArr l))) 0%Qc = (alpha * mu + beta * nth j z 0)%Qc.
Proof. exact C172_restart_refuted_lemma. Qed.
Print Assumptions C172_restart_refuted.

(** C173.  A clone exists exactly for the listed classes; it is new and has the class and the constructor's options. *)
Theorem C173_clone_partial : forall (Cfg OS Ob Rnd : Type) (W : @world Cfg OS Ob Rnd) (o : @optim Cfg OS),
  match clone_optimizer W o with
  | Ok o' => is_standard (o_cls o) = true /\ o_cls o' = o_cls o /\ o_st o' = w_os0 W /\ o_defaults o' = o_defaults o /\ o_groups o' = o_defaults o
             /\ (o_groups o = o_defaults o -> o_groups o' = o_groups o)
  | Err e => e = ValueError /\ is_standard (o_cls o) = false
  end.
Proof. exact C173_clone_partial_lemma. Qed.
Print Assumptions C173_clone_partial.

(** C173.  REFUTED: "a new optimizer with the same configuration as the old one": options set after construction (by a
    learning rate scheduler or in a parameter group) are not those of the clone. *)
Theorem C173_options_refuted : forall (Cfg OS Ob Rnd : Type) (W : @world Cfg OS Ob Rnd) (o o' : @optim Cfg OS),
  o_groups o <> o_defaults o -> clone_optimizer W o = Ok o' -> o_groups o' <> o_groups o.
Proof. exact C173_options_refuted_lemma. Qed.
Print Assumptions C173_options_refuted.

(** C174.  The new weight of a transition lies between the errors of the critics, so its priority (the absolute value) is
    at most the largest absolute error; it is the common error if they agree. *)
Theorem C174_between_partial : forall e1 e2 i, length e1 = length e2 -> i < length e1 ->
  let w := nth i (halves e1 e2) 0%Qc in let a := nth i e1 0%Qc in let b := nth i e2 0%Qc in
  (Qcminb a b <= w)%Qc /\ (w <= Qcmaxb a b)%Qc /\ (qabs w <= Qcmaxb (qabs a) (qabs b))%Qc /\ (a = b -> w = a).
Proof. exact C174_between_partial_lemma. Qed.
Print Assumptions C174_between_partial.

(** C174.  REFUTED: a transition on which both critics err gets a positive weight: opposite errors cancel. *)
Theorem C174_cancel_refuted : forall e, (e <> 0)%Qc -> halves [e] [(- e)%Qc] = [0%Qc] /\ np_mean [e; (- e)%Qc] = 0%Qc.
Proof. exact C174_cancel_refuted_lemma. Qed.
Print Assumptions C174_cancel_refuted.

(** C175.  Gradients of earlier losses play no role; without max_grad_norm the step uses the gradient of the loss; with a
    positive one it uses a positive multiple of it, at most as long, whose norm is below the maximum, and the gradient
    itself if that is short enough. *)
Theorem C175_clip_partial : forall (Cfg OS Ob Rnd : Type) (W : @world Cfg OS Ob Rnd) d n m,
  (forall g, (0 <= w_norm W g)%Qc) -> (forall c g, (0 <= c)%Qc -> w_norm W (pscale c g) = (c * w_norm W g)%Qc) -> (0 < m)%Qc ->
  (exists n', optim_step W d true None n = (n', None) /\ view n' = descend W n d /\ options n' = options n)
  /\ exists n' c, optim_step W d true (Some m) n = (n', None) /\ (0 < c)%Qc /\ (c <= 1)%Qc
       /\ view n' = descend W n (pscale c d) /\ options n' = options n /\ (w_norm W (pscale c d) <= m)%Qc
       /\ ((w_norm W d + Q2Qc (1 # 1000000) <= m)%Qc -> c = 1%Qc).
Proof. exact C175_clip_partial_lemma. Qed.
Print Assumptions C175_clip_partial.

(** C175.  REFUTED: a maximum norm of 0.0 does not clip at all; and a maximum norm without module raises only after the gradients
    were replaced, without a step. *)
Theorem C175_zero_refuted : forall (Cfg OS Ob Rnd : Type) (W : @world Cfg OS Ob Rnd) d n has,
  (exists n', optim_step W d has (Some 0%Qc) n = (n', None) /\ view n' = descend W n d)
  /\ forall m, m <> 0%Qc -> exists n', optim_step W d false (Some m) n = (n', Some ValueError) /\ view n' = view n /\ n_grad n' = Some d.
Proof. exact C175_zero_refuted_lemma. Qed.
Print Assumptions C175_zero_refuted.

(** C168.  Two backward passes without [zero_grad] in between leave the sum of both gradients, entry by entry; after [zero_grad] only
    the new one is left. *)
Theorem C168_accumulation : forall (Cfg OS : Type) (n : @net Cfg OS) (g d : prm) (i j : nat) (x y : Qc) (r s : list Qc),
  nth_error g i = Some r -> nth_error d i = Some s -> nth_error r j = Some x -> nth_error s j = Some y ->
  (exists h t, n_grad (backward d (backward g (zero_grad n))) = Some h /\ nth_error h i = Some t /\ nth_error t j = Some (x + y)%Qc)
  /\ n_grad (backward d (zero_grad (backward g n))) = Some d.
Proof. exact C168_accumulation_lemma. Qed.
Print Assumptions C168_accumulation.

Definition az (z : Z) : Qc := Q2Qc (inject_Z z).
Definition half : Qc := Q2Qc (1 # 2).
(** Gradient descent with learning rate as option and the number of steps as state; linear networks. *)
Definition g0 (g : prm) : Qc := match g with (x :: _) :: _ => x | _ => 0%Qc end.
Definition aW : @world Qc nat Qc unit :=
  mkW 0 (fun _ lr n p g => (S n, map (map (fun x => x - lr * g0 g)%Qc) p)) (fun g => qsum (map (fun r => qsum (map qabs r)) g))
    (fun p o => [(g0 p * o)%Qc]) (fun p o a => (g0 p * o + qsum a)%Qc) (fun p o a => [(g0 p * o)%Qc; qsum a])
    (fun p b => [[(g0 p + az 1)%Qc]]) (fun pa pc al _ r => (- g0 pa)%Qc) (fun pa pc _ _ r => [[(- fold_right Qcplus 0%Qc (map g0 pc))%Qc]])
    (fun i pa pc _ _ r => [[az 100]]).
Definition an (x : Z) : @net Qc nat := mkN [[az x]] None (mkO SGD (az 1) (az 1) 0).
Definition asT : @st Qc nat := mkS (an 4) [[az 4]] (an 8) [[az 8]] (an 2) [[az 2]] 0 0%Qc.
Definition ab : @mb Qc := mkMB [mkR (az 1) [az 2] (az 3); mkR (az 2) [az 0] (az 1)] None.
Lemma aW_shape : keeps_shape aW.
Proof. intros c g o p d. unfold shape. cbn. rewrite map_map. apply map_ext. intros r. apply map_length. Qed.
Example C166_ex : keeps_shape aW /\ well_shaped asT /\ s_cnt asT = 0
  /\ match trace (ddpg_learn aW half) [(tt, ab); (tt, ab)] asT with
     | Ok l => map (fun r => (map (map this) (n_par (s_c1 (fst (fst r)))), map (map this) (s_c1old (fst (fst r))))) l
               = [([[-1]], [[7 # 2]]); ([[-1]], [[5 # 4]])]%Q
               /\ map (fun r => (map (map this) (n_par (s_a (fst (fst r)))), map (map this) (s_aold (fst (fst r))))) l
               = [([[3]], [[7 # 2]]); ([[2]], [[11 # 4]])]%Q
     | Err _ => False end.
Proof. split; [apply aW_shape|]. split; [repeat split|]. split; [reflexivity|]. vm_compute. split; reflexivity. Qed.
Example C167_ex : match trace (td3_learn aW half 2) [(tt, ab); (tt, ab); (tt, ab)] asT with
     | Ok l => map (fun r => (map (map this) (n_par (s_a (fst (fst r)))), map (map this) (s_c1old (fst (fst r))), this (t_actor (snd r)))) l
               = [([[3]], [[7 # 2]], -4); ([[3]], [[7 # 2]], -4); ([[2]], [[5 # 4]], -3)]%Q
     | Err _ => False end
  /\ match trace (redq_learn aW half 0%Qc 2) [(tt, ab); (tt, ab)] asT with
     | Ok l => map (fun r => (map (map this) (n_par (s_a (fst (fst r)))), map (map this) (s_c1old (fst (fst r))), this (t_actor (snd r)))) l
               = [([[4]], [[7 # 2]], 0); ([[3]], [[5 # 4]], -4)]%Q
     | Err _ => False end.
Proof. split; vm_compute; reflexivity. Qed.
(** The second call finds the 100 of the actor's loss in the critic's gradient and does not use it. *)
Example C168_ex : match ddpg_learn aW half tt ab asT with
  | Ok (s', _, _) => match n_grad (s_c1 s') with Some g => map (map this) g = [[109%Q]] | None => False end
       /\ view (s_c1 s') = descend aW (s_c1 asT) (w_dcritic aW (n_par (s_c1 asT)) ab) /\ o_st (n_opt (s_c1 s')) = 1
       /\ match ddpg_learn aW half tt ab s' with Ok (s'', _, _) => map (map this) (n_par (s_c1 s'')) = [[(-1)%Q]] | Err _ => False end
  | Err _ => False end.
Proof. vm_compute. repeat split. Qed.
Example C169_ex : match init aW true (an 4) (an 8) None None with
  | Ok s => match trace (td3_learn aW half 2) [(tt, ab); (tt, mkMB (mb_rows ab) (Some [az 1; az 5]))] s with
            | Ok l => map (map this) (n_par (s_c1 (at_call s l 2))) = [[(-1)%Q]] /\ n_par (s_c1 (at_call s l 2)) = n_par (s_c2 (at_call s l 2))
                      /\ n_grad (s_c1 (at_call s l 1)) <> n_grad (s_c2 (at_call s l 1))
            | Err _ => False end
  | Err _ => False end
  /\ match init aW false (an 4) (an 8) (Some [[az 2]]) None with Ok s => n_par (s_c2 s) <> n_par (s_c1 s) | Err _ => False end.
Proof.
  split; [vm_compute; repeat split; discriminate|]. cbn. intros H. apply (f_equal g0) in H. apply (f_equal this) in H. vm_compute in H. discriminate H.
Qed.
(** Target actor at the bound 1, clip 1/2: the action 3/2. *)
Example C170_ex : map this (smoothed_action half half [az 3; az (- 1)] [az 1; az 0]) = [3 # 2; - 1 # 2]%Q
  /\ map this (smoothed_action half 0 [az 3; az (- 1)] [az 1; az 0]) = [5 # 2; - 1 # 2]%Q.
Proof. split; vm_compute; reflexivity. Qed.
Example C171_ex : match redq_target TMin half (az 2) [az 5; az 3; az 7] [2; 0], redq_target TMean half (az 2) [az 5; az 3; az 7] [2; 0] with
    Ok a, Ok b => this a = 4%Q /\ this b = 5%Q | _, _ => False end
  /\ this (dsac_target half [half; half] [az (- 1); az (- 1)] [az 1; az 4] [az 2; az 3]) = (5 # 2)%Q
  /\ qsum [half; half] = 1%Qc.
Proof. split; [vm_compute; split; reflexivity|]. split; [vm_compute; reflexivity|]. apply Qc_is_canon. reflexivity. Qed.
Example C172_ex : map (map this) (ou_run (az 1) half (az 2) (map (pair (SizeTuple 1)) [[az 0]; [az 1]; [az 0]]) (OUScal (az 3))) = [[2]; [7 # 2]; [9 # 4]]%Q
  /\ map (map this) (ou_run (az 1) half (az 2) (map (pair (SizeList 1)) [[az 0]; [az 1]; [az 0]]) (OUScal (az 3))) = [[2]; [5 # 2]; [1 # 2]]%Q.
Proof. split; vm_compute; reflexivity. Qed.
Example C173_ex : clone_optimizer aW (mkO Adam (az 1) (az 2) 7) = Ok (mkO Adam (az 2) (az 2) 0) /\ az 1 <> az 2
  /\ clone_optimizer aW (mkO (OtherClass 0) (az 1) (az 2) 7) = Err ValueError.
Proof. split; [reflexivity|]. split; [|reflexivity]. intro H. apply (f_equal this) in H. vm_compute in H. discriminate H. Qed.
Example C174_ex : map this (halves [az 3; az 2] [az 1; az (- 2)]) = [2; 0]%Q /\ az 2 <> 0%Qc.
Proof. split; [vm_compute; reflexivity|]. intro H. apply (f_equal this) in H. vm_compute in H. discriminate H. Qed.
(** The norm of the example's world (sum of absolute values) meets the hypotheses of C175. *)
Example C175_ex : (forall g, (0 <= w_norm aW g)%Qc) /\ (forall c g, (0 <= c)%Qc -> w_norm aW (pscale c g) = (c * w_norm aW g)%Qc)
  /\ match optim_step aW [[az 8]] true (Some (az 2)) (an 5) with (n, None) => match n_par n with [[x]] => (az 3 < x)%Qc /\ (x < az 4)%Qc | _ => False end | _ => False end
  /\ map (map this) (n_par (fst (optim_step aW [[az 8]] true (Some 0%Qc) (an 5)))) = [[(- 3)%Q]].
Proof.
  assert (A : forall x, (0 <= qabs x)%Qc) by (intros x; unfold qabs; destruct (Qcleb_spec 0 x); qclra).
  assert (M : forall c x, (0 <= c)%Qc -> qabs (c * x) = (c * qabs x)%Qc).
  { intros c x Hc. unfold qabs. destruct (Qcleb_spec 0 x) as [Hx|Hx], (Qcleb_spec 0 (c * x)) as [Hy|Hy]; try ring.
    - exfalso. assert (Z : (0 * x <= c * x)%Qc) by (apply Qcmult_le_compat_r; assumption). replace (0 * x)%Qc with 0%Qc in Z by ring. apply (Qcle_not_lt _ _ Z Hy).
    - assert (Z : (0 * - x <= c * - x)%Qc) by (apply Qcmult_le_compat_r; [assumption|qclra]).
      replace (0 * - x)%Qc with 0%Qc in Z by ring. replace (c * - x)%Qc with (- (c * x))%Qc in * by ring. set (y := (c * x)%Qc) in *. clearbody y. qclra. }
  assert (S1 : forall r, (0 <= qsum (map qabs r))%Qc).
  { induction r as [|x r IH]; cbn [map qsum]; [qclra|]. specialize (A x). set (u := qabs x) in *. clearbody u. set (v := qsum _) in *. clearbody v. qclra. }
  assert (S2 : forall c r, (0 <= c)%Qc -> qsum (map qabs (map (Qcmult c) r)) = (c * qsum (map qabs r))%Qc).
  { intros c r Hc. induction r as [|x r IH]; cbn [map qsum]; [ring|]. rewrite IH, M by exact Hc. ring. }
  split; [|split].
  - intros g. cbn [w_norm aW]. induction g as [|r g IH]; cbn [map qsum]; [qclra|]. specialize (S1 r). set (u := qsum (map qabs r)) in *. clearbody u. set (v := qsum _) in *. clearbody v. qclra.
  - intros c g Hc. cbn [w_norm aW]. unfold pscale. induction g as [|r g IH]; cbn [map qsum]; [ring|]. rewrite IH, S2 by exact Hc. ring.
  - split; vm_compute; [split; reflexivity|reflexivity].
Qed.
