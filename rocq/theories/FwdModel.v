(** * Model of the forward passes of policies: [PGPolicy], [DiscreteSACPolicy], [SACPolicy],
    [REDQPolicy], [DQNPolicy], [PSRLPolicy], [RandomActionPolicy] and [BasePolicy.compute_action]

    Networks, distributions and random draws are parameters; floats are exact rationals. *)
From Verif Require Export Py Num PolicyModel DqnModel PsrlModel.
Open Scope nat_scope.

(** ** Policies with a distribution *)
Section Stochastic.
Context {Ob H L D A G : Type}.
(** The actor (observations and hidden state to distribution input and new hidden state), the
    distribution of such an input, its mode and a sample from it for a random draw. *)
Variable actor : Ob -> H -> L * H.
Variable dist_fn : L -> D.
Variable mode : D -> A.
Variable sample : D -> G -> A.
Record fout : Type := mkOut { out_logits : L; out_act : A; out_state : H; out_dist : D }.
(** pg.py:175-207 and discrete_sac.py:102-116 [forward].  The draw [g] is unused with the mode. *)
Definition dist_forward (deterministic_eval is_within_training_step : bool) (obs : Ob) (state : H) (g : G) : fout :=
  let '(logits, hidden) := actor obs state in
  let dist := dist_fn logits in
  let act := if deterministic_eval && negb is_within_training_step then mode dist else sample dist g in
  mkOut logits act hidden dist.

(** base.py:506-553 [update] of such a policy.  [process_fn] and [learn] call [forward], which reads
    the flag of the policy (sac.py:216, ppo.py:163, a2c.py:173, ...). *)
Context {X B St : Type}.
Variable process_fn : (Ob -> H -> G -> fout) -> B -> list nat -> blk X B.
Variable learn : (Ob -> H -> G -> fout) -> B -> blk X St.
Definition dist_update (deterministic_eval : bool) (sample_fn : option Z -> blk X (B * list nat))
    (post_process_fn : B -> list nat -> blk X unit) (lr_step : blk X unit)
    (sample_size : option Z) (has_buffer has_sched : bool) (s : pstate X) : pstate X * res (option St) * list (event B) :=
  p_update sample_fn
    (fun b i s => process_fn (dist_forward deterministic_eval (p_within s)) b i s)
    (fun b s => learn (dist_forward deterministic_eval (p_within s)) b s)
    post_process_fn lr_step sample_size has_buffer has_sched s.
End Stochastic.
Arguments fout : clear implicits.
Arguments mkOut {H L D A}.

(** ** Squashed Gaussians *)
Section Squash.
Context {Ob H G : Type}.
(** A batch of Gaussians is given by its locations and scales, one list per row. *)
Definition gauss : Type := (list (list Qc) * list (list Qc))%type.
Variable actor : Ob -> H -> gauss * H.
(** [dist.rsample()], [dist.log_prob(act)] (one number per row), [torch.tanh], [torch.log]. *)
Variable rsample : gauss -> G -> list (list Qc).
Variable logp : gauss -> list (list Qc) -> list Qc.
Variable tanh lg : Qc -> Qc.
(** [torch.log] of a number that is not positive is nan or -inf. *)
Definition tlog (x : Qc) : res Qc := if Qcltb 0 x then Ok (lg x) else Err ValueError.

(** sac.py:24-38 [correct_log_prob_gaussian_tanh], one row of each argument after the other. *)
Definition correct_log_prob (log_prob : list Qc) (act : list (list Qc)) (eps : Qc) : res (list Qc) :=
  mapM (fun x : Qc * list Qc =>
          let* c := mapM (fun a => tlog (1 - a * a + eps)%Qc) (snd x) in Ok (fst x - qsum c)%Qc)
       (combine log_prob act).

Record sout : Type := mkSout { so_logits : gauss; so_act : list (list Qc); so_state : H; so_log_prob : list Qc }.
(** sac.py:186-209 [forward]; the mode of Independent(Normal) is its location. *)
Definition sac_forward (eps : Qc) (deterministic_eval is_within_training_step : bool) (obs : Ob) (state : H) (g : G) : res sout :=
  let '(d, hidden) := actor obs state in
  let act := if deterministic_eval && negb is_within_training_step then fst d else rsample d g in
  let log_prob := logp d act in
  let squashed := map (map tanh) act in
  let* log_prob := correct_log_prob log_prob squashed eps in
  Ok (mkSout d squashed hidden log_prob).
(** redq.py:148-175 [forward], with its own correction; [eps] is [self.__eps] (redq.py:114). *)
Definition redq_forward (eps : Qc) (deterministic_eval is_within_training_step : bool) (obs : Ob) (state : H) (g : G) : res sout :=
  let '(d, hidden) := actor obs state in
  let act := if deterministic_eval && negb is_within_training_step then fst d else rsample d g in
  let log_prob := logp d act in
  let squashed := map (map tanh) act in
  let* corr := mapM (fun row => let* c := mapM (fun a => tlog ((1 - a * a) + eps)%Qc) row in Ok (qsum c)) squashed in
  Ok (mkSout d squashed hidden (map (fun x : Qc * Qc => (fst x - snd x)%Qc) (combine log_prob corr))).
End Squash.
Arguments sout : clear implicits.

(** ** [BasePolicy.compute_action]

    NumPy arrays: a shape and the entry at every index (a list as long as the shape). *)
Record arr : Type := mkArr { sh : list nat; ent : list nat -> Qc }.
(** [squeeze()]: all axes of length 1 are removed. *)
Definition squeeze_sh (s : list nat) : list nat := filter (fun d => negb (d =? 1)) s.
Fixpoint unsqueeze (s i : list nat) : list nat :=
  match s with
  | [] => []
  | d :: s => if d =? 1 then 0 :: unsqueeze s i
              else match i with [] => [] | x :: i => x :: unsqueeze s i end
  end.
Definition squeeze (a : arr) : arr := mkArr (squeeze_sh (sh a)) (fun i => ent a (unsqueeze (sh a) i)).
(** Broadcasting: the shape of the result of a binary operation (shapes reversed) ... *)
Fixpoint bshape_rev (a b : list nat) : res (list nat) :=
  match a, b with
  | [], b => Ok b
  | a, [] => Ok a
  | x :: a, y :: b =>
      let* r := bshape_rev a b in
      if x =? y then Ok (x :: r) else if x =? 1 then Ok (y :: r) else if y =? 1 then Ok (x :: r) else Err ValueError
  end.
Definition bshape (a b : list nat) : res (list nat) := let* r := bshape_rev (rev a) (rev b) in Ok (rev r).
(** ... and the index of an operand of shape [s] that belongs to index [i] of the result. *)
Definition bindex (s i : list nat) : list nat :=
  map (fun x : nat * nat => if fst x =? 1 then 0 else snd x) (combine s (skipn (length i - length s) i)).
Definition bop (f : Qc -> Qc -> Qc) (a b : arr) : res arr :=
  let* s := bshape (sh a) (sh b) in
  Ok (mkArr s (fun i => f (ent a (bindex (sh a) i)) (ent b (bindex (sh b) i)))).
Definition map_arr (f : Qc -> Qc) (a : arr) : arr := mkArr (sh a) (fun i => f (ent a i)).
(** All indices of a shape. *)
Fixpoint indices (s : list nat) : list (list nat) :=
  match s with [] => [[]] | d :: s => flat_map (fun x => map (cons x) (indices s)) (seq 0 d) end.

(** The action spaces that BasePolicy accepts (base.py:219-224). *)
Inductive aspace : Type := ADiscrete | AMulti | ABox (low high : arr).

Section ComputeAction.
Variable tanh : Qc -> Qc.
(** base.py:367-400 [map_action] of an array of any shape. *)
Definition map_action_arr (sp : aspace) (m : bound_method) (scaling : bool) (act : arr) : res arr :=
  match sp with
  | ABox low high =>
      let act := map_arr (bound1 tanh m) act in
      if scaling then
        if length (indices (sh act)) =? 0 then Err ValueError (* np.min of an empty array *)
        else if negb (forallb (fun i => Qcleb (-(1))%Qc (ent act i) && Qcleb (ent act i) 1%Qc) (indices (sh act))) then Err AssertionError
        else let* span := bop (fun h l => (h - l)%Qc) high low in
             let* x := bop (fun d a => (d * (a + 1) / (1 + 1))%Qc) span act in
             bop (fun l y => (l + y)%Qc) low x
      else Ok act
  | _ => Ok act
  end.
(** What is returned: an int or an array. *)
Inductive cact : Type := CInt (z : Z) | CArr (a : arr).
Definition trunc (q : Qc) : Z := Z.quot (Qnum q) (Zpos (Qden q)).
(** base.py:292-315.  [obs[None, :]] needs at least one axis; a dict observation becomes an array
    without axes by [np.array].  [fwd] is [forward(...).act] on the batch of one observation;
    [int(act)] needs an array of one entry. *)
Definition compute_action (fwd : arr -> res arr) (sp : aspace) (m : bound_method) (scaling : bool) (obs : arr) : res cact :=
  match sh obs with
  | [] => Err IndexError
  | s => let obs := mkArr (1 :: s) (fun i => ent obs (tl i)) in
         let* act := fwd obs in
         let* act := map_action_arr sp m scaling (squeeze act) in
         match sp with
         | ADiscrete => match indices (sh act) with
                        | [i] => Ok (CInt (trunc (ent act i)))
                        | _ => Err TypeError
                        end
         | _ => Ok (CArr act)
         end
  end.
End ComputeAction.

(** ** [RandomActionPolicy]: base.py:735-753, common.py:668-688

    The space with its draws: [Box.sample()] for every row, [np.random.randint(0, n)] for every row.
    [OtherSpace]: MultiDiscrete and MultiBinary. *)
Inductive rspace : Type := RBox (low high : list Qc) | RDiscrete (n start : Z) | OtherSpace.
Definition random_init (sp : rspace) : res rspace :=
  match sp with OtherSpace => Err NotImplementedError | _ => Ok sp end.
(** [len] observations; [np.stack] of nothing raises. *)
Definition random_box (len : nat) (draws : nat -> list Qc) : res (list (list Qc)) :=
  if len =? 0 then Err ValueError else Ok (map draws (seq 0 len)).
Definition random_discrete (len : nat) (draws : nat -> Z) : list Z := map draws (seq 0 len).
(** What the collector executes (collector.py:710-713): [map_action] with the defaults of
    [BasePolicy] (base.py:197-198: clip, no scaling). *)
Definition random_executed (tanh : Qc -> Qc) (low high : list Qc) (len : nat) (draws : nat -> list Qc) : res (list (list Qc)) :=
  let* act := random_box len draws in
  map_action tanh true BClip false low high act.

(** ** [DQNPolicy.forward]: dqn.py:166-210 *)
Section DqnForward.
Context {Ob W H : Type}.
(** An observation: plain, or a batch with keys [obs] and possibly [mask] (or a mask alone). *)
Inductive dobs : Type := DPlain (o : Ob) | DBatch (obs : option Ob) (whole : Ob) (mask : option (list (list bool))).
Variable net : W -> Ob -> H -> list (list Qc) * H.
Record dpol : Type := mkDpol { dp_model : W; dp_old : option W; dp_max : option nat }.
Inductive dmodel : Type := DModel | DModelOld.
Record dout : Type := mkDout { do_logits : list (list Qc); do_act : list nat; do_state : H }.
Definition inner_obs (o : dobs) : Ob := match o with DPlain o => o | DBatch (Some o) _ _ => o | DBatch None w _ => w end.
Definition obs_mask (o : dobs) : option (list (list bool)) := match o with DPlain _ => None | DBatch _ _ m => m end.
(** [q.shape[1]]: the length of a row. *)
Definition width (q : list (list Qc)) : nat := match q with [] => 0 | r :: _ => length r end.
Definition dqn_forward (p : dpol) (m : dmodel) (o : dobs) (state : H) : res (dpol * dout) :=
  let* w := match m with
            | DModel => Ok (dp_model p)
            | DModelOld => match dp_old p with Some w => Ok w | None => Err AttributeError end
            end in
  let '(logits, hidden) := net w (inner_obs o) state in
  let* q := compute_q_value logits (obs_mask o) in
  let p := match dp_max p with
           | None => mkDpol (dp_model p) (dp_old p) (Some (width q))
           | Some _ => p
           end in
  Ok (p, mkDout logits (map argmax q) hidden).
(** A sequence of calls. *)
Fixpoint dqn_calls (p : dpol) (l : list (dmodel * dobs * H)) : res (dpol * list dout) :=
  match l with
  | [] => Ok (p, [])
  | (m, o, h) :: l =>
      let* x := dqn_forward p m o h in
      let* y := dqn_calls (fst x) l in
      Ok (fst y, snd x :: snd y)
  end.
End DqnForward.
Arguments dobs : clear implicits. Arguments dpol : clear implicits. Arguments dout : clear implicits.

(** ** [PSRLModel.solve_policy], [__call__]: psrl.py:102-110, 142-150, and [PSRLPolicy.forward],
    [learn]: psrl.py:209-253

    [M] is the posterior; [solve m v k] is value iteration on the [k]-th sample from it, started at
    [v] (it raises e.g. for a Dirichlet parameter that is not positive). *)
Section PsrlCall.
Context {M V R : Type}.
Variable solve : M -> V -> nat -> res (list nat * V).
Variable observe : M -> R -> M.
Record pm : Type := mkPm { pm_post : M; pm_policy : option (list nat); pm_value : V; pm_updated : bool; pm_solved : nat }.
(** [self.updated = True] comes first, so it stays when [value_iteration] raises. *)
Definition solve_policy (s : pm) : pm * res unit :=
  let s' := mkPm (pm_post s) (pm_policy s) (pm_value s) true (S (pm_solved s)) in
  match solve (pm_post s) (pm_value s) (pm_solved s) with
  | Err e => (s', Err e)
  | Ok (pi, v) => (mkPm (pm_post s) (Some pi) v true (S (pm_solved s)), Ok tt)
  end.
(** [self.policy[obs]]; the attribute is only declared (psrl.py:57) before the first solution. *)
Definition psrl_call (s : pm) (obs : list nat) : pm * res (list nat) :=
  let '(s, r) := if pm_updated s then (s, Ok tt) else solve_policy s in
  match r with
  | Err e => (s, Err e)
  | Ok _ => match pm_policy s with
            | None => (s, Err AttributeError)
            | Some pi => (s, mapM (fun o => match nth_error pi o with Some a => Ok a | None => Err IndexError end) obs)
            end
  end.
Definition psrl_observe (s : pm) (r : R) : pm := mkPm (observe (pm_post s) r) (pm_policy s) (pm_value s) false (pm_solved s).
Inductive pop : Type := PAct (obs : list nat) | PLearn (r : R).
(** The results of the calls of [forward], in order; exceptions are caught by the caller. *)
Fixpoint psrl_run (s : pm) (l : list pop) : pm * list (res (list nat)) :=
  match l with
  | [] => (s, [])
  | PAct o :: l => let '(s, r) := psrl_call s o in let '(s, rs) := psrl_run s l in (s, r :: rs)
  | PLearn r :: l => psrl_run (psrl_observe s r) l
  end.
End PsrlCall.
Arguments pm : clear implicits. Arguments pop : clear implicits.
