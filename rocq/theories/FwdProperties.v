(** * Forward passes: properties *)
From Verif Require Import Py PyLemmas Num PolicyModel PolicyProofs DqnModel DqnProofs PsrlModel FwdModel FwdSpec FwdProofs.
Open Scope nat_scope.

(** C255. With [deterministic_eval] and outside a training step the action is the mode of the
    distribution, whatever the random draw; in all other cases it is a sample.  The other entries of
    the result are the actor's output, its hidden state and the distribution of that output. *)
Theorem C255_forward : forall (Ob H L D A G : Type) (actor : Ob -> H -> L * H) (dist_fn : L -> D) (mode : D -> A) (sample : D -> G -> A)
  (det within : bool) (o : Ob) (h : H) (g : G),
  let r := dist_forward actor dist_fn mode sample det within o h g in
  (out_logits r, out_state r) = actor o h
  /\ out_dist r = dist_fn (out_logits r)
  /\ (det = true -> within = false -> out_act r = mode (out_dist r) /\ forall g', dist_forward actor dist_fn mode sample det within o h g' = r)
  /\ (det = false \/ within = true -> out_act r = sample (out_dist r) g).
Proof. exact C255_forward_lemma. Qed.
Print Assumptions C255_forward.

(** C255. An update does not depend on [deterministic_eval]: all that [process_fn] and [learn]
    compute with [forward] is computed with samples. *)
Theorem C255_update : forall (Ob H L D A G X B St : Type) (actor : Ob -> H -> L * H) (dist_fn : L -> D) (mode : D -> A) (sample : D -> G -> A)
  (process_fn : (Ob -> H -> G -> fout H L D A) -> B -> list nat -> blk X B) (learn : (Ob -> H -> G -> fout H L D A) -> B -> blk X St)
  sample_fn post lr size has_buffer has_sched (det det' : bool) (s : pstate X),
  (forall n s, p_within (fst (sample_fn n s)) = p_within s) ->
  (forall f b i s, p_within (fst (process_fn f b i s)) = p_within s) ->
  dist_update actor dist_fn mode sample process_fn learn det sample_fn post lr size has_buffer has_sched s
  = dist_update actor dist_fn mode sample process_fn learn det' sample_fn post lr size has_buffer has_sched s.
Proof. exact C255_update_lemma. Qed.
Print Assumptions C255_update.

(** C256. The action of SAC is the hyperbolic tangent of one draw (or of the location), so its
    entries lie in [-1, 1]; the log probability is that of the same draw minus the sum of
    log(1 - a^2 + eps) over the entries [a] of that row of the returned action, and every logarithm
    is taken of a number in [eps, 1 + eps].  REDQ computes the same result. *)
Theorem C256_squashed : forall (Ob H G : Type) (actor : Ob -> H -> gauss * H) (rsample : gauss -> G -> list (list Qc))
  (logp : gauss -> list (list Qc) -> list Qc) (tanh lg : Qc -> Qc) eps det within (o : Ob) (h : H) (g : G),
  (forall x, -(1) <= tanh x /\ tanh x <= 1)%Qc -> (0 < eps)%Qc ->
  exists r raw, sac_forward actor rsample logp tanh lg eps det within o h g = Ok r
  /\ redq_forward actor rsample logp tanh lg eps det within o h g = Ok r
  /\ (so_logits r, so_state r) = actor o h
  /\ raw = (if det && negb within then fst (so_logits r) else rsample (so_logits r) g)
  /\ so_act r = map (map tanh) raw
  /\ (forall row a, In row (so_act r) -> In a row -> -(1) <= a /\ a <= 1 /\ eps <= 1 - a * a + eps /\ 1 - a * a + eps <= 1 + eps)%Qc
  /\ (length (logp (so_logits r) raw) = length raw -> length (so_log_prob r) = length raw /\
      forall k p row, nth_error (logp (so_logits r) raw) k = Some p -> nth_error (so_act r) k = Some row ->
        nth_error (so_log_prob r) k = Some (p - qsum (map (fun a => lg (1 - a * a + eps)) row))%Qc).
Proof. exact C256_squashed_lemma. Qed.
Print Assumptions C256_squashed.

(** C257. For an observation with at least one axis and an action shape without axes of length 0
    or 1, [compute_action] returns an array of the action's shape whose entries are the entries of
    the action of [forward], bounded and scaled into the action space as documented. *)
Theorem C257_box_partial : forall tanh fwd low high m scaling obs y s,
  (forall x, -(1) <= tanh x /\ tanh x <= 1)%Qc -> sh obs <> [] ->
  fwd (mkArr (1 :: sh obs) (fun i => ent obs (tl i))) = Ok y -> sh y = 1 :: s -> Forall (fun d => 2 <= d) s ->
  sh low = s -> sh high = s ->
  (scaling = true -> m = BNone -> forall i, index_of s i -> (-(1) <= ent y (0%nat :: i) /\ ent y (0%nat :: i) <= 1)%Qc) ->
  exists a, compute_action tanh fwd (ABox low high) m scaling obs = Ok (CArr a) /\ sh a = s
    /\ forall i, index_of s i -> ent a i = into_range scaling (ent low i) (ent high i) (bounded tanh m (ent y (0 :: i))).
Proof. exact C257_box_partial_lemma. Qed.
Print Assumptions C257_box_partial.

(** C257. A discrete action is returned as the integer that [forward] chose. *)
Theorem C257_discrete : forall tanh fwd m scaling obs y z, sh obs <> [] ->
  fwd (mkArr (1 :: sh obs) (fun i => ent obs (tl i))) = Ok y -> sh y = [1] -> ent y [0] = Q2Qc (inject_Z z) ->
  compute_action tanh fwd ADiscrete m scaling obs = Ok (CInt z).
Proof. exact C257_discrete_lemma. Qed.
Print Assumptions C257_discrete.

(** C257. Observations without axes (the states of toy-text environments, dicts) are not accepted
    by any policy. *)
Theorem C257_scalar_observation_refuted : forall tanh fwd sp m scaling obs, sh obs = [] ->
  compute_action tanh fwd sp m scaling obs = Err IndexError.
Proof. exact C257_scalar_observation_refuted_lemma. Qed.
Print Assumptions C257_scalar_observation_refuted.

(** C257. Axes of length 1 are lost: without scaling an action of shape (1,) is returned without
    axes, and with scaling an action of shape (n, 1) becomes a matrix of shape (n, n). *)
Theorem C257_shape_refuted : forall tanh fwd low high m obs y n,
  (forall x, -(1) <= tanh x /\ tanh x <= 1)%Qc -> sh obs <> [] ->
  fwd (mkArr (1 :: sh obs) (fun i => ent obs (tl i))) = Ok y ->
  (sh y = [1; 1] -> exists a, compute_action tanh fwd (ABox low high) m false obs = Ok (CArr a) /\ sh a = [])
  /\ (2 <= n -> sh y = [1; n; 1] -> sh low = [n; 1] -> sh high = [n; 1] -> m <> BNone ->
      exists a, compute_action tanh fwd (ABox low high) m true obs = Ok (CArr a) /\ sh a = [n; n]).
Proof. exact C257_shape_refuted_lemma. Qed.
Print Assumptions C257_shape_refuted.

(** C257. For actions of one axis [compute_action] does what the collector does with the action of
    a batch of one row: the same entries, or the same exception. *)
Theorem C257_as_collected : forall tanh fwd low high m scaling obs row,
  sh obs <> [] -> 2 <= length row -> length low = length row -> length high = length row ->
  fwd (mkArr (1 :: sh obs) (fun i => ent obs (tl i))) = Ok (mkArr [1; length row] (fun i => nth (nth 1 i 0) row 0%Qc)) ->
  match compute_action tanh fwd (ABox (arr1 low) (arr1 high)) m scaling obs with
  | Ok (CArr a) => sh a = [length row] /\ map_action tanh true m scaling low high [row] = Ok [map (fun j => ent a [j]) (seq 0 (length row))]
  | Ok (CInt _) => False
  | Err e => map_action tanh true m scaling low high [row] = Err e
  end.
Proof. exact C257_as_collected_lemma. Qed.
Print Assumptions C257_as_collected.

(** C258. In a box inside [-1, 1] the random policy's actions are executed as drawn; in a discrete
    space that starts at 0 they are actions of the space, one for every observation. *)
Theorem C258_random_partial :   (forall tanh low high len draws, len <> 0 ->
     (forall j l, nth_error low j = Some l -> (-(1) <= l)%Qc) -> (forall j h, nth_error high j = Some h -> (h <= 1)%Qc) ->
     (forall k j x, k < len -> nth_error (draws k) j = Some x -> exists l h, nth_error low j = Some l /\ nth_error high j = Some h /\ (l <= x)%Qc /\ (x <= h)%Qc) ->
     random_executed tanh low high len draws = Ok (map draws (seq 0 len)))
  /\ (forall n len draws, (forall k, k < len -> (0 <= draws k < n)%Z) ->
     length (random_discrete len draws) = len /\ forall a, In a (random_discrete len draws) -> (0 <= a < 0 + n)%Z).
Proof. exact C258_random_partial_lemma. Qed.
Print Assumptions C258_random_partial.

(** C258. In any other box the executed actions are not those drawn: they lie in [-1, 1] whatever
    the space is, an entry above 1 is executed as 1, and in a box whose lower bound is above 1 no
    executed action is in the box. *)
Theorem C258_clipped_refuted : forall tanh low high len draws act, random_executed tanh low high len draws = Ok act ->
  forall k j x y, k < len -> nth_error (draws k) j = Some x -> (exists row, nth_error act k = Some row /\ nth_error row j = Some y) ->
  (-(1) <= y)%Qc /\ (y <= 1)%Qc /\ ((1 < x)%Qc -> y = 1%Qc) /\ (forall l, nth_error low j = Some l -> (1 < l)%Qc -> ~ (l <= y)%Qc).
Proof. exact C258_clipped_refuted_lemma. Qed.
Print Assumptions C258_clipped_refuted.

(** C258. In a discrete space that starts at a positive number, action 0, which is always among the
    possible draws, is not an action of the space. *)
Theorem C258_start_refuted : forall n start, (0 < n)%Z -> (0 < start)%Z ->
  exists draws, (forall k, (0 <= draws k < n)%Z) /\ forall len a, In a (random_discrete len draws) -> ~ (start <= a < start + n)%Z.
Proof. exact C258_start_refuted_lemma. Qed.
Print Assumptions C258_start_refuted.

(** C259. Every call of [forward] evaluates the network named by [model] at the observation without
    its wrapping and returns its raw output, its hidden state and the greedy actions of the masked
    values; no call changes the networks. *)
Theorem C259_calls : forall (Ob W H : Type) (net : W -> Ob -> H -> list (list Qc) * H) l (p p' : dpol W) outs,
  dqn_calls net p l = Ok (p', outs) ->
  dp_model p' = dp_model p /\ dp_old p' = dp_old p /\ length outs = length l
  /\ forall k m o h out, nth_error l k = Some (m, o, h) -> nth_error outs k = Some out ->
       exists w, (match m with DModel => Some (dp_model p) | DModelOld => dp_old p end) = Some w
       /\ (do_logits out, do_state out) = net w (inner_obs o) h
       /\ greedy (do_logits out) (obs_mask o) = Ok (do_act out).
Proof. exact C259_calls_lemma. Qed.
Print Assumptions C259_calls.

(** C259. [max_action_num] is the number of actions of the first output, stays what it is ever
    after, and with it [exploration_noise] accepts any actions; before the first call it raises. *)
Theorem C259_max_action_num : forall (Ob W H : Type) (net : W -> Ob -> H -> list (list Qc) * H) l (p p' : dpol W) outs,
  dqn_calls net p l = Ok (p', outs) ->
  (forall m o h mask, In (m, o, h) l -> obs_mask o = Some mask -> forall w, let logits := fst (net w (inner_obs o) h) in
     length logits = length mask /\ forall i row mrow, nth_error logits i = Some row -> nth_error mask i = Some mrow -> length row = length mrow) ->
  (forall n, dp_max p = Some n -> dp_max p' = Some n)
  /\ (dp_max p = None -> dp_max p' = match outs with [] => None | out :: _ => Some (width (do_logits out)) end)
  /\ (forall eps u q mask act, l <> [] -> exists act', exploration_noise false eps (dp_max p') u q mask act = Ok act')
  /\ (forall eps u q mask act, dp_max p = None -> l = [] -> exploration_noise false eps (dp_max p') u q mask act = Err AssertionError).
Proof. exact C259_max_action_num_lemma. Qed.
Print Assumptions C259_max_action_num.

(** C260. After any history, the calls of [forward] that follow a call of [learn] all use one policy:
    the solution for the posterior of exactly the data learned so far. *)
Theorem C260_current_partial : forall (M V R : Type) (solve : M -> V -> nat -> res (list nat * V)) (observe : M -> R -> M)
  (m0 : M) (v0 : V) l r o os,
  let s := fst (psrl_run solve observe (mkPm m0 None v0 false 0) l) in
  forall pi v, solve (fold_left observe (learned l ++ [r]) m0) (pm_value s) (pm_solved s) = Ok (pi, v) ->
  snd (psrl_run solve observe (mkPm m0 None v0 false 0) (l ++ PLearn r :: map PAct (o :: os)))
  = snd (psrl_run solve observe (mkPm m0 None v0 false 0) l)
    ++ map (fun o => mapM (fun x => match nth_error pi x with Some a => Ok a | None => Err IndexError end) o) (o :: os).
Proof. exact C260_current_partial_lemma. Qed.
Print Assumptions C260_current_partial.

(** C260. The model is solved once for every run of calls without learning in between. *)
Theorem C260_solved_once : forall (M V R : Type) (solve : M -> V -> nat -> res (list nat * V)) (observe : M -> R -> M)
  (m0 : M) (v0 : V) l, pm_solved (fst (psrl_run solve observe (mkPm m0 None v0 false 0) l)) = runs true l.
Proof. exact C260_solved_once_lemma. Qed.
Print Assumptions C260_solved_once.

(** C260. If solving raises, the next call does not try again: it acts by the policy of the data
    before, or raises AttributeError if there is none. *)
Theorem C260_stale_refuted : forall (M V R : Type) (solve : M -> V -> nat -> res (list nat * V)) (observe : M -> R -> M)
  (m : M) pi (v : V) b k r e o o',
  solve (observe m r) v k = Err e ->
  snd (psrl_run solve observe (mkPm m pi v b k) [PLearn r; PAct o; PAct o'])
  = [Err e; match pi with
            | Some pi => mapM (fun x => match nth_error pi x with Some a => Ok a | None => Err IndexError end) o'
            | None => Err AttributeError
            end].
Proof. exact C260_stale_refuted_lemma. Qed.
Print Assumptions C260_stale_refuted.

(** C257. Broadcasting: an axis of length 1 of one operand, or a missing leading axis, is repeated along the axis of the other. *)
Theorem C257_broadcast : forall (f : Qc -> Qc -> Qc) (a b : arr) (m n : nat), 2 <= m -> 2 <= n ->
  (sh a = [1; n] \/ sh a = [m; 1] \/ sh a = [1; 1] \/ sh a = [m; n] \/ sh a = [n] \/ sh a = [1] \/ sh a = []) -> sh b = [m; n] ->
  exists r, bop f a b = Ok r /\ sh r = [m; n] /\ forall i j,
    ent r [i; j] = f (match sh a with
                      | [x; y] => ent a [if x =? 1 then 0 else i; if y =? 1 then 0 else j]
                      | [y] => ent a [if y =? 1 then 0 else j]
                      | _ => ent a [] end) (ent b [i; j]).
Proof. exact C257_broadcast_lemma. Qed.
Print Assumptions C257_broadcast.

(** C258. Other action spaces are refused when the policy is made. *)
Theorem C258_spaces : forall sp : rspace, random_init sp = match sp with OtherSpace => Err NotImplementedError | sp => Ok sp end.
Proof. exact C258_spaces_lemma. Qed.
Print Assumptions C258_spaces.

(** C259. The network sees the entry [obs] of an observation that has one, whatever else is in it, and otherwise the observation. *)
Theorem C259_observation : forall (Ob W H : Type) (net net' : W -> Ob -> H -> list (list Qc) * H) (p : dpol W) m obs whole mask h,
  (forall w, net w obs h = net' w obs h) ->
  dqn_forward net p m (DBatch (Some obs) whole mask) h = dqn_forward net' p m (DBatch (Some obs) whole mask) h
  /\ dqn_forward net p m (DPlain obs) h = dqn_forward net' p m (DPlain obs) h
  /\ dqn_forward net p m (DBatch None obs mask) h = dqn_forward net' p m (DBatch None obs mask) h.
Proof. exact C259_observation_lemma. Qed.
Print Assumptions C259_observation.

(** ** Examples *)
Definition ex_q (z : Z) : Qc := Q2Qc (inject_Z z).
(** A policy whose actor adds observation and state, with mode 2l and samples l + g. *)
Definition ex_actor (o h : nat) : nat * nat := (o + h, S h).
Example C255_case :
  let f := dist_forward ex_actor (fun l => l) (fun d => 2 * d) (fun d g => d + g) in
  f true false 3 4 100 = mkOut 7 14 5 7 /\ f true false 3 4 200 = f true false 3 4 100
  /\ f true true 3 4 100 = mkOut 7 107 5 7 /\ f false false 3 4 100 = mkOut 7 107 5 7.
Proof. repeat split. Qed.
(** An update that stores the action it computed; outside a training step it raises. *)
Definition ex_process (f : nat -> nat -> nat -> fout nat nat nat nat) (b : nat) (i : list nat) : blk nat nat :=
  fun s => (mkP (p_mod s) (p_within s) (p_updating s) (out_act (f b 1 50)), Ok (out_act (f b 1 50))).
Definition ex_update (det within : bool) :=
  dist_update ex_actor (fun l => l) (fun d => 2 * d) (fun d g => d + g) ex_process (fun f b s => (s, Ok (b + out_act (f 1 1 1))))
    det (fun n s => (s, Ok (5, [0]))) (fun b i s => (s, Ok tt)) (fun s => (s, Ok tt)) None true false (mkP (Mod false []) within false 0).
Example C255_update_case : snd (fst (ex_update true true)) = Ok (Some 59) /\ ex_update true true = ex_update false true
  /\ snd (fst (ex_update true false)) = Err RuntimeError.
Proof. vm_compute. repeat split. Qed.

(** C256: tanh replaced by clipping, the logarithm by x - 1. *)
Definition ex_lg (x : Qc) : Qc := (x - 1)%Qc.
Definition ex_sac (eps : Qc) := sac_forward (Ob := nat) (H := nat) (G := list (list Qc)) (fun o h => (([[ex_q 0; Q2Qc (1 # 2)]; [ex_q 3; ex_q 0]], [[1; 1]; [1; 1]]%Qc), S h)) (fun d g => g)
  (fun d act => map (fun r => qsum r) act) clip1 ex_lg eps.
Example C256_case :
  (match ex_sac (Q2Qc (1 # 4)) true false 0 0 [] with
   | Ok r => map (map this) (so_act r) = [[0#1; 1#2]; [1#1; 0#1]]%Q /\ map this (so_log_prob r) = [1#4; 7#2]%Q /\ so_state r = 1
   | Err _ => False
   end)
  /\ (forall x, -(1) <= clip1 x /\ clip1 x <= 1)%Qc
  (* without eps the logarithm of a saturated action is infinite *)
  /\ ex_sac 0%Qc true false 0 0 [] = Err ValueError.
Proof. split; [vm_compute; repeat split|]. split; [apply clip1_range|vm_compute; reflexivity]. Qed.

(** C257: an observation of shape (3,). *)
Definition ex_obs : arr := arr1 [1; 1; 1]%Qc.
Definition ex_row : list Qc := [ex_q 3; Q2Qc (1 # 2)].
Definition ex_fwd : arr -> res arr := fun _ => Ok (mkArr [1; 2] (fun i => nth (nth 1 i 0) ex_row 0%Qc)).
Definition ex_entries (r : res cact) (l : list (list nat)) : option (list nat * list Q) :=
  match r with Ok (CArr a) => Some (sh a, map (fun i => this (ent a i)) l) | _ => None end.
Example C257_case :
  ex_entries (compute_action (fun x => x) ex_fwd (ABox (arr1 [ex_q 0; ex_q 0]) (arr1 [ex_q 10; ex_q 4])) BClip true ex_obs) [[0]; [1]] = Some ([2], [10#1; 3#1]%Q)
  /\ (match map_action (fun x => x) true BClip true [ex_q 0; ex_q 0] [ex_q 10; ex_q 4] [ex_row] with Ok l => map (map this) l | Err _ => [] end) = [[10#1; 3#1]]%Q
  /\ compute_action (fun x => x) (fun _ => Ok (mkArr [1] (fun _ => ex_q 4))) ADiscrete BClip false ex_obs = Ok (CInt 4)
  /\ compute_action (fun x => x) (fun _ => Ok (mkArr [1] (fun _ => ex_q 4))) ADiscrete BClip false (mkArr [] (fun _ => ex_q 4)) = Err IndexError.
Proof.
  vm_compute. repeat split.
Qed.
(** Actions of shape (2, 1) in a box of that shape come back as a (2, 2) matrix. *)
Definition ex_col (a b : Z) : arr := mkArr [2; 1] (fun i => nth (hd 0 i) [ex_q a; ex_q b] 0%Qc).
Definition ex_fwd2 : arr -> res arr := fun _ => Ok (mkArr [1; 2; 1] (fun i => nth (nth 1 i 0) [ex_q (-1); ex_q 1] 0%Qc)).
Example C257_shape_case :
  ex_entries (compute_action (fun x => x) ex_fwd2 (ABox (ex_col 0 0) (ex_col 10 4)) BClip true ex_obs) [[0; 0]; [0; 1]; [1; 0]; [1; 1]] = Some ([2; 2], [0#1; 10#1; 0#1; 4#1]%Q)
  /\ ex_entries (compute_action (fun x => x) (fun _ => Ok (mkArr [1; 1] (fun _ => ex_q 3))) (ABox (arr1 [ex_q 0]) (arr1 [ex_q 5])) BClip false ex_obs) [[]] = Some ([], [1#1]%Q).
Proof. vm_compute. split; reflexivity. Qed.

(** C258: a box [0, 1] x [-1, 0]; a box [2, 3]. *)
Definition ex_vals (r : res (list (list Qc))) : list (list Q) := match r with Ok l => map (map this) l | Err _ => [] end.
Example C258_case : ex_vals (random_executed (fun x => x) [ex_q 0; ex_q (-1)] [ex_q 1; ex_q 0] 2 (fun k => [Q2Qc (1 # 2); ex_q (- Z.of_nat k)]))
    = [[1#2; 0#1]; [1#2; -1#1]]%Q
  /\ ex_vals (random_executed (fun x => x) [ex_q 2] [ex_q 3] 1 (fun _ => [Q2Qc (5 # 2)])) = [[1#1]]%Q
  /\ random_discrete 3 (fun k => Z.of_nat k) = [0; 1; 2]%Z /\ random_init OtherSpace = Err NotImplementedError.
Proof.
  vm_compute. repeat split.
Qed.

(** C259: a network that adds its weight; the second of three actions is masked in the second call. *)
Definition ex_net (w : Z) (o : list Z) (h : nat) : list (list Qc) * nat := ([map (fun x => ex_q (x + w)) o], S h).
Definition ex_calls := [(DModel, DPlain [1; 5; 2]%Z, 0); (DModelOld, DBatch (Some [1; 5; 2]%Z) [] (Some [[true; false; true]]), 7)].
Example C259_case :
  match dqn_calls ex_net (mkDpol 10%Z (Some 20%Z) None) ex_calls with
  | Ok (p, outs) => dp_max p = Some 3 /\ map do_act outs = [[1]; [2]] /\ map do_state outs = [1; 8]
                    /\ map (fun o => map (map this) (do_logits o)) outs = [[[11#1; 15#1; 12#1]]; [[21#1; 25#1; 22#1]]]%Q
  | Err _ => False
  end
  /\ dqn_calls ex_net (mkDpol 10%Z None None) ex_calls = Err AttributeError.
Proof. vm_compute. repeat split. Qed.

(** C260: the posterior is the list of all data, the solution repeats its length; solving [9] raises. *)
Definition ex_solve (m : list nat) (v k : nat) : res (list nat * nat) :=
  match m with 9 :: _ => Err ValueError | _ => Ok ([length m; v], v + length m) end.
Definition ex_history := [PAct [0]; PLearn 4; PLearn 5; PAct [0; 1]; PAct [1]; PLearn 6; PAct [0; 1]].
Example C260_case :
  snd (psrl_run ex_solve (fun m r => r :: m) (mkPm [] None 1 false 0) ex_history) = [Ok [0]; Ok [2; 1]; Ok [1]; Ok [3; 3]]
  /\ runs true ex_history = 3 /\ learned ex_history = [4; 5; 6]
  /\ snd (psrl_run ex_solve (fun m r => r :: m) (mkPm [] None 1 false 0) (ex_history ++ [PLearn 9; PAct [0]; PAct [0]]))
     = [Ok [0]; Ok [2; 1]; Ok [1]; Ok [3; 3]; Err ValueError; Ok [3]].
Proof. vm_compute. repeat split. Qed.
(** A row of 3 entries added to 2 rows. *)
Example C257_broadcast_ex : match bop Qcplus (mkArr [1; 3] (fun i => ex_q (10 * Z.of_nat (nth 1 i 9)))) (mkArr [2; 3] (fun i => ex_q (Z.of_nat (nth 0 i 9)))) with
  | Ok r => sh r = [2; 3] /\ ent r [1; 2] = ex_q 21 | Err _ => False end.
Proof. split; [reflexivity|]. apply Qc_is_canon. vm_compute. reflexivity. Qed.
