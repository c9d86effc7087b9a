(** * Properties C38-C40, C69, C70: masked DQN, target network, C51 *)
From Verif Require Import Py Num BufferModel BufferSpec BufferMainProofs ReturnsModel ReturnsSpec ReturnsMainProofs DqnModel DqnProofs.
Open Scope nat_scope.

(** C38.  Greedy actions: with a mask of the logits' shape, in every row with an available
    action the chosen action is available and its value is maximal among the available ones;
    the values of available actions are not changed. *)
Theorem C38_greedy : forall logits mask, length logits = length mask ->
  (forall i row mrow, nth_error logits i = Some row -> nth_error mask i = Some mrow -> length row = length mrow) ->
  concat logits <> [] ->
  exists q act, compute_q_value logits (Some mask) = Ok q /\ greedy logits (Some mask) = Ok act
    /\ length act = length logits
    /\ forall i row mrow j, nth_error logits i = Some row -> nth_error mask i = Some mrow -> nth_error mrow j = Some true ->
         (exists qrow, nth_error q i = Some qrow /\ length qrow = length row /\ nth_error qrow j = nth_error row j)
         /\ exists k v, nth_error act i = Some k /\ nth_error mrow k = Some true /\ nth_error row k = Some v
              /\ forall j' x, nth_error row j' = Some x -> nth_error mrow j' = Some true -> (x <= v)%Qc.
Proof. exact C38_greedy_lemma. Qed.
Print Assumptions C38_greedy.

(** C38.  Random actions: draws in [0, 1) plus the mask.  Every action is either the given one
    or, in rows with an available action, an available one. *)
Theorem C38_exploration : forall eps n u q mask act, length u = length act -> length q = length act -> length mask = length act ->
  (forall i row mrow, nth_error q i = Some row -> nth_error mask i = Some mrow -> length row = length mrow) ->
  (forall row x, In row q -> In x row -> (0 <= x)%Qc /\ (x < 1)%Qc) ->
  exists act', exploration_noise false eps (Some n) u q (Some mask) act = Ok act' /\ length act' = length act
    /\ forall i a ui mrow j, nth_error act i = Some a -> nth_error u i = Some ui -> nth_error mask i = Some mrow ->
         nth_error mrow j = Some true ->
         exists a', nth_error act' i = Some a' /\ ((eps <= ui)%Qc -> a' = a) /\ ((ui < eps)%Qc -> nth_error mrow a' = Some true).
Proof. exact C38_exploration_lemma. Qed.
Print Assumptions C38_exploration.

(** C38.  The random multi-agent policy chooses an available action in every row that has one,
    whatever the draws. *)
Theorem C38_random_policy : forall draws mask i row mrow j,
  length draws = length mask -> nth_error draws i = Some row -> nth_error mask i = Some mrow -> length row = length mrow ->
  nth_error mrow j = Some true ->
  length (random_forward draws mask) = length mask
  /\ exists a, nth_error (random_forward draws mask) i = Some a /\ nth_error mrow a = Some true.
Proof. exact C38_random_policy_lemma. Qed.
Print Assumptions C38_random_policy.

(** C69.  Bootstrapped values: with double DQN every target value is the target network's value
    of an available action (rows with one). *)
Theorem C69_double_partial : forall ut q_new q_old mask vals i row mrow j,
  length q_new = length mask -> length q_old = length mask ->
  (forall i row mrow, nth_error q_new i = Some row -> nth_error mask i = Some mrow -> length row = length mrow) ->
  target_q ut true q_new q_old (Some mask) = Ok vals ->
  nth_error (if ut then q_old else q_new) i = Some row -> nth_error mask i = Some mrow -> nth_error mrow j = Some true ->
  exists a v, nth_error mrow a = Some true /\ nth_error row a = Some v /\ nth_error vals i = Some v.
Proof. exact C69_double_partial_lemma. Qed.
Print Assumptions C69_double_partial.

(** C69.  Without double DQN the maximum runs over unavailable actions too. *)
Theorem C69_nature_refuted : exists q_new q_old mask v,
  target_q true false [q_new] [q_old] (Some [mask]) = Ok [v]
  /\ (exists j, nth_error mask j = Some true)
  /\ forall a, nth_error mask a = Some true -> nth_error q_old a <> Some v.
Proof. exact C69_nature_refuted_lemma. Qed.
Print Assumptions C69_nature_refuted.

(** C39.  After [k] learn calls, the target weights are the online weights as they were before
    learn call [f * floor((k-1)/f)] (counting from 0), i.e. during call [k] those before call
    [f * floor(k/f)]; with [f = 0] there are none. *)
Theorem C39_target : forall (W Ba : Type) (opt : W -> option W -> Ba -> W) (w : W) (f : nat) (l : list Ba),
  let d := dqn_run opt (dqn_init w f) in
  (f = 0 -> d_old (d l) = None)
  /\ (0 < f -> d_old (d l) = Some (d_model (d (firstn (f * ((length l - 1) / f)) l)))
      /\ forall b, d_model (d (l ++ [b])) = opt (d_model (d l)) (Some (d_model (d (firstn (f * (length l / f)) l)))) b).
Proof. exact C39_target_lemma. Qed.
Print Assumptions C39_target.

(** C40.  The projection keeps non-negativity, total mass and mean (of the clamped atoms); its
    support has [num_atoms] points from v_min to v_max. *)
Theorem C40_projection : forall v_min v_max n returns p, (v_min < v_max)%Qc -> 1 < n -> length returns = length p ->
  let clamped := map (fun r => if Qcleb r v_min then v_min else if Qcleb v_max r then v_max else r) returns in
  let m := target_dist v_min v_max n returns p in
  length m = n
  /\ ((forall x, In x p -> (0 <= x)%Qc) -> forall x, In x m -> (0 <= x)%Qc)
  /\ qsum m = qsum p
  /\ qsum (map (fun zx => fst zx * snd zx)%Qc (combine (support v_min v_max n) m))
     = qsum (map (fun tp => fst tp * snd tp)%Qc (combine clamped p)).
Proof. exact C40_projection_lemma. Qed.
Print Assumptions C40_projection.

(** C70 (restricted to positions whose n-step return reaches the position itself: n = 1, or the
    last stored step of an episode).  The target of position [p] is the projection of the
    discounted atoms of its n-step return, weighted by the network's distribution at the
    observation from which that return bootstraps. *)
Theorem C70_own_step_partial : forall (Ob A Inf : Type) (r0 : Qc) radd (last_frame : Ob -> Ob) o n
    (b : buf Ob A Inf Qc) q rnd idx ps (dist : Ob -> list Qc) (on : nat -> Ob) v_min v_max atoms gamma N,
  0 < n -> reach r0 radd last_frame o n b q -> q <> [] ->
  sample_indices plain b rnd (Some 0%Z) = Ok idx ->
  (forall p, In p ps -> p < length q /\ nstep_reached q N p = p) -> ps <> [] -> 0 < N ->
  (forall p s, nth_error q p = Some s -> s_obs_next s = Some (on p)) ->
  c51_target dist (buf_view b) (map (fun p => Z.of_nat (nth p idx 0)) ps) v_min v_max atoms gamma N
  = Ok (map (fun p => target_dist v_min v_max atoms (nstep_target q gamma N p (support v_min v_max atoms))
                                  (dist (on (nstep_reached q N p)))) ps).
Proof. exact C70_own_step_partial_lemma. Qed.
Print Assumptions C70_own_step_partial.

(** C70.  With two-step returns the atoms are discounted to the state two steps ahead but
    weighted by the distribution one step ahead. *)
Theorem C70_two_step_refuted : exists (b : buf nat nat unit Qc) q idx t,
  reach 0%Qc Qcplus (fun x => x) plain 4 b q /\ sample_indices plain b (fun _ => 0) (Some 0%Z) = Ok idx
  /\ nstep_reached q 2 0 = 1 /\ option_map s_obs_next (nth_error q 1) = Some (Some 3)
  /\ c51_target c51_dist (buf_view b) [Z.of_nat (nth 0 idx 0)] 0%Qc (qn 10) 2 1%Qc 2 = Ok [t]
  /\ t <> target_dist 0%Qc (qn 10) 2 (nstep_target q 1%Qc 2 0 (support 0%Qc (qn 10) 2)) (c51_dist 3).
Proof. exact C70_two_step_refuted_lemma. Qed.
Print Assumptions C70_two_step_refuted.

Example C38_ex_greedy : greedy [[qn 5; qn 1; qn 2]; [qn 0; qn 7; qn 100]] (Some [[false; true; true]; [true; true; false]]) = Ok [2; 1].
Proof. vm_compute. reflexivity. Qed.
Example C38_ex_negative : greedy [[(- qn 5)%Qc; (- qn 9)%Qc]] (Some [[false; true]]) = Ok [1].
Proof. vm_compute. reflexivity. Qed.
Example C38_ex_hyps : concat [[qn 5; qn 1; qn 2]; [qn 0; qn 7; qn 100]] <> [] /\ nth_error [false; true; true] 1 = Some true.
Proof. split; [discriminate|reflexivity]. Qed.
Example C38_ex_exploration : exploration_noise false (Q2Qc (1 # 2)) (Some 2) [Q2Qc (1 # 4); Q2Qc (3 # 4)]
    [[Q2Qc (9 # 10); 0%Qc]; [0%Qc; Q2Qc (9 # 10)]] (Some [[false; true]; [true; true]]) [0; 0] = Ok [1; 0].
Proof. vm_compute. reflexivity. Qed.
Example C38_ex_random : random_forward [[Q2Qc (9 # 10); 0%Qc; Q2Qc (1 # 10)]] [[false; true; true]] = [2].
Proof. vm_compute. reflexivity. Qed.
(** Weights count the steps; every third call copies. *)
Example C39_ex : let run k := dqn_run (fun w _ (_ : unit) => w + 1) (dqn_init 0 3) (repeat tt k) in
  map (fun k => d_old (run k)) [0; 1; 2; 3; 4; 6; 7] = [Some 0; Some 0; Some 0; Some 0; Some 3; Some 3; Some 6].
Proof. reflexivity. Qed.
Example C40_ex : map this (target_dist 0%Qc (qn 10) 3 [qn 2; qn 12; (- qn 1)%Qc] [Q2Qc (1 # 2); Q2Qc (1 # 4); Q2Qc (1 # 4)])
  = [11 # 20; 1 # 5; 1 # 4]%Q.
Proof. vm_compute. reflexivity. Qed.
Example C40_ex_hyp : (0 < qn 10)%Qc /\ 1 < 3.
Proof. split; [vm_compute; reflexivity|lia]. Qed.
Example C69_ex : target_q true true [[qn 1; qn 2]] [[qn 1; qn 9]] (Some [[true; false]]) = Ok [qn 1].
Proof. vm_compute. reflexivity. Qed.
Example C70_ex : let q := qqueue 4 [qt 1 false false; qt 2 false false; qt 3 false false] in
  map (nstep_reached q 1) [0; 1; 2] = [0; 1; 2] /\ nstep_reached q 2 2 = 2
  /\ map s_obs_next q = [Some 2; Some 3; Some 4].
Proof. vm_compute. repeat split. Qed.
