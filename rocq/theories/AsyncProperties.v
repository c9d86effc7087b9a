(** * Properties C103-C109: AsyncCollector *)
From Verif Require Import Py Num BufferModel BufferSpec ManagerModel ManagerSpec CollectModel CollectSpec AsyncModel AsyncSpec AsyncProofs.
From Verif Require VenvModel.
Open Scope nat_scope.

(** For every order in which the environments answer and every sequence of calls of collect after a
    reset: what is stored for an environment is what this environment, on its own, does with the
    actions that the policy answered for it; the observation, the action (as a float) and the hidden
    state in a row belong together; one action is outstanding exactly in the environments that still
    run, and for it the policy was shown the current observation. *)
Theorem C103_joined : forall (Ob A B Inf R H ES PS : Type) (r0 : R) (radd : R -> R -> R) (last_frame : Ob -> Ob) (o : opts)
  (estep : ES -> B -> ES * sres Ob Inf R) (ereset : ES -> ES * (Ob * Inf)) (dummy : bool)
  (act_fn : PS -> list nat -> list Ob -> list Inf -> option (list H) -> PS * (list (A * B) * option (list H)))
  (hreset : list nat -> list H -> list H) (hzero : H -> H) (cell : A -> res A) (fl : A -> A)
  envs ns ops (c1 c2 : acoll Ob A B Inf R H ES PS) calls ls,
  stateful act_fn -> (forall a b, cell a = Ok b -> b = fl a) -> (forall idx h, length (hreset idx h) = length h) ->
  just_reset r0 radd last_frame o estep ereset dummy envs ns ops c1 ->
  a_collects (a_collect r0 radd last_frame o estep ereset dummy act_fn hreset hzero cell) calls c1 = Ok (c2, ls) ->
  let replies := map (reply fl) (concat (map (@n_calls _ _ _ _ _ _ _ _) ls)) in
  exists rounds, (exists outs, m_run r0 radd last_frame o (m_init r0 ns) (ops ++ as_adds rounds) = Ok (a_mgr c2, outs))
  /\ (forall rd, In rd rounds -> NoDup (fst rd) /\ length (snd rd) = length (fst rd) /\ forall e, In e (fst rd) -> e < length envs)
  /\ forall e s ob, env_of c1 e = Some s -> obs_of c1 e = Some ob ->
       let n := length (parts e rounds) in
       let past := firstn n (answered e replies) in
       parts e rounds = solo (fun _ => estep) (fun _ => ereset) e s ob past
       /\ shown e replies = firstn (length (answered e replies)) (map (@t_obs _ _ _ _) (parts e rounds) ++ [snd (solo_end (fun _ => estep) (fun _ => ereset) e s ob past)])
       /\ (running c2 e -> length (answered e replies) = S n) /\ (~ running c2 e -> length (answered e replies) = n).
Proof. exact C103_joined_lemma. Qed.
Print Assumptions C103_joined.

(** The hidden state that the policy is given for an environment: none at first, then the one it
    answered last for this environment, zeroed if the episode ended in between. *)
Theorem C109_hidden : forall (Ob A B Inf R H ES PS : Type) (r0 : R) (radd : R -> R -> R) (last_frame : Ob -> Ob) (o : opts)
  (estep : ES -> B -> ES * sres Ob Inf R) (ereset : ES -> ES * (Ob * Inf)) (dummy : bool)
  (act_fn : PS -> list nat -> list Ob -> list Inf -> option (list H) -> PS * (list (A * B) * option (list H)))
  (k : hkind) (zero : H -> H) (hzero : H -> H) (cell : A -> res A) (fl : A -> A)
  envs ns ops (c1 c2 : acoll Ob A B Inf R H ES PS) calls ls,
  stateful act_fn -> (forall a b, cell a = Ok b -> b = fl a) -> k <> HTensor ->
  just_reset r0 radd last_frame o estep ereset dummy envs ns ops c1 ->
  a_collects (a_collect r0 radd last_frame o estep ereset dummy act_fn (reset_hidden k zero) hzero cell) calls c1 = Ok (c2, ls) ->
  forall e s ob, env_of c1 e = Some s -> obs_of c1 e = Some ob ->
  let mine := answered e (map (reply fl) (concat (map (@n_calls _ _ _ _ _ _ _ _) ls))) in
  given e (concat (map (@n_calls _ _ _ _ _ _ _ _) ls))
  = firstn (length mine) (None :: map (fun x => let h := snd (fst (snd x)) in Some (if ends (fst x) then zero h else h))
                                      (combine (solo (fun _ => estep) (fun _ => ereset) e s ob mine) mine)).
Proof. exact C109_hidden_lemma. Qed.
Print Assumptions C109_hidden.

(** What a call of collect counts and reports. *)
Theorem C108_counts : forall (Ob A B Inf R H ES PS : Type) (r0 : R) (radd : R -> R -> R) (last_frame : Ob -> Ob) (o : opts)
  (estep : ES -> B -> ES * sres Ob Inf R) (ereset : ES -> ES * (Ob * Inf)) (dummy : bool)
  (act_fn : PS -> list nat -> list Ob -> list Inf -> option (list H) -> PS * (list (A * B) * option (list H)))
  (hreset : list nat -> list H -> list H) (hzero : H -> H) (cell : A -> res A) (fl : A -> A)
  envs ns ops (c1 c2 c3 : acoll Ob A B Inf R H ES PS) calls ls t sched l,
  stateful act_fn -> (forall a b, cell a = Ok b -> b = fl a) -> (forall idx h, length (hreset idx h) = length h) ->
  just_reset r0 radd last_frame o estep ereset dummy envs ns ops c1 ->
  a_collects (a_collect r0 radd last_frame o estep ereset dummy act_fn hreset hzero cell) calls c1 = Ok (c2, ls) ->
  a_collect r0 radd last_frame o estep ereset dummy act_fn hreset hzero cell sched (by_steps t) (by_episodes t) c2 = Ok (c3, l) ->
  let N := length envs in
  exists before rounds, (exists outs, m_run r0 radd last_frame o (m_init r0 ns) (ops ++ as_adds before) = Ok (a_mgr c2, outs))
  /\ (exists outs, m_run r0 radd last_frame o (m_init r0 ns) (ops ++ as_adds (before ++ rounds)) = Ok (a_mgr c3, outs))
  /\ match t with Steps n => n < n_steps l <= n + N | Episodes k => k < n_eps l <= k + N end
  /\ n_steps l = list_sum (map (fun e => length (parts e rounds)) (seq 0 N)) /\ n_eps l = num_ends N rounds
  /\ a_step c3 = a_step c2 + n_steps l /\ a_episode c3 = a_episode c2 + n_eps l
  /\ length (n_lens l) = n_eps l /\ length (n_returns l) = n_eps l
  /\ forall e, e < N -> let eps := finished (open_episode (proj (length ns) e (ops ++ as_adds before))) (parts e rounds) in
       part e (enders rounds, n_returns l) = map (fun ep => total r0 radd (snd ep)) eps /\ part e (enders rounds, n_lens l) = map (fun ep => length (snd ep)) eps.
Proof. exact C108_counts_lemma. Qed.
Print Assumptions C108_counts.

(** A policy without hidden state (or random collection), on a collector that has seen no hidden
    state: no call of collect returns. *)
Theorem C104_never_partial : forall (Ob A B Inf R H ES PS : Type) (r0 : R) (radd : R -> R -> R) (last_frame : Ob -> Ob) (o : opts)
  (estep : ES -> B -> ES * sres Ob Inf R) (ereset : ES -> ES * (Ob * Inf)) (dummy : bool)
  (act_fn : PS -> list nat -> list Ob -> list Inf -> option (list H) -> PS * (list (A * B) * option (list H)))
  (hreset : list nat -> list H -> list H) (hzero : H -> H) (cell : A -> res A)
  (c : acoll Ob A B Inf R H ES PS) sched n_step n_episode x,
  (forall p ids obs inf hid, snd (snd (act_fn p ids obs inf hid)) = None) -> a_hid c = None ->
  a_collect r0 radd last_frame o estep ereset dummy act_fn hreset hzero cell sched n_step n_episode c <> Ok x.
Proof. exact C104_never_partial_lemma. Qed.
Print Assumptions C104_never_partial.

(** With float or integer actions the stored rows are the actions, as floats. *)
Theorem C105_scalar_partial : forall (Ob B Inf R H ES PS : Type) (r0 : R) (radd : R -> R -> R) (last_frame : Ob -> Ob) (o : opts)
  (estep : ES -> B -> ES * sres Ob Inf R) (ereset : ES -> ES * (Ob * Inf)) (dummy : bool)
  (act_fn : PS -> list nat -> list Ob -> list Inf -> option (list H) -> PS * (list (action * B) * option (list H)))
  (hreset : list nat -> list H -> list H) (hzero : H -> H)
  envs ns ops (c1 c2 : acoll Ob action B Inf R H ES PS) calls ls,
  stateful act_fn -> (forall idx h, length (hreset idx h) = length h) ->
  just_reset r0 radd last_frame o estep ereset dummy envs ns ops c1 ->
  a_collects (a_collect r0 radd last_frame o estep ereset dummy act_fn hreset hzero to_cell) calls c1 = Ok (c2, ls) ->
  exists rounds, (exists outs, m_run r0 radd last_frame o (m_init r0 ns) (ops ++ as_adds rounds) = Ok (a_mgr c2, outs))
  /\ forall e s ob, env_of c1 e = Some s -> obs_of c1 e = Some ob ->
       let n := length (parts e rounds) in
       map (fun t => fst (t_act t)) (parts e rounds) = firstn n (map (fun x => as_float (fst (fst x))) (answered e (map (reply (fun a => a)) (concat (map (@n_calls _ _ _ _ _ _ _ _) ls))))).
Proof. exact C105_scalar_partial_lemma. Qed.
Print Assumptions C105_scalar_partial.

(** Workers in processes of their own, no timeout, at least half of the environments awaited: the
    collector can be reset after any calls of collect, and then no environment is running. *)
Theorem C106_reset_partial : forall (Ob A B Inf R H ES PS : Type) (r0 : R) (radd : R -> R -> R) (last_frame : Ob -> Ob) (o : opts)
  (estep : ES -> B -> ES * sres Ob Inf R) (ereset : ES -> ES * (Ob * Inf))
  (act_fn : PS -> list nat -> list Ob -> list Inf -> option (list H) -> PS * (list (A * B) * option (list H)))
  (hreset : list nat -> list H -> list H) (hzero : H -> H) (cell : A -> res A) (fl : A -> A)
  envs ns ops (c1 c2 : acoll Ob A B Inf R H ES PS) calls ls rounds junk rb,
  stateful act_fn -> (forall a b, cell a = Ok b -> b = fl a) -> (forall idx h, length (hreset idx h) = length h) ->
  just_reset r0 radd last_frame o estep ereset false envs ns ops c1 ->
  VenvModel.timed (a_venv c1) = false -> length envs <= 2 * VenvModel.wait_num (a_venv c1) ->
  a_collects (a_collect r0 radd last_frame o estep ereset false act_fn hreset hzero cell) calls c1 = Ok (c2, ls) ->
  a_reset r0 estep ereset false rounds junk rb c2 = Err OutOfFuel
  \/ exists c3, a_reset r0 estep ereset false rounds junk rb c2 = Ok c3 /\ (forall e, ~ running c3 e) /\ a_ready c3 = seq 0 (length envs)
     /\ a_mgr c3 = (if rb then m_reset r0 false (a_mgr c2) else a_mgr c2) /\ a_step c3 = 0 /\ a_episode c3 = 0.
Proof. exact C106_reset_partial_lemma. Qed.
Print Assumptions C106_reset_partial.

(** Collection with a policy that has no hidden state fails in the first round. *)
Theorem C104_stateless_refuted : exists c, ademo_just_reset false lens3 [6; 6; 6] [] c
  /\ (exists r, ademo_collect (AFloat 1%Qc) true false sched3 (Some 5) None c = Ok r)
  /\ ademo_collect (AFloat 1%Qc) false false sched3 (Some 5) None c = Err IndexError.
Proof. exact C104_stateless_refuted_lemma. Qed.
Print Assumptions C104_stateless_refuted.

(** Actions that are arrays fail; integers come back as floats. *)
Theorem C105_actions_refuted : exists c, ademo_just_reset false lens3 [6; 6; 6] [] c
  /\ ademo_collect (AVec [1%Qc; 0%Qc]) true false sched3 (Some 5) None c = Err ValueError
  /\ exists c' l, ademo_collect (AInt 1) true false sched3 (Some 5) None c = Ok (c', l)
     /\ map fst (concat (map (fun x => snd (fst x)) (n_calls l))) = repeat (AInt 1) 7
     /\ option_map (fun rows => map (fun s => option_map (fun s => fst (s_act s)) s) (firstn 3 rows)) (m_meta (a_mgr c')) = Some [Some (AFloat 1%Qc); Some (AFloat 1%Qc); None].
Proof. exact C105_actions_refuted_lemma. Qed.
Print Assumptions C105_actions_refuted.

(** After a call of collect the collector cannot be reset: with worker processes of which fewer than
    half are awaited, and with workers in the same process. *)
Theorem C106_reset_refuted :   (exists c c' l, ademo_just_reset false lens3 [6; 6; 6] [] c /\ ademo_collect (AFloat 1%Qc) true false [[Some [0]]] (Some 1) None c = Ok (c', l)
     /\ ademo_reset false c' [Some [1]] = Err AssertionError)
  /\ (exists c c' l, ademo_just_reset true (lens3 ++ lens3) [6; 6; 6; 6; 6; 6] [] c /\ ademo_collect (AFloat 1%Qc) true true [[]; []] (Some 1) None c = Ok (c', l)
     /\ ademo_reset true c' [] = Err AssertionError).
Proof. exact C106_reset_refuted_lemma. Qed.
Print Assumptions C106_reset_refuted.

(** After reset_env the next collect shows the policy observations from before, and only steps the
    environments that were ready before: the others are never stepped again. *)
Theorem C107_reset_env_refuted : exists c c' l c2 obs c3 l3, ademo_just_reset false [[9; 9; 9]; [9; 9; 9]] [6; 6] [] c
  /\ ademo_collect (AFloat 1%Qc) true false [[Some [0]]; [Some [0]]] (Some 2) None c = Ok (c', l)
  /\ a_reset_env (demo_step 0) (demo_reset 0) false [Some [1]] c' = Ok (c2, obs) /\ map fst obs = [0; 0]
  /\ ademo_collect (AFloat 1%Qc) true false [[Some [0]]; [Some [0]]; [Some [0]]] (Some 3) None c2 = Ok (c3, l3)
  /\ map (fun x => fst (fst (fst x))) (n_calls l3) = [([0], [2]); ([0], [1]); ([0], [2])]
  /\ VenvModel.waiting_id (a_venv c3) = [].
Proof. exact C107_reset_env_refuted_lemma. Qed.
Print Assumptions C107_reset_env_refuted.

(** C104. A round in which the policy answers without hidden state while the collector holds hidden states: those of the environments
    that were sent an action and have not answered yet are emptied. *)
Theorem C104_emptied : forall (Ob A B Inf R H ES PS : Type) (r0 : R) (radd : R -> R -> R) (last_frame : Ob -> Ob) (o : opts)
  (estep : ES -> B -> ES * sres Ob Inf R) (ereset : ES -> ES * (Ob * Inf)) (dummy : bool)
  (act_fn : PS -> list nat -> list Ob -> list Inf -> option (list H) -> PS * (list (A * B) * option (list H)))
  (hreset : list nat -> list H -> list H) (hzero : H -> H) (cell : A -> res A)
  (l l' : arun Ob A B Inf R H ES PS) rounds hs i h,
  around r0 radd last_frame o estep ereset dummy act_fn hreset hzero cell rounds l = Ok l' ->
  snd (snd (act_fn (n_pol l) (n_ready l) (n_last_obs l) (n_last_inf l) (n_last_hid l))) = None ->
  n_hid l = Some hs -> NoDup (n_ready l) -> nth_error hs i = Some h -> ~ In i (n_ready l') ->
  exists hs', n_hid l' = Some hs' /\ nth_error hs' i = Some (if existsb (Nat.eqb i) (n_ready l) then hzero h else h).
Proof. exact C104_emptied_lemma. Qed.
Print Assumptions C104_emptied.

(** Two calls of collect on three environments of which two are awaited: the environments answer in
    changing orders and are asked for new actions in that order. *)
Definition ex_calls : list (target * list (list (option (list nat)))) :=
  [(Steps 4, sched3); (Episodes 1, [[Some [0; 2]]; [Some [1; 2]]; [Some [0; 1]]; [Some [0; 1]]; [Some [0; 1]]])].
Example C103_ex : exists c, ademo_just_reset false lens3 [6; 6; 6] [] c /\ stateful (ademo_act (AInt 1) true)
  /\ (forall a b, to_cell a = Ok b -> b = as_float a)
  /\ match a_collects (ademo_collect (AInt 1) true false) ex_calls c with
     | Ok (c2, ls) => map (fun l => (n_steps l, n_eps l, n_lens l)) ls = [(6, 2, [1; 2]); (6, 2, [4; 3])] /\ VenvModel.waiting_id (a_venv c2) = [2]%Z
         /\ map (fun x => (fst (fst (fst (fst x))))) (concat (map (@n_calls _ _ _ _ _ _ _ _) ls)) = [[0; 1; 2]; [0; 2]; [1; 0]; [2; 1]; [0; 2]; [1; 2]]
         /\ map (fun e => shown e (map (reply as_float) (concat (map (@n_calls _ _ _ _ _ _ _ _) ls)))) [0; 1; 2] = [[0; 1; 2; 3]; [0; 0; 1; 2]; [0; 1; 0; 1; 2]]
         /\ given 2 (concat (map (@n_calls _ _ _ _ _ _ _ _) ls)) = [None; Some 1; Some 0; Some 1; Some 2]
     | Err _ => False
     end.
Proof.
  destruct (ademo_start false 2 [6; 6; 6] lens3) as [c|] eqn:E; [|vm_compute in E; discriminate].
  exists c. split; [apply (ademo_is_reset false 2); [exact E|lia|cbn; lia|cbn; intuition lia|cbn; lia]|].
  split; [intros p ids obs inf hid; eexists; split; [reflexivity|rewrite map_length; apply seq_length]|].
  split; [intros [z|q|l] b X; inversion X; reflexivity|].
  vm_compute in E. injection E as <-. vm_compute. repeat split.
Qed.
(** An episode longer than the buffer of its environment is still reported in full. *)
Example C108_ex : exists c, ademo_just_reset false [[1; 5]; [1; 4]] [2; 3] [] c
  /\ match ademo_collect (AFloat 1%Qc) true false [[Some [0]]; [Some [0; 1]]; [Some [1; 0]]; [Some [0; 1]]; [Some [0; 1]]] None (Some 2) c with
     | Ok (c2, l) => n_steps l = 9 /\ n_lens l = [5; 4] /\ n_returns l = [5; 4]%Z /\ a_episode c2 = 2
     | Err _ => False
     end.
Proof.
  destruct (ademo_start false 1 [2; 3] [[1; 5]; [1; 4]]) as [c|] eqn:E; [|vm_compute in E; discriminate].
  exists c. split; [apply (ademo_is_reset false 1); [exact E|lia|cbn; lia|cbn; intuition lia|cbn; lia]|].
  vm_compute in E. injection E as <-. vm_compute. repeat split.
Qed.
(** Two of three environments are awaited: reset works. *)
Example C106_ex : exists c, ademo_just_reset false lens3 [6; 6; 6] [] c /\ VenvModel.timed (a_venv c) = false /\ VenvModel.wait_num (a_venv c) = 2
  /\ match a_collects (ademo_collect (AInt 1) true false) ex_calls c with
     | Ok (c2, ls) => match ademo_reset false c2 [Some [2]] with Ok c3 => VenvModel.waiting_id (a_venv c2) = [2]%Z /\ VenvModel.waiting_id (a_venv c3) = [] /\ a_cur c3 = Some ([0; 0; 0], [tt; tt; tt]) | Err _ => False end
     | Err _ => False
     end.
Proof.
  destruct (ademo_start false 2 [6; 6; 6] lens3) as [c|] eqn:E; [|vm_compute in E; discriminate].
  exists c. split; [apply (ademo_is_reset false 2); [exact E|lia|cbn; lia|cbn; intuition lia|cbn; lia]|].
  vm_compute in E. injection E as <-. vm_compute. repeat split.
Qed.
(** Environment 0 is sent an action and does not answer; the policy stops giving hidden states. *)
Example C104_emptied_ex :
  (let* c := ademo_start false 2 [6; 6; 6] [[9; 9]; [9; 9]; [9; 9]] in let* y := ademo_collect (AInt 1) true false sched3 (Some 4) None c in
   let* l := a_start (fst y) in
   let* l' := around 0%Z Z.add (fun x : nat => x) demo_opts (demo_step 0) (demo_reset 0) false (ademo_act (AInt 1) false) (reset_hidden HArray (fun _ => 0)) (fun _ => 0) to_cell [Some [2; 1]] l in
   Ok (n_ready l, n_hid l, n_ready l', n_hid l')) = Ok ([1; 0], Some [2; 1; 2], [2; 1], Some [0; 0; 2]).
Proof. vm_compute. reflexivity. Qed.
