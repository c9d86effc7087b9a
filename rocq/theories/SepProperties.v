(** * Properties C348-C349: collecting from several environments is collecting from each *)
From Verif Require Import Py BufferModel BufferSpec ManagerModel ManagerSpec CollectModel CollectSpec SepSpec SepProofs.
Open Scope nat_scope.

(** C348.  Any number of n_step collections with a policy that acts row by row, from N environments together and from
    one of them alone with the N-th part of the steps (rounded up): the environment ends in the same state with the same
    observation, and its sub-buffer holds what the buffer of the environment alone holds. *)
Theorem C348_data : forall (Ob A B Inf R H ES PS H1 PS1 : Type) (r0 : R) (radd : R -> R -> R) (last_frame : Ob -> Ob) (o : opts)
  (estep : nat -> ES -> B -> ES * sres Ob Inf R) (ereset : nat -> ES -> ES * (Ob * Inf))
  (act_fn : PS -> list nat -> list Ob -> list Inf -> option (list H) -> PS * (list (A * B) * option (list H)))
  (act_fn1 : PS1 -> list nat -> list Ob -> list Inf -> option (list H1) -> PS1 * (list (A * B) * option (list H1)))
  (hreset : list nat -> list H -> list H) (hreset1 : list nat -> list H1 -> list H1) (hook hook1 : list (row_out Ob A Inf R) -> bool)
  (f : nat -> Ob -> A * B) ns ops (c c' : coll Ob A Inf R H ES PS) ls fuel e n ops1 (c1 c1' : coll Ob A Inf R H1 ES PS1) ls1 fuel1 js ks,
  by_rows f act_fn -> by_rows (fun _ => f e) act_fn1 ->
  coll_ok r0 radd last_frame o ns ops c -> coll_ok r0 radd last_frame o [n] ops1 c1 -> same_env ns ops c e n ops1 c1 ->
  Forall2 (fun j k => length (c_envs c) * k < S j <= length (c_envs c) * S k) js ks ->
  collects (fun a b => collect r0 radd last_frame o estep ereset act_fn hreset hook fuel a b false) (map Steps js) c = Ok (c', ls) ->
  collects (fun a b => collect r0 radd last_frame o (fun _ => estep e) (fun _ => ereset e) act_fn1 hreset1 hook1 fuel1 a b false) (map Steps ks) c1 = Ok (c1', ls1) ->
  nth_error (c_envs c') e = nth_error (c_envs c1') 0 /\ pre_obs c' e = pre_obs c1' 0
  /\ nth_error (m_bufs (c_mgr c')) e = nth_error (m_bufs (c_mgr c1')) 0
  /\ slice (off ns e) n (meta_rows (list_sum ns) (m_meta (c_mgr c'))) = slice 0 n (meta_rows n (m_meta (c_mgr c1'))).
Proof. exact C348_data_lemma. Qed.
Print Assumptions C348_data.

(** C348.  The statistics of a collection from N environments are those of the N collections from one each, in some order:
    numbers of steps and episodes are the sums, and the reported returns, lengths and rows the same.  (For episodes that
    fit into the sub-buffers.) *)
Theorem C348_stats : forall (Ob A B Inf R H ES PS H1 PS1 : Type) (r0 : R) (radd : R -> R -> R) (last_frame : Ob -> Ob) (o : opts)
  (estep : nat -> ES -> B -> ES * sres Ob Inf R) (ereset : nat -> ES -> ES * (Ob * Inf))
  (act_fn : PS -> list nat -> list Ob -> list Inf -> option (list H) -> PS * (list (A * B) * option (list H)))
  (act_fn1 : nat -> PS1 -> list nat -> list Ob -> list Inf -> option (list H1) -> PS1 * (list (A * B) * option (list H1)))
  (hreset : list nat -> list H -> list H) (hreset1 : list nat -> list H1 -> list H1) (hook hook1 : list (row_out Ob A Inf R) -> bool)
  (f : nat -> Ob -> A * B) ns ops (c c' : coll Ob A Inf R H ES PS) l fuel j k
  (sizes : nat -> nat) (hist : nat -> list (mop Ob A Inf R)) (cs cs' : nat -> coll Ob A Inf R H1 ES PS1) (ls : nat -> loop Ob A B Inf R H1 ES PS1) fuel1,
  let N := length (c_envs c) in
  by_rows f act_fn -> coll_ok r0 radd last_frame o ns ops c -> N * k < S j <= N * S k ->
  collect r0 radd last_frame o estep ereset act_fn hreset hook fuel (Some (S j)) None false c = Ok (c', l) ->
  (forall e, e < N -> by_rows (fun _ => f e) (act_fn1 e) /\ coll_ok r0 radd last_frame o [sizes e] (hist e) (cs e) /\ same_env ns ops c e (sizes e) (hist e) (cs e)
     /\ collect r0 radd last_frame o (fun _ => estep e) (fun _ => ereset e) (act_fn1 e) hreset1 hook1 fuel1 (Some (S k)) None false (cs e) = Ok (cs' e, ls e)) ->
  (forall e s ob n ep, nth_error (c_envs c) e = Some s -> pre_obs c e = Some ob -> nth_error ns e = Some n ->
     In ep (finished (in_progress ns ops e) (follow (estep e) (ereset e) (f e) s ob (S k))) -> length (fst ep) < n) ->
  Permutation (reported l) (concat (map (fun e => reported (ls e)) (seq 0 N)))
  /\ st_steps (l_stats l) = list_sum (map (fun e => st_steps (l_stats (ls e))) (seq 0 N))
  /\ st_episodes (l_stats l) = list_sum (map (fun e => st_episodes (l_stats (ls e))) (seq 0 N)).
Proof. exact C348_stats_lemma. Qed.
Print Assumptions C348_stats.

(** C349.  Asked for at most as many episodes as there are environments, with a policy that acts row by row, the collector takes
    exactly one episode of each of the first environments, however long: what is stored for it and the state it is left in are those
    of collecting one episode from the environment alone. *)
Theorem C349_episode : forall (Ob A B Inf R H ES PS H1 PS1 : Type) (r0 : R) (radd : R -> R -> R) (last_frame : Ob -> Ob) (o : opts)
  (estep : nat -> ES -> B -> ES * sres Ob Inf R) (ereset : nat -> ES -> ES * (Ob * Inf))
  (act_fn : PS -> list nat -> list Ob -> list Inf -> option (list H) -> PS * (list (A * B) * option (list H)))
  (act_fn1 : PS1 -> list nat -> list Ob -> list Inf -> option (list H1) -> PS1 * (list (A * B) * option (list H1)))
  (hreset : list nat -> list H -> list H) (hreset1 : list nat -> list H1 -> list H1) (hook hook1 : list (row_out Ob A Inf R) -> bool)
  (f : nat -> Ob -> A * B) ns ops (c c' : coll Ob A Inf R H ES PS) l fuel e n ops1 (c1 c1' : coll Ob A Inf R H1 ES PS1) l1 fuel1 k,
  by_rows f act_fn -> by_rows (fun _ => f e) act_fn1 ->
  coll_ok r0 radd last_frame o ns ops c -> coll_ok r0 radd last_frame o [n] ops1 c1 -> same_env ns ops c e n ops1 c1 ->
  e <= k -> S k <= length (c_envs c) ->
  collect r0 radd last_frame o estep ereset act_fn hreset hook fuel None (Some (S k)) false c = Ok (c', l) ->
  collect r0 radd last_frame o (fun _ => estep e) (fun _ => ereset e) act_fn1 hreset1 hook1 fuel1 None (Some 1) false c1 = Ok (c1', l1) ->
  nth_error (c_envs c') e = nth_error (c_envs c1') 0 /\ pre_obs c' e = pre_obs c1' 0
  /\ nth_error (m_bufs (c_mgr c')) e = nth_error (m_bufs (c_mgr c1')) 0
  /\ slice (off ns e) n (meta_rows (list_sum ns) (m_meta (c_mgr c'))) = slice 0 n (meta_rows n (m_meta (c_mgr c1'))).
Proof. exact C349_episode_lemma. Qed.
Print Assumptions C349_episode.

(** ** Non-vacuity *)
(** Environments with episodes of 2, 1 and 3 and of 3, 1 and 2 steps. *)
Definition two := demo_coll [5; 4] [[2; 1; 3; 2]; [3; 1; 2; 2]].
Definition second := demo_coll [4] [[3; 1; 2; 2]].
Definition first := demo_coll [5] [[2; 1; 3; 2]].
Example C348_ex_rows : by_rows (fun _ _ => (tt, tt)) demo_act /\ demo_ok [5; 4] [] two /\ demo_ok [4] [] second /\ same_env [5; 4] [] two 1 4 [] second.
Proof.
  split; [intros p ids obs inf hid L; cbn; revert obs L; induction ids as [|i ids IH]; intros [|x obs] L; try discriminate; [reflexivity|]; cbn [map combine]; f_equal; apply IH; cbn in L; congruence|].
  split; [|split; [|repeat split; cbn; auto]].
  - split; [intros n [<-|[<-|[]]]; lia|]. split; [cbn; lia|]. split; [cbn; lia|]. split; [eexists; reflexivity|]. do 2 eexists. split; [reflexivity|]. split; reflexivity.
  - split; [intros n [<-|[]]; lia|]. split; [cbn; lia|]. split; [cbn; lia|]. split; [eexists; reflexivity|]. do 2 eexists. split; [reflexivity|]. split; reflexivity.
Qed.
Example C348_ex : match collects (fun a b => demo_collect HArray 20 a b false) (map Steps [4; 2]) two, collects (fun a b => demo_collect HArray 20 a b false) (map Steps [2; 1]) second with
  | Ok (c, _), Ok (c1, _) => nth_error (m_bufs (c_mgr c)) 1 = nth_error (m_bufs (c_mgr c1)) 0 /\ nth_error (c_envs c) 1 = nth_error (c_envs c1) 0
      /\ map (option_map (@s_obs _ _ _ _)) (slice 5 4 (meta_rows 9 (m_meta (c_mgr c)))) = [Some 0; Some 1; Some 2; Some 0]
      /\ option_map (@size _) (nth_error (m_bufs (c_mgr c1)) 0) = Some 4 /\ option_map (@ins _) (nth_error (m_bufs (c_mgr c1)) 0) = Some 1
  | _, _ => False end.
Proof. vm_compute. repeat split. Qed.
Example C348_ex_stats : match demo_collect HArray 20 (Some 8) None false two, demo_collect HArray 20 (Some 4) None false first, demo_collect HArray 20 (Some 4) None false second with
  | Ok (_, l), Ok (_, l0), Ok (_, l1) => map fst (reported l) = [(2%Z, 2); (1%Z, 1); (3%Z, 3); (1%Z, 1)] /\ map fst (reported l0) = [(2%Z, 2); (1%Z, 1)] /\ map fst (reported l1) = [(3%Z, 3); (1%Z, 1)]
  | _, _, _ => False end.
Proof. vm_compute. repeat split. Qed.
Example C349_ex : match demo_collect HArray 20 None (Some 2) false two, demo_collect HArray 20 None (Some 1) false second with
  | Ok (c, l), Ok (c1, l1) => nth_error (m_bufs (c_mgr c)) 1 = nth_error (m_bufs (c_mgr c1)) 0 /\ map fst (reported l) = [(2%Z, 2); (3%Z, 3)] /\ map fst (reported l1) = [(3%Z, 3)]
      /\ nth_error (c_envs c) 1 = nth_error (c_envs c1) 0
  | _, _ => False end.
Proof. vm_compute. repeat split. Qed.
