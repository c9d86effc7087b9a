(** * Callbacks of the high-level trainer: properties *)
From Verif Require Import Py PyLemmas Num TrainModel TrainSpec ExperModel CbkModel CbkSpec CbkProofs.
Import List ListNotations.
Open Scope Z_scope.
Open Scope list_scope.

(** C266. With the linear decay the k-th training collection is made with the eps of the schedule at the number of steps collected before, whatever the tests do. *)
Theorem C266_decay : forall c collect test buflen fuel n rp tit s' l eps final decay te eps0,
  run c collect test buflen fuel n rp (new_trainer tit) = (s', Ok l) -> c_train c = true -> 0 < decay ->
  exists us e, replay (Some (TcDecay eps final decay)) te (s_ev s') eps0 = (us, Ok e) /\
    Forall2 (fun k u => fst u = k /\ scheduled eps final decay (first_step c + sumz (fun j => cs_steps (collect j)) 0 k) (snd u)) (seq 0 (s_nc s')) (trains us).
Proof. exact C266_decay_lemma. Qed.
Print Assumptions C266_decay.

(** C266. With a constant eps for training every training collection is made with it. *)
Theorem C266_constant : forall c collect test buflen fuel n rp tit s' l q te eps0,
  run c collect test buflen fuel n rp (new_trainer tit) = (s', Ok l) -> c_train c = true ->
  exists us e, replay (Some (TcSetEps q)) te (s_ev s') eps0 = (us, Ok e) /\ trains us = map (fun k => (k, q)) (seq 0 (s_nc s')).
Proof. exact C266_constant_lemma. Qed.
Print Assumptions C266_constant.

(** C267. With a test callback every test is made with its eps, whatever the training does. *)
Theorem C267_tests_partial : forall c collect test buflen fuel n rp tit s' l tr q eps0 us e,
  run c collect test buflen fuel n rp (new_trainer tit) = (s', Ok l) -> c_train c = true ->
  replay tr (Some q) (s_ev s') eps0 = (us, Ok e) -> map (fun x => (snd (fst x), snd x)) (tests us) = map (fun k => (k, q)) (seq 0 (s_nt s')).
Proof. exact C267_tests_partial_lemma. Qed.
Print Assumptions C267_tests_partial.

(** C267. Without a test callback only the tests before the training are made with the eps of the policy: all others are made with the one set for training. *)
Theorem C267_no_callback_refuted : forall c collect test buflen fuel n rp tit s' l q eps0,
  run c collect test buflen fuel n rp (new_trainer tit) = (s', Ok l) -> c_train c = true ->
  exists us e, replay (Some (TcSetEps q)) None (s_ev s') eps0 = (us, Ok e) /\
    forall w k x, In (w, k, x) (tests us) -> x = match w with TInit => eps0 | _ => q end.
Proof. exact C267_no_callback_refuted_lemma. Qed.
Print Assumptions C267_no_callback_refuted.

(** C268. With a test callback and no train callback every training collection is made with the eps of the tests; the eps of the policy is never used. *)
Theorem C268_test_only_refuted : forall c collect test buflen fuel n rp tit s' l q eps0,
  run c collect test buflen fuel n rp (new_trainer tit) = (s', Ok l) -> c_train c = true -> c_test c = true ->
  exists us, replay None (Some q) (s_ev s') eps0 = (us, Ok q) /\ trains us = map (fun k => (k, q)) (seq 0 (s_nc s')).
Proof. exact C268_test_only_refuted_lemma. Qed.
Print Assumptions C268_test_only_refuted.

(** C268. Without any callback every collection uses the eps of the policy. *)
Theorem C268_none_partial : forall c collect test buflen fuel n rp tit s' l eps0,
  run c collect test buflen fuel n rp (new_trainer tit) = (s', Ok l) -> c_train c = true ->
  exists us, replay None None (s_ev s') eps0 = (us, Ok eps0) /\ trains us = map (fun k => (k, eps0)) (seq 0 (s_nc s')).
Proof. exact C268_none_partial_lemma. Qed.
Print Assumptions C268_none_partial.

(** C269. In every epoch train_fn is called once before each collection, with the epoch and the steps collected so far. *)
Theorem C269_calls_partial : forall c collect test buflen fuel s s' e,
  (s_iter s <= 0 -> s_stop s = false) -> c_train c = true -> next c collect test buflen fuel s = (s', Ok e) ->
  exists m l, (0 < m)%nat /\ s_ev s' = s_ev s ++ l /\ collections l = seq (s_nc s) m /\
    train_calls l = map (fun j => (e, s_env s + sumz (fun k => cs_steps (collect k)) (s_nc s) j)) (seq 0 m).
Proof. exact C269_calls_partial_lemma. Qed.
Print Assumptions C269_calls_partial.

(** C269. train_fn is not called once per epoch: with two collections in the first epoch it is called twice. *)
Theorem C269_once_refuted : exists c collect test buflen s' e,
  next c collect test buflen 5 (new_trainer true) = (s', Ok e) /\ train_calls (s_ev s') = [(1, 0); (1, 5)].
Proof. exact C269_once_refuted_lemma. Qed.
Print Assumptions C269_once_refuted.

(** C270. The stop callback accepts the mean rewards that reach the threshold given, or else the one of the environment; if there is none it raises for every value. *)
Theorem C270_threshold : forall threshold spec,
  (exists t, (threshold = Some t \/ threshold = None /\ spec = Some (Some t)) /\
     exists f, (forall q, should_stop threshold spec q = Ok (f q)) /\ forall q, f q = true <-> (t <= q)%Qc) \/
  threshold = None /\ (spec = None /\ (forall q, should_stop threshold spec q = Err AttributeError) \/
                      spec = Some None /\ forall q, should_stop threshold spec q = Err AssertionError).
Proof. exact C270_threshold_lemma. Qed.
Print Assumptions C270_threshold.

(** C271. A run stopped before the last epoch has reached the threshold in some test; if no test during training stopped it, in the first test with the best score. *)
Theorem C271_reached_partial : forall c collect test buflen fuel n rp tit s' l t f,
  run c collect test buflen fuel n rp (new_trainer tit) = (s', Ok l) ->
  c_stop c = Some f -> (forall q, f q = true <-> (t <= q)%Qc) -> c_resume c = None ->
  Z.of_nat (length l) < c_max_epoch c ->
  (t <= s_best_reward s')%Qc /\
  (c_test c = true -> ~ train_stopped c test (s_ev s') ->
   exists pre rest k, s_ev s' = pre ++ EResetCollectors :: rest /\ ~ In EResetCollectors rest /\
     is_best (fun k => ts_score (test k)) (c_save_best c) rest (s_best_epoch s') k /\ (t <= ts_mean (test k))%Qc).
Proof. exact C271_reached_partial_lemma. Qed.
Print Assumptions C271_reached_partial.

(** C271. When the test before the training reaches the threshold, the training stops after one epoch, however bad the later tests are. *)
Theorem C271_initial_refuted : forall c collect test buflen fuel n (rp : bool) tit s' l t f,
  run c collect test buflen fuel n rp (new_trainer tit) = (s', Ok l) ->
  c_test c = true -> c_stop c = Some f -> (forall q, f q = true <-> (t <= q)%Qc) -> c_resume c = None ->
  (forall k, ts_score (test k) = ts_mean (test k)) -> (t <= ts_mean (test (if rp then 1 else 0)%nat))%Qc ->
  l = [1].
Proof. exact C271_initial_refuted_lemma. Qed.
Print Assumptions C271_initial_refuted.

(** ** Examples *)
Definition ex_c (test : bool) (stop : option (Qc -> bool)) : config :=
  mkCfg Onpolicy 2 10 (Some 4) 1 true test true (Some 1) stop false None None.
Definition ex_collect : nat -> cstat := fun _ => mkC 5 1 0%Qc.
Definition ex_test : nat -> tstat := fun k => let q := match k with 0%nat | 1%nat => 1%Qc | _ => 0%Qc end in mkT q q q q.
Definition half : Qc := Q2Qc (1 # 2).
Definition ex_run test stop := run (ex_c test stop) ex_collect ex_test (fun _ => 5) 9 9 true (new_trainer false).
Example C266_ex : snd (ex_run true None) = Ok [1; 2] /\ s_nc (fst (ex_run true None)) = 4%nat /\
  map (fun u => (fst u, this (snd u))) (trains (fst (replay (Some (TcDecay 1%Qc half 10)) (Some 0%Qc) (s_ev (fst (ex_run true None))) 0%Qc)))
  = [(0%nat, 1%Q); (1%nat, 3 # 4); (2%nat, 1 # 2); (3%nat, 1 # 2)].
Proof. split; [vm_compute; reflexivity|]. split; vm_compute; reflexivity. Qed.
Example C267_ex :
  map (fun u => (fst u, this (snd u))) (tests (fst (replay (Some (TcSetEps half)) None (s_ev (fst (ex_run true None))) 0%Qc)))
  = [(TInit, 0%nat, 0%Q); (TInit, 1%nat, 0%Q); (TStep, 2%nat, 1 # 2); (TStep, 3%nat, 1 # 2)].
Proof. vm_compute. reflexivity. Qed.
Example C268_ex :
  map (fun u => this (snd u)) (trains (fst (replay None (Some 0%Qc) (s_ev (fst (ex_run true None))) half))) = [0%Q; 0%Q; 0%Q; 0%Q] /\
  map (fun u => this (snd u)) (trains (fst (replay None None (s_ev (fst (ex_run false None))) half))) = [1 # 2; 1 # 2; 1 # 2; 1 # 2].
Proof. split; vm_compute; reflexivity. Qed.
Example C269_ex : exists s' e, next (ex_c false None) ex_collect ex_test (fun _ => 5) 9 (new_trainer false) = (s', Ok e) /\ collections (s_ev s') = [0; 1]%nat.
Proof. eexists _, _. split; [vm_compute; reflexivity|]. vm_compute. reflexivity. Qed.
Example C270_ex : should_stop None (Some (Some half)) half = Ok true /\ should_stop (Some 1%Qc) None half = Ok false.
Proof. split; reflexivity. Qed.
Example C271_ex : snd (ex_run true (Some (Qcleb half))) = Ok [1] /\ (half <= ts_mean (ex_test 1))%Qc /\ (ts_mean (ex_test 2) < half)%Qc.
Proof. split; [vm_compute; reflexivity|]. split; vm_compute; [discriminate | reflexivity]. Qed.
