(** * Properties C328-C329: resuming a training *)
From Verif Require Import Py Num TrainModel TrainSpec TrainProofs CompSpec RsmSpec RsmProofs.
Open Scope Z_scope.

(** C328. A training without stop function that ended after epoch [k] and is resumed from what was saved last performs the remaining
    epochs: in both parts together the same epochs, collections, calls of train_fn, updates and saved counters as the training in one go, up to the same counters. *)
Theorem C328_resume : forall (c : config) (k E : Z) collect test test2 buflen fuel n1 n2 (rp tit : bool) s1 s2 l1 l2,
  c_stop c = None -> c_resume c = None -> (1 <= k)%Z -> (k < E)%Z ->
  run (with_epochs c k) collect test buflen fuel n1 rp (new_trainer tit) = (s1, Ok l1) ->
  run (with_resume (with_epochs c E) (last_saved (s_ev s1))) (fun j => collect (s_nc s1 + j)%nat) test2 (fun j => buflen (s_nc s1 + j)%nat) fuel n2 rp (new_trainer tit) = (s2, Ok l2) ->
  exists n s, run (with_epochs c E) collect test buflen fuel n rp (new_trainer tit) = (s, Ok (l1 ++ l2)) /\
    s_env s = s_env s2 /\ s_grad s = s_grad s2 /\ s_nc s = (s_nc s1 + s_nc s2)%nat /\ training (s_ev s) = training (s_ev s1) ++ training (s_ev s2).
Proof. exact C328_resume_lemma. Qed.
Print Assumptions C328_resume.

(** C329. A resumed training saves as the best policy the best since it was resumed: if the policy it starts with is at least as good as the best before, so is what is saved and reported in the end. *)
Theorem C329_since_partial : forall (c : config) (e n g : Z) collect test buflen fuel m (rp : bool) s s2 l2 (B : Qc), (0 <= e)%Z ->
  c_stop c = None -> c_test c = true -> c_resume c = Some (e, n, g) -> run c collect test buflen fuel m rp s = (s2, Ok l2) ->
  (forall k, In (ETest TInit e k) (s_ev s2) -> (B <= ts_score (test k))%Qc) -> (B <= s_best_score s2)%Qc.
Proof. exact C329_since_partial_lemma. Qed.
Print Assumptions C329_since_partial.

(** C329. Not the best of all: when resuming, save_best_fn is called for the current policy, whatever was saved before, and if all tests since then are worse than the best before, so is the policy saved and the best score reported in the end. *)
Theorem C329_best_refuted : forall (c : config) (e n g : Z) collect test buflen fuel m (rp : bool) s s2 l2 (B : Qc), (0 <= e)%Z ->
  c_stop c = None -> c_test c = true -> c_save_best c = true -> c_resume c = Some (e, n, g) -> run c collect test buflen fuel m rp s = (s2, Ok l2) ->
  (forall k, (ts_score (test k) < B)%Qc) ->
  (s_best_score s2 < B)%Qc /\ exists pre rest k, s_ev s2 = pre ++ EResetCollectors :: ETest TInit e k :: ESaveBest :: rest.
Proof. exact C329_best_refuted_lemma. Qed.
Print Assumptions C329_best_refuted.

(** Two of four epochs, and the rest. *)
Definition ex_scores (k : nat) : tstat := match k with 3%nat => mkT (qz 8) (qz 8) (qz 8) (qz 8) | _ => mkT (qz 2) (qz 2) (qz 2) (qz 2) end.
Definition ex_part1 := run (with_epochs (cfg0 Offpolicy None) 2) ones ex_scores (fun _ => 10) 10 10 true (new_trainer true).
Definition ex_part2 := run (with_resume (with_epochs (cfg0 Offpolicy None) 4) (last_saved (s_ev (fst ex_part1)))) (fun j => ones (s_nc (fst ex_part1) + j)%nat) tests0 (fun _ => 10) 10 10 true (new_trainer true).
Example C328_ex : snd ex_part1 = Ok [1; 2] /\ last_saved (s_ev (fst ex_part1)) = Some (2, 20, 20) /\ snd ex_part2 = Ok [3; 4] /\
  s_env (fst ex_part2) = 40 /\ s_grad (fst ex_part2) = 40 /\ length (training (s_ev (fst ex_part2))) = 26%nat.
Proof. vm_compute. repeat split; reflexivity. Qed.
(** The best score before was 8, all tests after give less. *)
Example C329_ex : c_save_best (cfg0 Offpolicy None) = true /\ this (s_best_score (fst ex_part1)) = 8%Q /\ (s_best_score (fst ex_part2) < qz 8)%Qc /\ (forall k, (ts_score (tests0 k) < qz 8)%Qc)
  /\ In ESaveBest (s_ev (fst ex_part2)).
Proof. split; [reflexivity|]. split; [vm_compute; reflexivity|]. split; [vm_compute; reflexivity|]. split; [intro k; vm_compute; reflexivity|]. vm_compute. auto 20. Qed.
