(** * Modes, state dicts and noise: properties *)
From Verif Require Import Py PyLemmas Num NetModel ModeModel ModeSpec ModeProofs.
Open Scope nat_scope.

(** C228 (restricted to the classes whose [train] reaches their online networks and spares the targets): after any history [train(b)] puts every
    online network (and every curiosity model) into mode [b] and leaves every target network as it is. *)
Theorem C228_train_partial : forall (p : pol) (os : list op) (b : bool), built p ->
  (forall k, In k (kinds p) -> reaches_online k = true /\ spares_targets k = true) ->
  nets (train b (run os p)) = map (fun q => (fst q, if is_target (fst q) then snd q else b)) (nets (run os p)) /\
  icms (train b (run os p)) = map (fun _ => b) (icms (run os p)).
Proof. exact C228_train_partial_lemma. Qed.
Print Assumptions C228_train_partial.

(** C228.  Some networks are never switched: the fraction proposal network of FQF, the VAE of BCQ; and the flag of the multi-agent manager itself
    never changes, whatever is called on it. *)
Theorem C228_missed_refuted : forall (t : bool) (m : nname -> bool) (os : list op) (ps : list pol) (s : bool),
  mode_of Fraction (nets (run os (make (KFqf t) m))) = Some (m Fraction) /\ mode_of Vae (nets (run os (make KBcq m))) = Some (m Vae) /\
  self_of (run os (Mgr s ps)) = s.
Proof. exact C228_missed_refuted_lemma. Qed.
Print Assumptions C228_missed_refuted.

(** C229 (restricted to the classes without the defects below): whatever is called, the target networks are in evaluation mode, inside [collect] and
    [learn] as well as between them. *)
Theorem C229_targets_partial : forall (p : pol) (os : list op) (o : op), built p -> (forall k, In k (kinds p) -> keeps_targets k = true) ->
  forall n b, is_target n = true -> In (n, b) (nets (run os p)) \/ In (n, b) (nets (within o (run os p))) -> b = false.
Proof. exact C229_targets_partial_lemma. Qed.
Print Assumptions C229_targets_partial.

(** C229.  The targets of DiscreteCRR are in training mode whenever it learns; those of BCQ have the mode the networks were given in, always; the noisy
    target of Rainbow is in training mode ever after the first update. *)
Theorem C229_targets_refuted : forall (m : nname -> bool) (os os' : list op),
  mode_of ActorOld (nets (within Update (run os (make (KCrr true) m)))) = Some true /\
  mode_of CriticOld (nets (within Update (run os (make (KCrr true) m)))) = Some true /\
  mode_of CriticTarget (nets (run os (make KBcq m))) = Some (m Critic) /\
  mode_of PerturbTarget (nets (run os (make KBcq m))) = Some (m Perturb) /\
  mode_of ModelOld (nets (run (os ++ Update :: os') (make (KRainbow true true) m))) = Some true.
Proof. exact C229_targets_refuted_lemma. Qed.
Print Assumptions C229_targets_refuted.

(** C230 (restricted to the classes whose [train] reaches their online networks): whatever was called before, all online networks are in evaluation
    mode while actions are collected and in training mode while [learn] runs. *)
Theorem C230_within_partial : forall (p : pol) (os : list op), built p -> (forall k, In k (kinds p) -> reaches_online k = true) ->
  forall n b, is_target n = false ->
  (In (n, b) (nets (within Collect (run os p))) -> b = false) /\ (In (n, b) (nets (within Update (run os p))) -> b = true).
Proof. exact C230_within_partial_lemma. Qed.
Print Assumptions C230_within_partial.

(** C230 (restricted to policies without a multi-agent manager, after any first call): a [collect] changes no mode at all, and an update only that of a
    noisy target of Rainbow. *)
Theorem C230_restored_partial : forall (p : pol) (os : list op) (o : op), no_manager p = true ->
  act Collect (run (os ++ [o]) p) = run (os ++ [o]) p /\
  ((forall k, In k (kinds p) -> k <> KRainbow true true) -> act Update (run (os ++ [o]) p) = run (os ++ [o]) p).
Proof. exact C230_restored_partial_lemma. Qed.
Print Assumptions C230_restored_partial.

(** C230.  Through the manager: once put into evaluation mode, its sub-policies are in training mode after the next [collect]. *)
Theorem C230_manager_refuted : forall (s : bool) (ps : list pol), s = true ->
  run [Train false; Collect] (Mgr s ps) = run [Train true] (Mgr s ps).
Proof. exact C230_manager_refuted_lemma. Qed.
Print Assumptions C230_manager_refuted.

(** C231 (restricted to what is registered: parameters, buffers and submodules).  Loading the state dict of [a] into an object [b] with the same keys
    succeeds and gives [b] the state of [a]; attributes outside the state dict keep [b]'s values. *)
Theorem C231_round_trip_partial : forall (V : Type) (a b : obj V), map fst (state_dict [] a) = map fst (state_dict [] b) -> NoDup (map fst (state_dict [] a)) ->
  exists b', load_state_dict (state_dict [] a) b = Ok b' /\ state_dict [] b' = state_dict [] a /\ plains b' = plains b.
Proof. exact C231_round_trip_partial_lemma. Qed.
Print Assumptions C231_round_trip_partial.

(** C231.  The state dict has exactly the parameters and buffers of the object and of its submodules at any depth, each under its path. *)
Theorem C231_entries : forall (V : Type) (o : obj V) (p : list nat) (v : V), In (p, v) (state_dict [] o) <-> registered o p v.
Proof. exact C231_entries_lemma. Qed.
Print Assumptions C231_entries.

(** C231.  The multi-agent manager has no state at all: its state dict and its parameters are empty for all sub-policies, and loading changes none of
    them. *)
Theorem C231_manager_refuted : forall (V : Type) (ps ps' : list (nat * obj V)),
  state_dict [] (manager ps) = [] /\ parameters (manager ps) = [] /\ load_state_dict (state_dict [] (manager ps')) (manager ps) = Ok (manager ps).
Proof. exact C231_manager_refuted_lemma. Qed.
Print Assumptions C231_manager_refuted.

(** C231.  The temperature that SAC learns is not part of its state dict: after loading it is that of the object loaded into. *)
Theorem C231_temperature_refuted : forall (V : Type) (sd : list (list nat * V)) (nets : list (nat * obj V)) (log_alpha alpha : V) (o : obj V),
  state_dict [] (sac nets log_alpha alpha) = state_dict [] (Obj [] [] nets [] []) /\
  (load_state_dict sd (sac nets log_alpha alpha) = Ok o -> exists nets', o = sac nets' log_alpha alpha).
Proof. exact C231_temperature_refuted_lemma. Qed.
Print Assumptions C231_temperature_refuted.

(** C232.  A target network that follows by [soft_update] keeps the buffers it was created with, whatever the online network's become. *)
Theorem C232_buffers_refuted : forall (tau : Qc) (step : nat -> net -> net) (n i : nat) (online target online' target' : net),
  follow tau step n i online target = Ok (online', target') -> buf target' = buf target.
Proof. exact C232_buffers_refuted_lemma. Qed.
Print Assumptions C232_buffers_refuted.

(** C232 (restricted to networks whose buffers agree): with tau = 1 a soft update makes the target equal to the online network, as [sync] does. *)
Theorem C232_soft_partial : forall (tau : Qc) (tgt src : net), length (w tgt) = length (w src) -> buf tgt = buf src -> tau = 1%Qc ->
  soft_update tau tgt src = Ok (sync tgt src).
Proof. exact C232_soft_partial_lemma. Qed.
Print Assumptions C232_soft_partial.

(** C232.  A target network that follows by [load_state_dict] has parameters and buffers of the online network at once; a soft update gives the same
    network only if the buffers agreed before. *)
Theorem C232_sync : forall (tgt src : net), w (sync tgt src) = w src /\ buf (sync tgt src) = buf src /\
  (forall (tau : Qc) (t : net), soft_update tau tgt src = Ok t -> t = sync tgt src -> buf tgt = buf src).
Proof. exact C232_sync_lemma. Qed.
Print Assumptions C232_sync.

(** C233 (between synchronisations).  In the [i]-th update of a run the online network uses draws of its own, never used before, and the target network
    uses the weights the online network had at the last synchronisation, with draws that are neither those of the online network nor used before. *)
Theorem C233_fresh_partial : forall (len freq : nat) (upd : rb -> Qc) (n i : nat) (s : rb) (d : Qc * list nat * (Qc * list nat)), 0 < freq -> r_iter s = 0 -> i < n -> i mod freq <> 0 ->
  let '(rw, re, (tw, te)) := nth i (snd (rb_run len freq upd n s)) d in
  let '(rw0, _, _) := nth (i / freq * freq) (snd (rb_run len freq upd n s)) d in
  tw = rw0 /\ length re = len /\ length te = len /\ NoDup (re ++ te) /\ (forall e, In e (re ++ te) -> r_next s + 2 * len * i <= e < r_next s + 2 * len * (i + 1)).
Proof. exact C233_fresh_partial_lemma. Qed.
Print Assumptions C233_fresh_partial.

(** C233.  In every update that synchronises, the first one included, the target network has the weights and also the noise of the online network: the
    draws made for it are overwritten. *)
Theorem C233_sync_refuted : forall (len freq : nat) (upd : rb -> Qc) (n i : nat) (s : rb) (d : Qc * list nat * (Qc * list nat)), 0 < freq -> r_iter s = 0 -> i < n -> i mod freq = 0 ->
  fst (nth i (snd (rb_run len freq upd n s)) d) = snd (nth i (snd (rb_run len freq upd n s)) d).
Proof. exact C233_sync_refuted_lemma. Qed.
Print Assumptions C233_sync_refuted.

(** C233.  While data is collected the noise has no effect at all: the network is in evaluation mode, whatever was called before, and then a noisy layer
    gives the same output for all noise. *)
Theorem C233_collect_refuted : forall (t ny : bool) (m : nname -> bool) (os : list op) mu sg mb sb p q p' q' x,
  mode_of Model (nets (within Collect (run os (make (KRainbow t ny) m)))) = Some false /\
  noisy_forward false (mkNL mu sg mb sb p q) x = noisy_forward false (mkNL mu sg mb sb p' q') x.
Proof. exact C233_collect_refuted_lemma. Qed.
Print Assumptions C233_collect_refuted.

(** ** Examples *)
Definition ex_on : nname -> bool := fun _ => true.
Definition ex_pol : pol := Icm true (make KTwin ex_on) true.
Example C228_ex : built ex_pol /\ (forall k, In k (kinds ex_pol) -> reaches_online k = true /\ spares_targets k = true) /\
  nets (run [Train false; Collect] ex_pol) = [(Actor, false); (Critic, false); (Critic2, false); (ActorOld, false); (CriticOld, false); (Critic2Old, false)] /\
  nets (run [Train false; Update; Train true] ex_pol) = [(Actor, true); (Critic, true); (Critic2, true); (ActorOld, false); (CriticOld, false); (Critic2Old, false)] /\
  nets (run [Train false] (make (KFqf true) ex_on)) = [(Model, false); (Fraction, true); (ModelOld, false)].
Proof. split; [repeat constructor|]. split; [intros k [<-|[]]; split; reflexivity|]. repeat split. Qed.
Example C229_ex : built ex_pol /\ (forall k, In k (kinds ex_pol) -> keeps_targets k = true) /\ In (ActorOld, false) (nets (within Update (run [Collect] ex_pol))) /\
  nets (run [Train true] (make (KCrr true) ex_on)) = [(Actor, true); (Critic, true); (ActorOld, true); (CriticOld, true)] /\
  nets (run [Update; Train false] (make (KRainbow true true) ex_on)) = [(Model, false); (ModelOld, true)].
Proof. split; [repeat constructor|]. split; [intros k [<-|[]]; reflexivity|]. split; [cbn; tauto|]. split; reflexivity. Qed.
Example C230_ex : no_manager ex_pol = true /\ (forall k, In k (kinds ex_pol) -> reaches_online k = true /\ k <> KRainbow true true) /\
  icms (within Collect (run [Update] ex_pol)) = [false] /\ In (Actor, true) (nets (within Update (run [Train false] ex_pol))) /\
  nets (run [Train false; Collect] (Mgr true [make KAct ex_on; make KDdpg ex_on])) = [(Actor, true); (Actor, true); (Critic, true); (ActorOld, false); (CriticOld, false)].
Proof. split; [reflexivity|]. split; [intros k [<-|[]]; split; [reflexivity | discriminate]|]. split; [reflexivity|]. split; [cbn; tauto | reflexivity]. Qed.
Definition ex_net (a b : nat) : obj nat := Obj [(0, a)] [(1, b)] [(2, Obj [(0, a + b)] [] [] [] [])] [(3, 7)] [].
Example C231_ex : state_dict [] (icm (ex_net 1 2) (ex_net 3 4)) = [([0; 0], 1); ([0; 1], 2); ([0; 2; 0], 3); ([1; 0], 3); ([1; 1], 4); ([1; 2; 0], 7)] /\
  load_state_dict (state_dict [] (icm (ex_net 1 2) (ex_net 3 4))) (icm (ex_net 0 0) (ex_net 0 0)) = Ok (icm (ex_net 1 2) (ex_net 3 4)) /\
  load_state_dict (state_dict [] (sac [(5, ex_net 1 2)] 10 11)) (sac [(5, ex_net 0 0)] 20 21) = Ok (sac [(5, ex_net 1 2)] 20 21) /\
  load_state_dict (state_dict [] (ex_net 1 2)) (icm (ex_net 0 0) (ex_net 0 0)) = Err RuntimeError /\
  NoDup (map fst (state_dict [] (icm (ex_net 1 2) (ex_net 3 4)))).
Proof. split; [reflexivity|]. split; [vm_compute; reflexivity|]. split; [vm_compute; reflexivity|]. split; [vm_compute; reflexivity|].
  cbn. repeat constructor; cbn; intuition discriminate. Qed.
Example C232_ex : follow (Q2Qc (1 # 2)) (fun i n => mkNet (map (Qcplus 1%Qc) (w n)) (map (fun _ => Q2Qc (inject_Z (Z.of_nat i))) (buf n))) 2 5 (mkNet [0%Qc] [0%Qc]) (mkNet [0%Qc] [0%Qc]) =
  Ok (mkNet [Q2Qc 2] [Q2Qc 6], mkNet [Q2Qc (5 # 4)] [0%Qc]).
Proof. vm_compute. reflexivity. Qed.
Example C233_ex : snd (rb_run 2 2 (fun s => (r_w s + 1)%Qc) 4 (mkRb 0%Qc [] 0%Qc [] 0 10)) =
  [(Q2Qc 0, [10; 11], (Q2Qc 0, [10; 11])); (Q2Qc 1, [14; 15], (Q2Qc 0, [16; 17])); (Q2Qc 2, [18; 19], (Q2Qc 2, [18; 19])); (Q2Qc 3, [22; 23], (Q2Qc 2, [24; 25]))] /\
  0 < 2 /\ 3 < 4 /\ 3 mod 2 <> 0 /\ 3 / 2 * 2 = 2.
Proof. split; [vm_compute; reflexivity|]. repeat split; cbn; lia. Qed.
