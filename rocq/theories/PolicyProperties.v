(** * Properties C25-C27, C47, C68: action mapping, soft updates, update protocol, mode flags *)
From Verif Require Import Py Num PolicyModel PolicyProofs.
Open Scope nat_scope.

(** C25.  With a Box space and action scaling, whatever the network output: the mapped action is
    defined, every entry is inside its column's bounds, outputs at or beyond -1 / +1 give exactly
    the bounds under "clip", and the map is monotone.  [tanh] is any monotone function into
    [-1, 1]. *)
Theorem C25_in_bounds : forall tanh m low high act,
  (forall x, (-(1) <= tanh x)%Qc /\ (tanh x <= 1)%Qc) -> (forall x y, (x <= y)%Qc -> (tanh x <= tanh y)%Qc) ->
  m <> BNone -> length low = length high -> low <> [] -> act <> [] ->
  (forall j lo hi, nth_error low j = Some lo -> nth_error high j = Some hi -> (lo <= hi)%Qc) ->
  (forall row, In row act -> length row = length low) ->
  exists r, map_action tanh true m true low high act = Ok r
    /\ length r = length act /\ (forall row, In row r -> length row = length low)
    /\ forall i j a lo hi, entry act i j = Some a -> nth_error low j = Some lo -> nth_error high j = Some hi ->
         exists x, entry r i j = Some x /\ (lo <= x)%Qc /\ (x <= hi)%Qc
           /\ (m = BClip -> ((a <= -(1))%Qc -> x = lo) /\ ((1 <= a)%Qc -> x = hi))
           /\ forall i' a' x', entry act i' j = Some a' -> entry r i' j = Some x' -> (a <= a')%Qc -> (x <= x')%Qc.
Proof. exact C25_in_bounds_lemma. Qed.
Print Assumptions C25_in_bounds.

(** C25 (restricted: every interval at least [eps] wide).  [map_action] undoes
    [map_action_inverse] on the whole Box, for bound method clip or None; for tanh on the open
    box, if [atanh] inverts [tanh] on (-1, 1). *)
Theorem C25_roundtrip_partial : forall tanh atanh eps m low high act,
  (0 < eps)%Qc -> length low = length high -> low <> [] -> act <> [] ->
  (forall j lo hi, nth_error low j = Some lo -> nth_error high j = Some hi -> (eps <= hi - lo)%Qc) ->
  (forall row, In row act -> length row = length low) ->
  (forall i j a lo hi, entry act i j = Some a -> nth_error low j = Some lo -> nth_error high j = Some hi ->
     (lo <= a)%Qc /\ (a <= hi)%Qc /\ (m = BTanh -> (lo < a)%Qc /\ (a < hi)%Qc)) ->
  (m = BTanh -> forall x, (-(1) < x)%Qc -> (x < 1)%Qc -> tanh (atanh x) = x) ->
  exists raw, map_action_inverse atanh eps true m true low high act = Ok raw
    /\ map_action tanh true m true low high raw = Ok act.
Proof. exact C25_roundtrip_partial_lemma. Qed.
Print Assumptions C25_roundtrip_partial.

(** C25.  For a column narrower than eps = 2^-23 (but not empty) the round trip fails: the upper
    end of the interval is not mapped back to itself. *)
Theorem C25_narrow_box_refuted : exists lo hi raw back,
  let eps := Q2Qc (1 # 8388608) in
  (lo < hi)%Qc /\ map_action_inverse (fun x => x) eps true BClip true [lo] [hi] [[hi]] = Ok [[raw]]
  /\ map_action (fun x => x) true BClip true [lo] [hi] [[raw]] = Ok [[back]] /\ back <> hi.
Proof. exact C25_narrow_box_refuted_lemma. Qed.
Print Assumptions C25_narrow_box_refuted.

(** C25.  Without bounding, an output outside [-1, 1] is rejected rather than sent. *)
Theorem C25_unbounded_rejected : forall tanh low high act i j a,
  entry act i j = Some a -> (a < -(1))%Qc \/ (1 < a)%Qc ->
  map_action tanh true BNone true low high act = Err AssertionError.
Proof. exact C25_unbounded_rejected_lemma. Qed.
Print Assumptions C25_unbounded_rejected.

(** C26.  Any number of soft updates towards fixed source parameters of the same shapes: every
    parameter's gap to the source is scaled by (1 - tau)^n; tau = 1 copies, tau = 0 keeps, and
    for 0 <= tau <= 1 every parameter stays between its old value and the source. *)
Theorem C26_soft_update : forall n tau tgt src, length tgt = length src ->
  (forall i t s, nth_error tgt i = Some t -> nth_error src i = Some s -> length t = length s) ->
  exists r, soft_updates n tau tgt src = (r, None) /\ length r = length tgt
    /\ forall i j t s, entry tgt i j = Some t -> entry src i j = Some s ->
         exists x, entry r i j = Some x
           /\ (x - s = Qcpower (1 - tau) n * (t - s))%Qc
           /\ (n = 1 -> x = (tau * s + (1 - tau) * t)%Qc)
           /\ (tau = 1%Qc -> 0 < n -> x = s) /\ (tau = 0%Qc -> x = t)
           /\ ((0 <= tau)%Qc -> (tau <= 1)%Qc -> ((t <= s)%Qc -> (t <= x)%Qc /\ (x <= s)%Qc) /\ ((s <= t)%Qc -> (s <= x)%Qc /\ (x <= t)%Qc)).
Proof. exact C26_soft_update_lemma. Qed.
Print Assumptions C26_soft_update.

(** C26.  Modules with a different number of parameters: ValueError. *)
Theorem C26_mismatch : forall tau tgt src, length tgt <> length src -> snd (soft_update tau tgt src) = Some ValueError.
Proof. exact C26_mismatch_lemma. Qed.
Print Assumptions C26_mismatch.

(** C47.  Whatever the body does (also when it raises, and whatever it does to the flags
    itself), both context managers put the policy's own flag back, return the body's result and
    change nothing else. *)
Theorem C47_restored : forall (X T : Type) (en : bool) (body : blk X T) (s : pstate X),
  let '(s1, r1) := with_train_mode en body s in
  let '(s2, r2) := within_training_step en body s in
  training (p_mod s1) = training (p_mod s) /\ r1 = snd (body (set_mod s (train en (p_mod s))))
  /\ p_within s2 = p_within s /\ r2 = snd (body (set_within s en))
  /\ p_ext s1 = p_ext (fst (body (set_mod s (train en (p_mod s))))) /\ p_ext s2 = p_ext (fst (body (set_within s en)))
  /\ p_within s1 = p_within (fst (body (set_mod s (train en (p_mod s)))))
  /\ p_mod s2 = p_mod (fst (body (set_within s en))).
Proof. exact C47_restored_lemma. Qed.
Print Assumptions C47_restored.

(** C68 (restricted: all modules of the tree in the same mode before, and the body changes modes
    only through [train]): the modes of the whole tree are put back. *)
Theorem C68_homogeneous_partial : forall (X T : Type) (en : bool) (body : blk X T) (s : pstate X),
  homogeneous (training (p_mod s)) (p_mod s) ->
  (exists b, p_mod (fst (body (set_mod s (train en (p_mod s))))) = train b (p_mod s)) ->
  p_mod (fst (with_train_mode en body s)) = p_mod s.
Proof. exact C68_homogeneous_partial_lemma. Qed.
Print Assumptions C68_homogeneous_partial.

Theorem C47_nested : forall (X T : Type) (l : list (bool * bool)) (body : blk X T) (s : pstate X),
  let '(s', r) := nested l body s in
  (In true (map fst l) -> training (p_mod s') = training (p_mod s))
  /\ (In false (map fst l) -> p_within s' = p_within s).
Proof. exact C47_nested_lemma. Qed.
Print Assumptions C47_nested.

(** C68.  A module tree with mixed modes is not put back: a child in evaluation mode inside a
    module in training mode ends up in training mode. *)
Theorem C68_submodule_modes_refuted : exists (s s' : pstate unit),
  with_train_mode false (fun s => (s, Ok tt)) s = (s', Ok tt) /\ p_mod s' <> p_mod s.
Proof. exact C68_submodule_modes_refuted_lemma. Qed.
Print Assumptions C68_submodule_modes_refuted.

(** C27.  update() outside a training step raises and touches nothing; without a buffer it
    touches nothing; when no callback raises, it calls sample, process_fn, learn, post_process_fn
    in this order, with the sampled indices and the processed batch; process_fn runs with
    [updating] set, learn with the module in training mode, post_process_fn with the mode put
    back; the scheduler is stepped exactly once if there is one, and [updating] ends False. *)
Theorem C27_update : forall (X B St : Type) sample process_fn learn post_process_fn lr_step ss hb hs (s : pstate X),
  let '(s', r, ev) := @p_update X B St sample process_fn learn post_process_fn lr_step ss hb hs s in
  (p_within s = false -> s' = s /\ r = Err RuntimeError /\ ev = [])
  /\ (p_within s = true -> hb = false -> s' = s /\ r = Ok None /\ ev = [])
  /\ (p_within s = true -> hb = true -> forall stat, r = Ok stat ->
      p_updating s' = false
      /\ exists b indices b' st s1 s2 s2t s3 s3r s4,
         stat = Some st
         /\ sample ss s = (s1, Ok (b, indices))
         /\ process_fn b indices (set_updating s1 true) = (s2, Ok b')
         /\ learn b' s2t = (s3, Ok st) /\ training (p_mod s2t) = true /\ p_ext s2t = p_ext s2
         /\ training (p_mod s3r) = training (p_mod s2) /\ p_ext s3r = p_ext s3
         /\ post_process_fn b' indices s3r = (s4, Ok tt)
         /\ (if hs then exists s5, lr_step s4 = (s5, Ok tt) /\ p_ext s' = p_ext s5 else p_ext s' = p_ext s4)
         /\ ev = [ESample ss; EProcess b indices; ELearn b' true; EPost b' indices] ++ (if hs then [ESched] else [])).
Proof. exact C27_update_lemma. Qed.
Print Assumptions C27_update.

(** C27.  An exception in any callback is passed on, no later callback is called, and the
    module's training flag is what the callbacks left (an exception in learn does not leave the
    module in training mode). *)
Theorem C27_exception : forall (X B St : Type) sample process_fn learn post_process_fn lr_step ss hs (s : pstate X) s' e ev,
  @p_update X B St sample process_fn learn post_process_fn lr_step ss true hs s = (s', Err e, ev) -> p_within s = true ->
  (exists b indices b' k, 2 <= k /\ ev = firstn k [ESample ss; EProcess b indices; ELearn b' true; EPost b' indices; ESched]
     /\ (k = 2 -> exists s1, sample ss s = (s1, Ok (b, indices)) /\ process_fn b indices (set_updating s1 true) = (s', Err e))
     /\ (k = 3 -> exists s2 s3, learn b' (set_mod s2 (train true (p_mod s2))) = (s3, Err e) /\ training (p_mod s') = training (p_mod s2) /\ p_ext s' = p_ext s3)
     /\ (k = 4 -> exists s3, post_process_fn b' indices s3 = (s', Err e))
     /\ (k = 5 -> hs = true /\ exists s4, lr_step s4 = (s', Err e)) /\ k <= 5)
  \/ (exists s1, sample ss s = (s1, Err e) /\ ev = [ESample ss]).
Proof. exact C27_exception_lemma. Qed.
Print Assumptions C27_exception.

(** C27.  After an exception in learn, [updating] stays True. *)
Theorem C27_updating_left_set_refuted : exists (s s' : pstate unit) ev,
  @p_update unit unit unit (fun _ s => (s, Ok (tt, []))) (fun b _ s => (s, Ok b)) (fun _ s => (s, Err RuntimeError))
     (fun _ _ s => (s, Ok tt)) (fun s => (s, Ok tt)) (Some 4%Z) true false s = (s', Err RuntimeError, ev)
  /\ p_updating s = false /\ p_updating s' = true.
Proof. exact C27_updating_left_set_refuted_lemma. Qed.
Print Assumptions C27_updating_left_set_refuted.

Example C25_ex_values : exists a b c d,
  map_action (fun x => x) true BClip true [Q2Qc (-2); Q2Qc 0] [Q2Qc 2; Q2Qc 10] [[Q2Qc (1 # 2); Q2Qc (-3)]; [Q2Qc 7; Q2Qc 0]] = Ok [[a; b]; [c; d]]
  /\ this a = (1 # 1)%Q /\ this b = (0 # 1)%Q /\ this c = (2 # 1)%Q /\ this d = (5 # 1)%Q.
Proof. do 4 eexists. split; [reflexivity|]. repeat split; vm_compute; reflexivity. Qed.
Example C25_ex_tanh : let tanh := fun x => clip1 x in (* a monotone function into [-1, 1] *)
  (forall x, (-(1) <= tanh x)%Qc /\ (tanh x <= 1)%Qc) /\ (forall x y, (x <= y)%Qc -> (tanh x <= tanh y)%Qc).
Proof. split; [intros x; apply clip1_range|intros x y; apply clip1_mono]. Qed.
Example C25_ex_rejected : entry [[Q2Qc 2]] 0 0 = Some (Q2Qc 2) /\ (1 < Q2Qc 2)%Qc.
Proof. split; vm_compute; reflexivity. Qed.
Example C25_ex_roundtrip : exists raw back,
  map_action_inverse (fun x => x) (Q2Qc (1 # 8388608)) true BClip true [Q2Qc (-2)] [Q2Qc 2] [[Q2Qc 1]] = Ok [[raw]]
  /\ this raw = (1 # 2)%Q /\ map_action (fun x => x) true BClip true [Q2Qc (-2)] [Q2Qc 2] [[raw]] = Ok [[back]] /\ this back = 1%Q.
Proof. do 2 eexists. split; [reflexivity|]. split; [vm_compute; reflexivity|]. split; [reflexivity|]. vm_compute; reflexivity. Qed.
Example C26_ex : exists x y, soft_updates 3 (Q2Qc (1 # 2)) [[Q2Qc 8; Q2Qc 0]] [[Q2Qc 0; Q2Qc 16]] = ([[x; y]], None)
  /\ this x = 1%Q /\ this y = 14%Q.
Proof. do 2 eexists. split; [reflexivity|]. split; vm_compute; reflexivity. Qed.
Example C26_ex_mismatch : length [[Q2Qc 1]; [Q2Qc 2]] <> length [[Q2Qc 1]].
Proof. discriminate. Qed.
(** A state recording the calls: process, learn, post, scheduler. *)
Example C27_ex : exists s',
  @p_update (list nat) nat nat (fun ss s => (s, Ok (7, [1; 2]))) (fun b i s => (mkP (p_mod s) (p_within s) (p_updating s) (p_ext s ++ [b]), Ok 8))
    (fun b s => (mkP (p_mod s) (p_within s) (p_updating s) (p_ext s ++ [b]), Ok 9)) (fun b i s => (mkP (p_mod s) (p_within s) (p_updating s) (p_ext s ++ i), Ok tt))
    (fun s => (mkP (p_mod s) (p_within s) (p_updating s) (p_ext s ++ [42]), Ok tt)) (Some 4%Z) true true (mkP (Mod false []) true false [])
  = (s', Ok (Some 9), [ESample (Some 4%Z); EProcess 7 [1; 2]; ELearn 8 true; EPost 8 [1; 2]; ESched])
  /\ p_ext s' = [7; 8; 1; 2; 42] /\ p_updating s' = false /\ training (p_mod s') = false.
Proof. eexists. split; [reflexivity|]. repeat split. Qed.
Example C27_ex_exception : exists s' ev,
  @p_update unit unit unit (fun _ s => (s, Ok (tt, [3]))) (fun b _ s => (s, Ok b)) (fun _ s => (s, Err RuntimeError))
     (fun _ _ s => (s, Ok tt)) (fun s => (s, Ok tt)) (Some 4%Z) true false (mkP (Mod false []) true false tt) = (s', Err RuntimeError, ev)
  /\ length ev = 3 /\ training (p_mod s') = false.
Proof. do 2 eexists. split; [reflexivity|]. split; reflexivity. Qed.
Example C47_ex : nested [(true, false); (false, true); (true, true)] (fun s : pstate bool =>
     (mkP (p_mod s) (p_within s) (p_updating s) (training (p_mod s) && p_within s), @Err unit KeyError)) (mkP (Mod true []) false false false)
  = (mkP (Mod true []) false false true, Err KeyError).
Proof. reflexivity. Qed.
Example C68_ex : homogeneous true (Mod true [Mod true []; Mod true [Mod true []]]).
Proof. repeat constructor. Qed.
