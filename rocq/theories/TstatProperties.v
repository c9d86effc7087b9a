(** * What training reports: properties *)
From Coq Require Import String Ascii.
From Verif Require Import Py PyLemmas Num StatModel TstatModel TstatSpec TstatProofs.
Open Scope nat_scope.
Open Scope list_scope.

(** C239.  Assigning to an attribute that exists (or is one of [train_time], [smoothed_loss]) changes this attribute and no other; any number of
    wrappers around each other. A new attribute of a wrapper is an AttributeError. *)
Theorem C239_assign : forall s k v,
  (In k base_fields \/ getattr s k <> None ->
     exists s', setattr s k v = Ok s' /\ (forall j, j <> k -> getattr s' j = getattr s j) /\ (In k base_fields \/ ~ shadowed s k -> getattr s' k = Some v))
  /\ (~ In k base_fields -> getattr s k = None -> forall own i, s = Wrap own i -> setattr s k v = Err AttributeError).
Proof. exact C239_assign_lemma. Qed.
Print Assumptions C239_assign.

(** C239.  An attribute that both the wrapper and the wrapped object have is changed inside although the wrapper's own is the one that is read:
    the assignment has no visible effect. *)
Theorem C239_shadow_refuted : (forall own i k v w, ~ In k base_fields -> getd k own = Some w -> getattr i k <> None ->
    exists s', setattr (Wrap own i) k v = Ok s' /\ getattr s' k = Some w)
  /\ exists s s' s'', icm_stats (Plain (base_part 0)) 1 1 1 = Ok s /\ icm_stats s 0 0 0 = Ok s' /\ setattr s' "icm_loss"%string (VNum (1 + 1)) = Ok s''
       /\ getattr s'' "icm_loss"%string = Some (VNum 0).
Proof. exact C239_shadow_refuted_lemma. Qed.
Print Assumptions C239_shadow_refuted.

(** C239.  A wrapper is made with the base fields of the wrapped object, and whatever is assigned to it afterwards, [train_time] and [smoothed_loss] have
    the same value on all levels. *)
Theorem C239_sync : forall fields i l s, existsb (fun kv => is_base (fst kv)) fields = false -> in_sync i ->
  (let* s := new_wrapper fields i in foldM (fun s kv => setattr s (fst kv) (snd kv)) l s) = Ok s -> in_sync s.
Proof. exact C239_sync_lemma. Qed.
Print Assumptions C239_sync.

(** C239.  Assigning the base fields of the wrapped object itself is not seen by the wrapper: for all wrappers in that state. *)
Theorem C239_inner_refuted : (forall own i k v, In k base_fields -> in_sync (Wrap own i) ->
    exists s', set_at 1 (Wrap own i) k v = Ok s' /\ getattr s' k = getattr (Wrap own i) k)
  /\ exists s s', icm_stats (Plain (base_part 0)) 1 1 1 = Ok s /\ set_at 1 s "train_time"%string (VNum 1) = Ok s' /\ getattr s' "train_time"%string = Some (VNum 0).
Proof. exact C239_inner_refuted_lemma. Qed.
Print Assumptions C239_inner_refuted.

(** C240.  The losses reported by a dataclass, in any number of wrappers, are exactly its readable attributes that are public, not None and
    not [train_time] or [smoothed_loss]; summaries count with their mean. *)
Theorem C240_reported : forall s k, chain s -> wf s -> getd k (loss_dict s) = reported k (getattr s k).
Proof. exact C240_reported_lemma. Qed.
Print Assumptions C240_reported.

(** C240.  PPO and GAIL report the means of their sequences; the number of gradient steps is among the losses. *)
Theorem C240_sequences : forall sd a b c d n x y z,
  loss_dict (ppo_stats sd a b c d n) = [("loss", VNum (np_mean a)); ("clip_loss", VNum (np_mean b)); ("vf_loss", VNum (np_mean c)); ("ent_loss", VNum (np_mean d)); ("gradient_steps", VNum n)]%string
  /\ loss_dict (gail_stats sd (ppo_stats sd a b c d n) x y z) = loss_dict (ppo_stats sd a b c d n) ++ [("disc_loss", VNum (np_mean x)); ("acc_pi", VNum (np_mean y)); ("acc_exp", VNum (np_mean z))]%string.
Proof. exact C240_sequences_lemma. Qed.
Print Assumptions C240_sequences.

(** C240.  A wrapper around the statistics of several agents reports nothing of what they report: the agents do not matter. *)
Theorem C240_agents_refuted : (forall own d ags, loss_dict (Wrap own (MapS d ags)) = loss_dict (Wrap own (Plain d)))
  /\ exists ags m s, new_map ags AMax = Ok m /\ icm_stats m 1 1 1 = Ok s /\ getd "a/loss"%string (loss_dict m) = Some (VNum 1)
       /\ map fst (loss_dict s) = ["icm_loss"; "icm_forward_loss"; "icm_inverse_loss"]%string.
Proof. exact C240_agents_refuted_lemma. Qed.
Print Assumptions C240_agents_refuted.

(** C240.  The losses of an ICM policy inside an ICM policy are not reported: they do not matter. *)
Theorem C240_nested_refuted : forall i l f v l' f' v' x y z s s' t t', wf i ->
  icm_stats i l f v = Ok s -> icm_stats i l' f' v' = Ok s' -> icm_stats s x y z = Ok t -> icm_stats s' x y z = Ok t' ->
  chain i -> forall k, getd k (loss_dict t) = getd k (loss_dict t') /\ getd "icm_loss"%string (loss_dict t) = Some (VNum x).
Proof. exact C240_nested_refuted_lemma. Qed.
Print Assumptions C240_nested_refuted.

(** C241.  If the agents' names differ as strings and the names of losses contain no slash, the manager reports the losses of every agent under
    its name, and nothing else. *)
Theorem C241_keys : forall d ags, (forall a t, In (a, t) ags -> wf t /\ forall k, In k (map fst (loss_dict t)) -> no_slash k) -> NoDup (map (fun x => str_of (fst x)) ags) ->
  let key := fun (a : agent) (k : string) => (str_of a ++ "/" ++ k)%string in
  (forall a t k, In (a, t) ags -> no_slash k -> getd (key a k) (loss_dict (MapS d ags)) = getd k (loss_dict t))
  /\ (forall j v, getd j (loss_dict (MapS d ags)) = Some v -> exists a t k, In (a, t) ags /\ j = key a k /\ getd k (loss_dict t) = Some v).
Proof. exact C241_keys_lemma. Qed.
Print Assumptions C241_keys.

(** C241.  Names that differ can be written alike: the losses of one agent are lost. *)
Theorem C241_collision_refuted : exists m, new_map [(AInt 1, Plain (base_part 0 ++ [("loss"%string, VNum 0)])); (AStr "1"%string, Plain (base_part 0 ++ [("loss"%string, VNum 1)]))] AMax = Ok m
  /\ loss_dict m = [("1/loss"%string, VNum 1)].
Proof. exact C241_collision_refuted_lemma. Qed.
Print Assumptions C241_collision_refuted.

(** C241.  The time of the manager is the largest or smallest one of an agent, or lies between them; without agents there is none. *)
Theorem C241_time : forall ags, ags <> [] -> (forall a t, In (a, t) ags -> exists q, getattr t "train_time"%string = Some (VNum q)) ->
  let times := fun q => exists a t, In (a, t) ags /\ getattr t "train_time"%string = Some (VNum q) in
  exists mx mn av s1 s2 s3, new_map ags AMax = Ok s1 /\ new_map ags AMin = Ok s2 /\ new_map ags AMean = Ok s3
    /\ getattr s1 "train_time"%string = Some (VNum mx) /\ getattr s2 "train_time"%string = Some (VNum mn) /\ getattr s3 "train_time"%string = Some (VNum av)
    /\ times mx /\ times mn /\ (mn <= av)%Qc /\ (av <= mx)%Qc /\ (forall q, times q -> (mn <= q)%Qc /\ (q <= mx)%Qc) /\ new_map ags AOther = Err ValueError.
Proof. exact C241_time_lemma. Qed.
Print Assumptions C241_time.

(** C241.  In an update the way of aggregating plays no role: the time is overwritten. Without data for any agent the update fails. *)
Theorem C241_aggregator_refuted : (forall ags g g' t, ags <> [] -> (forall a s, In (a, s) ags -> exists q, getattr s "train_time"%string = Some (VNum q)) -> g <> AOther -> g' <> AOther ->
    manager_update ags g t = manager_update ags g' t)
  /\ forall t, manager_update [] AMax t = Err ValueError.
Proof. exact C241_aggregator_refuted_lemma. Qed.
Print Assumptions C241_aggregator_refuted.

(** C242.  After every update the smoothed value of every loss reported by it is the mean of the last 100 values reported under its name, this one included. *)
Theorem C242_smoothed : forall l, (forall s, In s l -> numbers (loss_dict s)) -> exists st logs, log_updates [] l = Ok (st, logs) /\ length logs = length l
  /\ forall i s, nth_error l i = Some s -> exists d sm, nth_error logs i = Some d /\ getd "smoothed_loss"%string d = Some (VDict sm)
       /\ forall k, getd k sm = option_map (fun _ => Some (np_mean (last_100 (history k (map loss_dict (firstn (S i) l)))))) (getd k (loss_dict s)).
Proof. exact C242_smoothed_lemma. Qed.
Print Assumptions C242_smoothed.

(** C242.  What a plain dataclass logs beside the smoothed losses are its fields. *)
Theorem C242_raw : forall st p st' s' d, log_update st (Plain p) = Ok (st', s', d) -> forall k, k <> "smoothed_loss"%string -> getd k d = getd k p.
Proof. exact C242_raw_lemma. Qed.
Print Assumptions C242_raw.

(** C242.  Of a wrapper or of the statistics of several agents nothing but [train_time] and [smoothed_loss] is logged. *)
Theorem C242_raw_refuted : (forall st s st' s' d, (forall p, s <> Plain p) -> log_update st s = Ok (st', s', d) -> forall k, In k (map fst d) -> k = "train_time"%string \/ k = "smoothed_loss"%string)
  /\ exists s st s' d, icm_stats (Plain (base_part 0 ++ [("loss"%string, VNum 1)])) 1 1 1 = Ok s /\ log_update [] s = Ok (st, s', d) /\ getd "loss"%string d = None
       /\ getd "loss"%string (loss_dict s) = Some (VNum 1) /\ getd "icm_loss"%string d = None.
Proof. exact C242_raw_refuted_lemma. Qed.
Print Assumptions C242_raw_refuted.

(** C243.  Since the last reset: the total time, the steps and episodes are those of the events since then; the times of training and testing add
    up to the total; the speed is that of the training steps. *)
Theorem C243_counts : forall k l0 l i, (forall o, In o l -> is_reset o = false /\ (0 <= dur o)%Qc) -> gather_info (fold_left tick (l0 ++ OReset :: l) k) = Ok i ->
  i_total i = total any l /\ (i_train i + i_testt i)%Qc = i_total i
  /\ (k_train k <> None -> i_tstep i = steps is_collect l /\ i_tep i = episodes is_collect l /\ (i_speed i * i_train i)%Qc = sq (steps is_collect l))
  /\ (k_test k <> None -> i_estep i = steps is_test l /\ i_eep i = episodes is_test l)
  /\ (k_train k = None -> i_tstep i = 0 /\ i_tep i = 0 /\ i_collect i = 0%Qc) /\ (k_test k = None -> i_estep i = 0 /\ i_eep i = 0 /\ i_testt i = 0%Qc).
Proof. exact C243_counts_lemma. Qed.
Print Assumptions C243_counts.

(** C243.  For collectors that count their time ([AsyncCollector]) the times of collecting and testing are those of the events since the last reset. *)
Theorem C243_async_partial : forall k l0 l i c c', (forall o, In o l -> is_reset o = false /\ (0 <= dur o)%Qc) -> gather_info (fold_left tick (l0 ++ OReset :: l) k) = Ok i ->
  (k_train k = Some c -> c_async c = true -> i_collect i = total is_collect l) /\ (k_test k = Some c' -> c_async c' = true -> i_testt i = total is_test l).
Proof. exact C243_async_partial_lemma. Qed.
Print Assumptions C243_async_partial.

(** C243.  For every other collector they are 0, however long collecting and testing take, and testing counts as training. *)
Theorem C243_times_refuted : (forall k l0 l i, (forall c, k_train k = Some c \/ k_test k = Some c -> c_async c = false) -> (forall o, In o l -> is_reset o = false /\ (0 <= dur o)%Qc) ->
    gather_info (fold_left tick (l0 ++ OReset :: l) k) = Ok i -> i_collect i = 0%Qc /\ i_testt i = 0%Qc /\ i_train i = i_total i)
  /\ (let c := mkC false 0 0 0 in exists i, gather_info (fold_left tick [OReset; OTest 1 0 0] (mkK 0 0 0 (Some c) (Some c))) = Ok i /\ i_train i = 1%Qc /\ i_testt i = 0%Qc).
Proof. exact C243_times_refuted_lemma. Qed.
Print Assumptions C243_times_refuted.

(** C243.  The time of updates is not reset: it counts from the creation of the trainer and can exceed the total time. *)
Theorem C243_update_refuted : (forall k l0 l i, (forall o, In o l -> is_reset o = false /\ (0 <= dur o)%Qc) -> gather_info (fold_left tick (l0 ++ OReset :: l) k) = Ok i ->
    i_update i = (k_upd k + total is_update (l0 ++ l))%Qc)
  /\ exists i, gather_info (fold_left tick [OReset; OUpdate (1 + 1); OReset; OPass 1] (mkK 0 0 0 None None)) = Ok i /\ i_update i = (1 + 1)%Qc /\ i_total i = 1%Qc.
Proof. exact C243_update_refuted_lemma. Qed.
Print Assumptions C243_update_refuted.

(** C243.  If no time has passed since the reset, gathering the information divides by 0. *)
Theorem C243_instant_refuted : forall k l0 l c, k_train k = Some c -> (forall c', k_test k = Some c' -> c_async c' = false) -> (forall o, In o l -> is_reset o = false /\ dur o = 0%Qc) ->
  gather_info (fold_left tick (l0 ++ OReset :: l) k) = Err ZeroDivisionError.
Proof. exact C243_instant_refuted_lemma. Qed.
Print Assumptions C243_instant_refuted.

(** C244.  Keys and values that are not floats are kept; a float becomes a multiple of 10^-p that is at most half of that away, the even one if there
    are two; multiples are kept, so doing it twice changes nothing. *)
Theorem C244_round : forall (X : Type) p (d : list (string * pval X)),
  map fst (to_precision p d) = map fst d
  /\ (forall i k x, nth_error d i = Some (k, POther x) -> nth_error (to_precision p d) i = Some (k, POther x))
  /\ (forall i k q, nth_error d i = Some (k, PFloat q) -> exists z, nth_error (to_precision p d) i = Some (k, PFloat (Q2Qc (inject_Z z) / ten p)%Qc)
        /\ (let e := (q * ten p - Q2Qc (inject_Z z))%Qc in let h := Q2Qc (1 # 2) in (- h <= e)%Qc /\ (e <= h)%Qc /\ (e = h \/ e = (- h)%Qc -> Z.even z = true)))
  /\ to_precision p (to_precision p d) = to_precision p d.
Proof. exact C244_round_lemma. Qed.
Print Assumptions C244_round.

(** C244.  Rounding keeps the order. *)
Theorem C244_order : forall p a b, (a <= b)%Qc -> (round_to p a <= round_to p b)%Qc.
Proof. exact C244_order_lemma. Qed.
Print Assumptions C244_order.

(** ** Examples *)
Definition ex_plain (t x : Qc) : stats := Plain (base_part t ++ [("loss", VNum x); ("none", VNone); ("_hidden", VNum 1)]%string).
Definition ex_icm : stats := match icm_stats (ex_plain 0 1) 1 (1 + 1) 0 with Ok s => s | Err _ => Plain [] end.
Example C239_ex : in_sync (ex_plain 0 1) /\ (exists own i, ex_icm = Wrap own i) /\ getattr ex_icm "loss"%string <> None /\ ~ shadowed ex_icm "loss"%string /\ getattr ex_icm "x"%string = None
  /\ match setattr ex_icm "loss"%string (VNum 0) with Ok s => getattr s "loss"%string = Some (VNum 0) /\ getattr s "icm_loss"%string = Some (VNum 1) | Err _ => False end.
Proof.
  split; [intros k [<- | [<- | []]]; discriminate|]. split; [do 2 eexists; vm_compute; reflexivity|]. split; [vm_compute; discriminate|].
  split; [intros [[H _]|[]]; apply H; reflexivity|]. split; [reflexivity|]. vm_compute. auto.
Qed.
Example C240_ex : chain ex_icm /\ wf ex_icm /\ loss_dict ex_icm = [("loss", VNum 1); ("icm_loss", VNum 1); ("icm_forward_loss", VNum (1 + 1)); ("icm_inverse_loss", VNum 0)]%string.
Proof. split; [exact Logic.I|]. split; [|vm_compute; reflexivity]. split; [|]; cbn; repeat constructor; cbn; intuition discriminate. Qed.
Definition ex_ags : list (agent * stats) := [(AStr "a"%string, ex_plain 1 1); (AInt 12, ex_plain 0 (1 + 1))].
Example C241_ex : (forall a t, In (a, t) ex_ags -> wf t /\ (forall k, In k (map fst (loss_dict t)) -> no_slash k) /\ exists q, getattr t "train_time"%string = Some (VNum q))
  /\ NoDup (map (fun x => str_of (fst x)) ex_ags) /\ match new_map ex_ags AMean with Ok m => loss_dict m = [("a/loss", VNum 1); ("12/loss", VNum (1 + 1))]%string
       /\ getattr m "train_time"%string = Some (VNum (Q2Qc (1 # 2))) | Err _ => False end.
Proof.
  assert (H : forall t x, wf (ex_plain t x) /\ (forall k, In k (map fst (loss_dict (ex_plain t x))) -> no_slash k) /\ exists q, getattr (ex_plain t x) "train_time"%string = Some (VNum q)).
  { intros t x. split; [cbn; repeat constructor; cbn; intuition discriminate|]. split; [|exists t; reflexivity]. intros k [<- | []]. cbn. repeat split; discriminate. }
  split; [intros a t [[= <- <-]|[[= <- <-]|[]]]; apply H|]. split; [cbn; repeat constructor; cbn; intuition discriminate|]. vm_compute. auto.
Qed.
Example C242_ex : (forall s, In s [ex_plain 0 1; ex_icm; ex_plain 0 (1 + 1)] -> numbers (loss_dict s))
  /\ match log_updates [] [ex_plain 0 1; ex_icm; ex_plain 0 (Q2Qc (4 # 1))] with Ok (_, [_; d2; d3]) => map fst d2 = ["train_time"; "smoothed_loss"]%string /\
       match getd "smoothed_loss"%string d3 with Some (VDict [(k, Some q)]) => k = "loss"%string /\ this q = 2%Q | _ => False end | _ => False end.
Proof.
  split; [|vm_compute; auto].
  assert (N : forall d : list (string * Qc), NoDup (map fst d) -> numbers (map (fun x => (fst x, VNum (snd x))) d)).
  { intros d H. split; [rewrite map_map; exact H|]. intros k v Hv. apply in_map_iff in Hv. destruct Hv as ((a & b) & [= _ <-] & _). exists b. reflexivity. }
  assert (H1 : forall x, numbers (loss_dict (ex_plain 0 x))) by (intro x; apply (N [("loss"%string, x)]); repeat constructor; intros []).
  intros s [<- | [<- | [<- | []]]]; [apply H1 | | apply H1].
  apply (N [("loss", 1%Qc); ("icm_loss", 1%Qc); ("icm_forward_loss", (1 + 1)%Qc); ("icm_inverse_loss", 0%Qc)]%string). cbn. repeat constructor; cbn; intuition discriminate.
Qed.
Definition ex_k (a : bool) : clock := mkK 1 0 0 (Some (mkC a 0 0 0)) (Some (mkC false 0 0 0)).
Definition ex_l : list ev := [OCollect 1 10 2; OUpdate (1 + 1); OTest 1 5 1; OCollect 1 10 1].
Example C243_ex : (forall o, In o ex_l -> is_reset o = false /\ (0 <= dur o)%Qc) /\
  match gather_info (fold_left tick ([OUpdate 1] ++ OReset :: ex_l) (ex_k true)) with Ok i => map this [i_total i; i_train i; i_collect i; i_update i; i_testt i; i_speed i] = [5; 5; 2; 3; 0; 4]%Q /\ i_tstep i = 20 /\ i_tep i = 3 /\ i_estep i = 5 /\ i_eep i = 1
  | Err _ => False end /\ gather_info (fold_left tick [OReset] (ex_k false)) = Err ZeroDivisionError.
Proof. split; [intros o [<- | [<- | [<- | [<- | []]]]]; (split; [reflexivity|]); vm_compute; discriminate|]. split; [vm_compute; repeat split|]. vm_compute. reflexivity. Qed.
Example C244_ex : map (fun kv => (fst kv, match snd kv with PFloat q => inl (this q) | POther x => inr x end)) (to_precision 1 [("a", PFloat (Q2Qc (1 # 4))); ("b", POther 7); ("c", PFloat (Q2Qc (7 # 20))); ("d", PFloat (Q2Qc (-7 # 5)))]%string)
  = [("a", inl (1 # 5)%Q); ("b", inr 7); ("c", inl (2 # 5)%Q); ("d", inl (-7 # 5)%Q)]%string.
Proof. vm_compute. reflexivity. Qed.
