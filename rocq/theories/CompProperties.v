(** * Properties C320-C322: collections, adds and trainings that are made in parts *)
From Coq Require Import Permutation.
From Verif Require Import Py Num BufferModel BufferSpec ManagerModel ManagerSpec CollectModel CollectSpec TrainModel TrainProofs CompSpec CompProofs.
Open Scope nat_scope.

(** C320.  Two collections of steps without a reset in between are one collection of the steps made in the first and those
    asked for in the second: same environments, buffer, policy, observations, hidden states and counters afterwards, same
    calls of the policy, same episodes for the hook, and the statistics of the one are those of the two together. *)
Theorem C320_parts : forall (Ob A B Inf R H ES PS : Type) (r0 : R) (radd : R -> R -> R) (last_frame : Ob -> Ob) (o : opts)
  (estep : nat -> ES -> B -> ES * sres Ob Inf R) (ereset : nat -> ES -> ES * (Ob * Inf))
  (act_fn : PS -> list nat -> list Ob -> list Inf -> option (list H) -> PS * (list (A * B) * option (list H)))
  (hreset : list nat -> list H -> list H) (hook : list (row_out Ob A Inf R) -> bool)
  (c c1 c2 : coll Ob A Inf R H ES PS) l1 l2 a b fuel1 fuel2,
  (forall p ids obs inf hid h, length obs = length ids -> length inf = length ids -> (forall g, hid = Some g -> length g = length ids) ->
    snd (snd (act_fn p ids obs inf hid)) = Some h -> length h = length ids) ->
  (forall idx h, length (hreset idx h) = length h) ->
  (forall h, c_hid c = Some h -> length h = length (c_envs c)) ->
  CollectModel.collect r0 radd last_frame o estep ereset act_fn hreset hook fuel1 (Some (S a)) None false c = Ok (c1, l1) ->
  CollectModel.collect r0 radd last_frame o estep ereset act_fn hreset hook fuel2 (Some (S b)) None false c1 = Ok (c2, l2) ->
  CollectModel.collect r0 radd last_frame o estep ereset act_fn hreset hook (fuel1 + fuel2) (Some (l_steps l1 + S b)) None false c = Ok (c2, both l1 l2).
Proof. exact C320_parts_lemma. Qed.
Print Assumptions C320_parts.

(** C321.  Two histories of adds and resets that are the same for every sub-buffer lead to the same manager, and every
    sub-buffer reports the same: it does not matter how the calls are interleaved or grouped. *)
Theorem C321_interleaving : forall (Ob A Inf R : Type) (r0 : R) radd (last_frame : Ob -> Ob) o ns
    (ops ops' : list (mop Ob A Inf R)) m m' outs outs',
  (forall n, In n ns -> 0 < n) ->
  m_run r0 radd last_frame o (m_init r0 ns) ops = Ok (m, outs) -> m_run r0 radd last_frame o (m_init r0 ns) ops' = Ok (m', outs') ->
  (forall k, k < length ns -> proj (length ns) k ops = proj (length ns) k ops') ->
  m = m' /\ forall k, k < length ns -> select (length ns) k outs = select (length ns) k outs'.
Proof. exact C321_interleaving_lemma. Qed.
Print Assumptions C321_interleaving.

(** C321.  Rows that are added in one call could as well be added in two: same manager, same reports. *)
Theorem C321_grouping : forall (Ob A Inf R : Type) (r0 : R) radd (last_frame : Ob -> Ob) o ns
    (ops : list (mop Ob A Inf R)) m outs ids1 ids2 ts1 ts2,
  (forall n, In n ns -> 0 < n) -> m_run r0 radd last_frame o (m_init r0 ns) ops = Ok (m, outs) ->
  (forall i, In i (ids1 ++ ids2) -> (- Z.of_nat (length ns) <= i < Z.of_nat (length ns))%Z) ->
  length ts1 = length ids1 -> length ts2 = length ids2 -> ids1 <> [] -> ids2 <> [] ->
  exists m1 m2 r1 r2, m_add r0 radd last_frame o m (Some ids1) ts1 = Ok (m1, r1) /\ m_add r0 radd last_frame o m1 (Some ids2) ts2 = Ok (m2, r2)
    /\ m_add r0 radd last_frame o m (Some (ids1 ++ ids2)) (ts1 ++ ts2) = Ok (m2, r1 ++ r2).
Proof. exact C321_grouping_lemma. Qed.
Print Assumptions C321_grouping.

(** C321.  The order of rows for different sub-buffers in one call does not matter: same manager, and every sub-buffer
    reports the same. *)
Theorem C321_order : forall (Ob A Inf R : Type) (r0 : R) radd (last_frame : Ob -> Ob) o ns
    (ops : list (mop Ob A Inf R)) m outs (xs ys : list (Z * trans Ob A Inf R)),
  (forall n, In n ns -> 0 < n) -> m_run r0 radd last_frame o (m_init r0 ns) ops = Ok (m, outs) ->
  (forall x, In x xs -> (- Z.of_nat (length ns) <= fst x < Z.of_nat (length ns))%Z) -> xs <> [] ->
  Permutation xs ys -> NoDup (map (fun x => (fst x mod Z.of_nat (length ns))%Z) xs) ->
  exists m' r r', m_add r0 radd last_frame o m (Some (map fst xs)) (map snd xs) = Ok (m', r)
    /\ m_add r0 radd last_frame o m (Some (map fst ys)) (map snd ys) = Ok (m', r')
    /\ forall k, k < length ns -> select (length ns) k (combine (map fst xs) r) = select (length ns) k (combine (map fst ys) r').
Proof. exact C321_order_lemma. Qed.
Print Assumptions C321_order.

(** C322.  A training begins like any longer training with the same collections and tests: its epochs and everything it
    does (calls of train_fn, collections, updates, tests, saving) are the beginning of those of the longer one, and all of them
    if the stop function ended it. *)
Theorem C322_prefix : forall (c : config) (E E' : Z) collect test buflen fuel n n' rp s s1 s2 l1 l2, (E <= E')%Z ->
  run (with_epochs c E) collect test buflen fuel n rp s = (s1, Ok l1) -> run (with_epochs c E') collect test buflen fuel n' rp s = (s2, Ok l2) ->
  exists rest ev, l2 = l1 ++ rest /\ s_ev s2 = s_ev s1 ++ ev /\ (s_stop s1 = true -> rest = [] /\ ev = []).
Proof. exact C322_prefix_lemma. Qed.
Print Assumptions C322_prefix.

(** Three environments; 4 steps asked for (6 made), then 2 (3 made): one collection of 6 + 2. *)
Definition ex_c := demo_coll [5; 5; 6] [[1; 4; 1; 2; 2; 2]; [3; 1; 3; 2; 2]; [2; 2; 5; 2; 2]].
Example C320_ex : match demo_collect HArray 20 (Some 4) None false ex_c with
  | Ok (c1, l1) => match demo_collect HArray 20 (Some 2) None false c1 with
     | Ok (c2, l2) => l_steps l1 = 6 /\ l_steps l2 = 3 /\ st_lens (l_stats l1) = [1; 2] /\ st_lens (l_stats l2) = [3]
         /\ demo_collect HArray 40 (Some 8) None false ex_c = Ok (c2, both l1 l2) /\ c_hid c1 = Some [1; 2; 0]
     | Err _ => False end
  | Err _ => False end.
Proof. vm_compute. repeat split. Qed.
Example C320_hyps : (forall p ids obs inf hid h, length obs = length ids -> length inf = length ids -> (forall g, hid = Some g -> length g = length ids) ->
    snd (snd (demo_act p ids obs inf hid)) = Some h -> length h = length ids)
  /\ (forall idx (h : list nat), length (reset_hidden HArray (fun _ => 0) idx h) = length h).
Proof.
  split.
  - intros p ids obs inf hid h L _ G [= <-]. rewrite map_length. destruct hid; [auto|rewrite map_length; exact L].
  - intros idx h. cbn. rewrite map_length, combine_length, seq_length. apply Nat.min_id.
Qed.
Definition zt (v : nat) (d : bool) : trans nat nat unit Z := mkTrans v v (Z.of_nat v) d false (v + 1) tt.
Definition exm (ops : list (mop nat nat unit Z)) := m_run 0%Z Z.add (fun x => x) demo_opts (m_init 0%Z [2; 3; 2]) ops.
(** One call for two sub-buffers, two calls, and the two calls the other way round. *)
Example C321_ex : match exm [MAdd (Some [0; 1]%Z) [zt 1 false; zt 2 true]; MAdd (Some [0]%Z) [zt 3 true]],
    exm [MAdd (Some [1]%Z) [zt 2 true]; MAdd (Some [0; 0]%Z) [zt 1 false; zt 3 true]] with
  | Ok (m, outs), Ok (m', outs') => m = m' /\ select 3 0 outs = select 3 0 outs' /\ m_len m = 3 /\ outs <> outs'
  | _, _ => False end.
Proof. vm_compute. repeat split. discriminate. Qed.
Example C321_grouping_ex : match exm [] with
  | Ok (m, _) => match m_add 0%Z Z.add (fun x => x) demo_opts m (Some [0; 1]%Z) [zt 1 false; zt 2 true] with
      | Ok (_, r) => length r = 2 | Err _ => False end
  | Err _ => False end.
Proof. vm_compute. reflexivity. Qed.
(** Two epochs of three, and a run that the stop function ends. *)
Example C322_ex : let r1 := run (with_epochs (cfg0 Offpolicy None) 2) ones tests0 (fun _ => 10%Z) 10 10 true (new_trainer true) in
  let r2 := run (with_epochs (cfg0 Offpolicy None) 3) ones tests0 (fun _ => 10%Z) 10 12 true (new_trainer true) in
  snd r1 = Ok [1; 2]%Z /\ snd r2 = Ok [1; 2; 3]%Z /\ length (s_ev (fst r1)) < length (s_ev (fst r2)).
Proof. vm_compute. repeat split. lia. Qed.
