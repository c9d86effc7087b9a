(** * Restrictions of refuted properties under which they hold *)
From Coq Require Import Permutation Sorted.
From Verif Require Import Py PyLemmas Num SegTreeSpec BufferModel BufferSpec BufferProofs BufferMainProofs ManagerModel PrioModel PrioSpec PrioProofs PrioMainProofs PrioMainProperties RestrictModel GetIndicesModel GetIndicesProofs MaModel RestrictProofs.
From Verif Require VenvModel VenvMainProofs.
Import List ListNotations VenvModel.
Open Scope nat_scope.

(** C51 (restricted): [sample_indices(None)] draws as many stored indices as the buffer has; if the draws are distinct they are all of them, in some
    order. *)
Theorem C51_sample_none_partial : forall (Ob A Inf R : Type) (o : opts) (b : buf Ob A Inf R) rnd l,
  stack_num o = 1 \/ sample_avail o = false -> 0 < size (b_st b) -> sample_indices o b rnd None = Ok l ->
  length l = size (b_st b) /\ (forall i, In i l -> i < size (b_st b)) /\
  ((forall j k, j < k < size (b_st b) -> rnd j mod size (b_st b) <> rnd k mod size (b_st b)) -> Permutation l (seq 0 (size (b_st b)))).
Proof. exact C51_sample_none_partial_lemma. Qed.
Print Assumptions C51_sample_none_partial.

(** C56 (restricted to a [start] inside the buffer): a [stop] that does not lie in the same sub-buffer, beyond the last edge included, is refused. *)
Theorem C56_inside_partial : forall edges k lo hi start stop, StronglySorted Z.lt edges ->
  nth_error edges k = Some lo -> nth_error edges (S k) = Some hi -> (lo <= start < hi)%Z -> ~ (lo < stop <= hi)%Z ->
  get_buffer_indices edges start stop = Err ValueError.
Proof. exact C56_inside_partial_lemma. Qed.
Print Assumptions C56_inside_partial.

(** C62 (restricted to batch sizes that are not positive, where nothing is drawn by priority): the options are honoured as by ReplayBuffer. *)
Theorem C62_all_partial : forall (Ob A Inf R : Type) (o : opts) (b : pbuf Ob A Inf R) rnd draw (z : Z), (z <= 0)%Z ->
  pb_sample_indices o b rnd draw (Some z) = sample_indices o (pb_buf b) rnd (Some z) /\ pb_sample_indices o b rnd draw None = sample_indices o (pb_buf b) rnd None.
Proof. exact C62_all_partial_lemma. Qed.
Print Assumptions C62_all_partial.

(** C62.  With a positive batch size the options are ignored, whatever they are. *)
Theorem C62_ignored_refuted : forall (Ob A Inf R : Type) (o o' : opts) (b : pbuf Ob A Inf R) rnd rnd' draw (z : Z), (0 < z)%Z -> 0 < size (b_st (pb_buf b)) ->
  pb_sample_indices o b rnd draw (Some z) = pb_sample_indices o' b rnd' draw (Some z).
Proof. exact C62_ignored_refuted_lemma. Qed.
Print Assumptions C62_ignored_refuted.

(** C63 (restricted to the [set_beta] of PrioritizedReplayBuffer and PrioritizedReplayBufferManager): the weights are those of the new exponent,
    whatever was set before. *)
Theorem C63_own_partial : forall p (bs : list Qc) (b : betas) beta m index,
  vec_get_weight p (own_set_beta (fold_left own_set_beta bs b) beta) m index = get_weight (fun x => p x (- beta)%Qc) m index.
Proof. exact C63_own_partial_lemma. Qed.
Print Assumptions C63_own_partial.

(** C64 (restricted to sources that are not empty): after any history [update] succeeds; the moved rows get the highest priority seen, one ring slot
    after the other, and all other weights stay. *)
Theorem C64_update_partial : forall pw eps (Ob A Inf R : Type) (r0 : R) radd (last_frame : Ob -> Ob) o n (ops : list (PrioSpec.pop Ob A Inf R)) b src n2 q2,
  (forall x, (0 < x)%Qc -> (0 < pw x)%Qc) -> (0 < eps)%Qc -> 0 < n ->
  pops_ok pw eps r0 radd last_frame o n (ps_init n) ops -> p_run pw eps r0 radd last_frame o (pb_init r0 n) ops = Ok b ->
  0 < n2 -> reach r0 radd last_frame o n2 src q2 -> q2 <> [] ->
  let s := ps_run pw eps n ops in
  exists b' l, pb_update pw b src = Ok (b', l) /\
    forall i, i < n -> st_getitem (p_tree (pb_prio b')) (Z.of_nat i) = Ok (nth i (ring_fill n (ps_arr s) (ps_cnt s) (size (b_st src)) (pw (highest (ps_seen s)))) 0%Qc).
Proof. exact C64_update_partial_lemma. Qed.
Print Assumptions C64_update_partial.

(** C79 (restricted to calls that return): the reward array is as before, whatever the sub-policies do. *)
Theorem C79_normal_partial : forall (Row R X : Type) agent_idx (pf : nat -> list Row -> list R -> list nat -> list R -> res X) agents ids rows rews indice save r l,
  process agent_idx pf agents ids rows rews indice save = (r, Ok l) -> r = RFull save.
Proof. exact C79_normal_partial_lemma. Qed.
Print Assumptions C79_normal_partial.

(** C84 (restricted to ids that are not ready): they are refused before any action is sent. *)
Theorem C84_not_ready_partial : forall (E Act R : Type) (estep : E -> cmd Act -> E * R) dummy v acts ids i rounds,
  is_closed v = false -> is_async v = true -> In i ids -> (In i (waiting_id v) \/ ~ In i (ready_id v)) ->
  v_step estep dummy v (Some acts) (Some ids) rounds = (v, Err AssertionError).
Proof. exact C84_not_ready_partial_lemma. Qed.
Print Assumptions C84_not_ready_partial.

(** C85 (restricted to environments in the same process): after any steps, failed ones included, a step with legal ids returns the results of its own
    actions. *)
Theorem C85_dummy_partial : forall (E Act R : Type) (estep : E -> cmd Act -> E * R) (before : list (option (list Act) * option (list Z))) v acts ks,
  is_closed v = false -> is_async v = false -> ks <> [] -> NoDup ks -> Forall (fun k => k < length (workers v)) ks -> length acts = length ks ->
  let v0 := fold_left (fun v x => fst (v_step estep true v (fst x) (snd x) [])) before v in
  exists v' rs, v_step estep true v0 (Some acts) (Some (map Z.of_nat ks)) [] = (v', Ok (combine (map Z.of_nat ks) rs))
    /\ length rs = length ks
    /\ (forall j k a, nth_error ks j = Some k -> nth_error acts j = Some a -> exists e, nth_error (map w_env (workers v0)) k = Some e
          /\ nth_error rs j = Some (snd (estep e (CStep a))) /\ nth_error (map w_env (workers v')) k = Some (fst (estep e (CStep a)))).
Proof. exact C85_dummy_partial_lemma. Qed.
Print Assumptions C85_dummy_partial.

(** ** Non-vacuity *)
(** Two rows in a buffer of size 3; the draws 3 and 2 are distinct modulo 2. *)
Definition rx_buf : buf nat nat unit Z :=
  match zrun plain (buf_init 0%Z 3) [OpAdd (zt 7 false); OpAdd (zt 8 true)] with Ok (b, _) => b | Err _ => buf_init 0%Z 3 end.
Example C51_none_ex : size (b_st rx_buf) = 2 /\ sample_indices plain rx_buf (fun j => 3 - j) None = Ok [1; 0].
Proof. vm_compute. auto. Qed.
Example C56_inside_ex : StronglySorted Z.lt [0; 3; 5]%Z /\ get_buffer_indices [0; 3; 5]%Z 1%Z 9%Z = Err ValueError /\ get_buffer_indices [0; 3; 5]%Z 1%Z 3%Z = Ok [1; 2]%Z.
Proof. split; [repeat constructor | vm_compute; auto]. Qed.
(** A buffer with frame stacking and sample_avail: with batch size 0 the option filters, with batch size 2 it does not. *)
Definition rx_opts : opts := mkOpts 2 true false true.
Example C62_all_ex : match p_run psq (qq 1 8) 0%Z Z.add (fun x : nat => x) plain (pb_init 0%Z 3) (firstn 3 pex_ops) with
  | Ok b => pb_sample_indices rx_opts b (fun _ => 0) (fun _ => 0%Qc) (Some 0%Z) = Ok [1] /\ pb_sample_indices rx_opts b (fun _ => 0) (fun _ => 0%Qc) (Some 2%Z) = Ok [0; 0]
  | Err _ => False end.
Proof. vm_compute. auto. Qed.
Example C64_update_ex : match p_run psq (qq 1 8) 0%Z Z.add (fun x : nat => x) plain (pb_init 0%Z 3) (firstn 3 pex_ops) with
  | Ok b => match pb_update psq b pex_src with Ok (b', l) => l = [2] /\ mapM (fun i => match st_getitem (p_tree (pb_prio b')) i with Ok q => Ok (this q) | Err e => Err e end) [0; 1; 2]%Z = Ok [1 # 4; 4 # 1; 4 # 1]%Q | Err _ => False end
  | Err _ => False end.
Proof. vm_compute. auto. Qed.
Example C79_normal_ex : process (fun a => a - 1) (fun a (rows rews idx col : list nat) => Ok (a, rows, rews)) [1; 2; 3] [1; 2] [10; 20] [[5; 6]; [7; 8]] [0; 1] [[5; 6]; [7; 8]] = (RFull [[5; 6]; [7; 8]], Ok [(1, Some (1, [10], [5])); (2, Some (2, [20], [8])); (3, None)]).
Proof. vm_compute. auto. Qed.
(** Two of three environments are asked for; environment 1 is waiting after the first call. *)
Example C84_not_ready_ex : let v := fst (v_step VenvMainProofs.echo false (VenvMainProofs.start 3 1) (Some [1; 2]) (Some [0; 1]%Z) [Some [0]]) in
  is_closed v = false /\ is_async v = true /\ waiting_id v = [1%Z] /\ snd (v_step VenvMainProofs.echo false v (Some [1; 2]) (Some [0; 1]%Z) []) = Err AssertionError.
Proof. vm_compute. auto. Qed.
(** The failed call of the refutation C85_stale_result, with DummyVectorEnv: the next step returns the result of its own action. *)
Example C85_dummy_ex : let v := fst (v_step VenvMainProofs.echo true (VenvMainProofs.start 2 2) (Some [7; 8]) (Some [0; 5]%Z) []) in
  snd (v_step VenvMainProofs.echo true (VenvMainProofs.start 2 2) (Some [7; 8]) (Some [0; 5]%Z) []) = Err IndexError /\
  snd (v_step VenvMainProofs.echo true v (Some [9]) (Some [0%Z]) []) = Ok [(0%Z, (2, CStep 9))].
Proof. vm_compute. auto. Qed.
