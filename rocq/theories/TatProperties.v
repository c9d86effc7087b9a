(** * Properties C335, C336: changes of rewards and flags commute with collecting; TruncatedAsTerminated *)
From Verif Require Import Py PyLemmas Num BufferModel ManagerModel GetIndicesModel CollectModel ReturnsModel TatModel TatSpec TatProofs.
Open Scope nat_scope.

(** C335. Whatever is done to the rewards by a function that respects the addition, and to the flags
    without changing whether an episode ends, by the environment can as well be done to the collected
    data: collector, buffer, statistics, episodes given to the hook and errors are the same. *)
Theorem C335_collect : forall (Ob A B Inf R R' H ES PS : Type) (r0 : R) (radd : R -> R -> R) (r0' : R') (radd' : R' -> R' -> R') (f : R -> R') (g : bool -> bool -> bool * bool)
    (last_frame : Ob -> Ob) (o : opts) (estep : nat -> ES -> B -> ES * sres Ob Inf R) (ereset : nat -> ES -> ES * (Ob * Inf))
    (act_fn : PS -> list nat -> list Ob -> list Inf -> option (list H) -> PS * (list (A * B) * option (list H))) (hreset : list nat -> list H -> list H)
    (hook : list (row_out Ob A Inf R) -> bool) (hook' : list (row_out Ob A Inf R') -> bool) (fuel : nat) (n_step n_episode : option nat) (reset_before : bool) (c : coll Ob A Inf R H ES PS),
  f r0 = r0' -> (forall x y, f (radd x y) = radd' (f x) (f y)) -> (forall a b, fst (g a b) || snd (g a b) = a || b) -> (forall rows, hook' (map (map_out f g) rows) = hook rows) ->
  CollectModel.collect r0' radd' last_frame o (map_step f g estep) ereset act_fn hreset hook' fuel n_step n_episode reset_before (map_coll f g c) =
  rmap (fun x => (map_coll f g (fst x), map_loop f g (snd x))) (CollectModel.collect r0 radd last_frame o estep ereset act_fn hreset hook fuel n_step n_episode reset_before c).
Proof. exact C335_collect_lemma. Qed.
Print Assumptions C335_collect.

(** C336. Collecting from environments wrapped in TruncatedAsTerminated stores the same data with
    terminated set at truncated rows: policy, statistics, bookkeeping of the buffer are the same. *)
Theorem C336_collect : forall (Ob A B Inf R H ES PS : Type) (r0 : R) (radd : R -> R -> R)
    (last_frame : Ob -> Ob) (o : opts) (estep : nat -> ES -> B -> ES * sres Ob Inf R) (ereset : nat -> ES -> ES * (Ob * Inf))
    (act_fn : PS -> list nat -> list Ob -> list Inf -> option (list H) -> PS * (list (A * B) * option (list H))) (hreset : list nat -> list H -> list H)
    (fuel : nat) (n_step n_episode : option nat) (reset_before : bool) (c : coll Ob A Inf R H ES PS),
  let no_hook := fun _ : list (row_out Ob A Inf R) => false in
  let run := fun step c => CollectModel.collect r0 radd last_frame o step ereset act_fn hreset no_hook fuel n_step n_episode reset_before c in
  let tat := map_coll (fun x : R => x) tat_flags in
  match run estep c with
  | Err e => run (tat_step estep) (tat c) = Err e
  | Ok (c', l) => exists l', run (tat_step estep) (tat c) = Ok (tat c', l') /\ l_stats l' = l_stats l /\ l_calls l' = l_calls l /\ m_bufs (c_mgr (tat c')) = m_bufs (c_mgr c')
  end.
Proof. exact C336_collect_lemma. Qed.
Print Assumptions C336_collect.

(** C336. The GAE returns of the wrapped data are those of the original data with the values of the
    next states set to 0 at truncated rows. *)
Theorem C336_gae : forall (Ob A Inf : Type) (m : mgr Ob A Inf Qc) (batch : list (Qc * bool * bool)) (indices : list Z) (v : list Qc) (v_s : option (list Qc)) (gamma lam : Qc),
  length v = length indices ->
  compute_episodic_return (mgr_view (map_mgr (fun x => x) tat_flags m)) (map (fun x => (fst (fst x), fst (tat_flags (snd (fst x)) (snd x)), snd (tat_flags (snd (fst x)) (snd x)))) batch) indices (Some v) v_s gamma lam =
  compute_episodic_return (mgr_view m) batch indices (Some (cut v (truncated_at m indices))) v_s gamma lam.
Proof. exact C336_gae_lemma. Qed.
Print Assumptions C336_gae.

(** C336. The n-step returns of the wrapped data are those of the original data with the target
    values set to 0 at truncated rows. *)
Theorem C336_nstep : forall (Ob A Inf : Type) (m : mgr Ob A Inf Qc) (n : nat) (indices : list Z) (tq : list Z -> list (list Qc)) (gamma : Qc) (N : nat) (rew_norm : bool),
  (forall idx, length (tq idx) = length idx) ->
  compute_nstep_return (mgr_view (map_mgr (fun x => x) tat_flags m)) n indices tq gamma N rew_norm =
  compute_nstep_return (mgr_view m) n indices (fun idx => cut_rows (tq idx) (truncated_at m idx)) gamma N rew_norm.
Proof. exact C336_nstep_lemma. Qed.
Print Assumptions C336_nstep.

(** C336. So no value of a state after the end of an episode is used, whether it ended by termination
    or by truncation. *)
Theorem C336_end : forall (Ob A Inf : Type) (m : mgr Ob A Inf Qc) (batch : list (Qc * bool * bool)) (indices : list Z) (v v' : list Qc) (v_s : option (list Qc)) (gamma lam : Qc),
  done_sound m -> length v = length indices -> length v' = length indices ->
  (forall j i, nth_error indices j = Some i -> done_at m i = false -> nth_error v j = nth_error v' j) ->
  compute_episodic_return (mgr_view (map_mgr (fun x => x) tat_flags m)) batch indices (Some v) v_s gamma lam =
  compute_episodic_return (mgr_view (map_mgr (fun x => x) tat_flags m)) batch indices (Some v') v_s gamma lam.
Proof. exact C336_end_lemma. Qed.
Print Assumptions C336_end.

(** C336. The data that are collected satisfy the condition. *)
Theorem C336_sound : forall (Ob A Inf : Type) (last_frame : Ob -> Ob) (o : opts) (m m' : mgr Ob A Inf Qc) (ids : option (list Z)) (ts : list (trans Ob A Inf Qc)) reps,
  done_sound m -> m_add 0%Qc Qcplus last_frame o m ids ts = Ok (m', reps) -> done_sound m'.
Proof. exact C336_sound_lemma. Qed.
Print Assumptions C336_sound.

(** ** Non-vacuity: two environments that count their steps; number 0 is truncated after three steps,
    number 1 terminates after two.  Rewards are pairs, of which the second component is used. *)
Definition ex_o : opts := mkOpts 1 true false false.
Definition ex_add (x y : Z * Z) : Z * Z := (fst x + fst y, snd x + snd y)%Z.
Definition ex_step (e s : nat) (b : nat) : nat * sres nat nat (Z * Z) :=
  (S s, mkSres (10 * e + S s) (Z.of_nat b, Z.of_nat (S s)) ((e =? 1) && (S s =? 2)) ((e =? 0) && (S s =? 3)) 0).
Definition ex_reset (e s : nat) : nat * (nat * nat) := (0, (10 * e, 0)).
Definition ex_act (p : nat) (ids obs inf : list nat) (h : option (list unit)) : nat * (list (nat * nat) * option (list unit)) := (S p, (map (fun x => (x, x + p)) obs, None)).
Definition ex_c : coll nat nat nat (Z * Z) unit nat nat := mkColl [0; 0] (m_init (0, 0)%Z [4; 4]) 0 (Some ([0; 10], [0; 0])) None 0 0.
Example C335_ex : match CollectModel.collect (0, 0)%Z ex_add (fun x => x) ex_o ex_step ex_reset ex_act (fun _ h => h) (fun _ => false) 20 (Some 10) None false ex_c with
  | Ok (c, l) => st_returns (l_stats l) = [(22, 3); (6, 6); (26, 3)]%Z /\ st_lens (l_stats l) = [2; 3; 2]
      /\ option_map (map (option_map (fun s => (s_rew s, s_term s, s_trunc s)))) (m_meta (map_mgr snd tat_flags (c_mgr c))) =
           Some [Some (2%Z, false, false); Some (2%Z, false, false); Some (3%Z, true, true); Some (1%Z, false, false);
                 Some (1%Z, false, false); Some (2%Z, true, false); Some (1%Z, false, false); Some (2%Z, true, false)]
      /\ map (fun x => length x) (l_hook l) = [2; 3; 2]
  | Err _ => False end
  /\ (forall x y, snd (ex_add x y) = snd x + snd y)%Z /\ (forall a b, fst (tat_flags a b) || snd (tat_flags a b) = a || b).
Proof. split; [vm_compute; repeat split|]. split; [reflexivity|]. intros [] []; reflexivity. Qed.

Definition exq_step (e s : nat) (b : nat) : nat * sres nat nat Qc :=
  (S s, mkSres (10 * e + S s) 1%Qc ((e =? 1) && (S s =? 2)) ((e =? 0) && (S s =? 3)) 0).
Definition exq_c : coll nat nat nat Qc unit nat nat := mkColl [0; 0] (m_init 0%Qc [4; 4]) 0 (Some ([0; 10], [0; 0])) None 0 0.
Definition exq_run (step : nat -> nat -> nat -> nat * sres nat nat Qc) := CollectModel.collect 0%Qc Qcplus (fun x => x) ex_o step ex_reset ex_act (fun _ h => h) (fun _ => false) 20 (Some 8) None false exq_c.
Definition ex_batch (m : mgr nat nat nat Qc) : list (Qc * bool * bool) := match m_meta m with Some l => map (fun s => match s with Some s => (s_rew s, s_term s, s_trunc s) | None => (0%Qc, false, false) end) l | None => [] end.
Definition ex_idx : list Z := [0; 1; 2; 3; 4; 5; 6; 7]%Z.
Definition ex_gae (m : mgr nat nat nat Qc) : list Q :=
  match compute_episodic_return (mgr_view m) (ex_batch m) ex_idx (Some (repeat (Q2Qc 10) 8)) None 1%Qc 1%Qc with Ok (r, _) => map this r | Err _ => [] end.
Definition ex_nstep (m : mgr nat nat nat Qc) : list (list Q) :=
  match compute_nstep_return (mgr_view m) 8 ex_idx (fun idx => map (fun _ => [Q2Qc 10]) idx) 1%Qc 2 false with Ok r => map (map this) r | Err _ => [] end.
Example C336_ex : match exq_run exq_step, exq_run (tat_step exq_step) with
  | Ok (c, l), Ok (c', l') => c' = map_coll (fun x => x) tat_flags c /\ l_calls l' = l_calls l /\ st_lens (l_stats l') = [2; 3; 2]
      /\ truncated_at (c_mgr c) ex_idx = [false; false; true; false; false; false; false; false]
      /\ map (done_at (c_mgr c)) ex_idx = [false; false; true; false; false; true; false; true]
      /\ ex_gae (c_mgr c) = [13; 12; 11; 11; 2; 1; 2; 1]%Q /\ ex_gae (c_mgr c') = [3; 2; 1; 11; 2; 1; 2; 1]%Q
      /\ ex_nstep (c_mgr c) = [[12]; [12]; [11]; [11]; [2]; [1]; [2]; [1]]%Q /\ ex_nstep (c_mgr c') = [[12]; [2]; [1]; [11]; [2]; [1]; [2]; [1]]%Q
  | _, _ => False end.
Proof. vm_compute. repeat split. Qed.
