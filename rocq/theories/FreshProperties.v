(** * Property C367: a reset collector starts afresh *)
From Verif Require Import Py BufferModel ManagerModel CollectModel FreshSpec FreshProofs.
Open Scope nat_scope.
Open Scope list_scope.

(** C367.  reset() gives the same collector whatever was observed, counted or remembered before. *)
Theorem C367_reset : forall (Ob A Inf R H ES PS : Type) (r0 : R) (ereset : nat -> ES -> ES * (Ob * Inf)) (reset_buffer : bool) (c1 c2 : coll Ob A Inf R H ES PS),
  same_parts c1 c2 -> reset r0 ereset reset_buffer c1 = reset r0 ereset reset_buffer c2.
Proof. exact C367_reset_lemma. Qed.
Print Assumptions C367_reset.

(** C367.  So collecting with reset_before_collect depends only on the environments, the policy and the buffer. *)
Theorem C367_collect : forall (Ob A B Inf R H ES PS : Type) (r0 : R) (radd : R -> R -> R) (last_frame : Ob -> Ob) (o : opts) (estep : nat -> ES -> B -> ES * sres Ob Inf R)
    (ereset : nat -> ES -> ES * (Ob * Inf)) (act_fn : PS -> list nat -> list Ob -> list Inf -> option (list H) -> PS * (list (A * B) * option (list H)))
    (hreset : list nat -> list H -> list H) (hook : list (row_out Ob A Inf R) -> bool) (fuel : nat) (n_step n_episode : option nat) (c1 c2 : coll Ob A Inf R H ES PS),
  same_parts c1 c2 ->
  collect r0 radd last_frame o estep ereset act_fn hreset hook fuel n_step n_episode true c1
  = collect r0 radd last_frame o estep ereset act_fn hreset hook fuel n_step n_episode true c2.
Proof. exact C367_collect_lemma. Qed.
Print Assumptions C367_collect.

(** C367.  If the environments start alike after every reset, reset() of the buffer too leaves nothing of the past but rows that no longer count. *)
Theorem C367_memoryless : forall (Ob A Inf R H ES PS : Type) (r0 : R) (ereset : nat -> ES -> ES * (Ob * Inf)) (c1 c2 : coll Ob A Inf R H ES PS),
  (forall e s s', ereset e s = ereset e s') -> same_sizes c1 c2 ->
  match reset r0 ereset true c1, reset r0 ereset true c2 with
  | Ok c1', Ok c2' => same_but_rows c1' c2'
  | Err e, Err e' => e = e'
  | _, _ => False
  end.
Proof. exact C367_memoryless_lemma. Qed.
Print Assumptions C367_memoryless.

(** C367.  The first call of the policy after a reset gets the observations of the reset and no hidden state, and the counts start at 0. *)
Theorem C367_first_call : forall (Ob A B Inf R H ES PS : Type) (r0 : R) (ereset : nat -> ES -> ES * (Ob * Inf)) (reset_buffer : bool) (n_step n_episode : option nat)
    (c c' : coll Ob A Inf R H ES PS) (l : loop Ob A B Inf R H ES PS),
  reset r0 ereset reset_buffer c = Ok c' -> start n_step n_episode c' = Ok l ->
  l_hid l = None /\ l_steps l = 0 /\ l_eps l = 0 /\ c_step c' = 0 /\ c_episode c' = 0 /\
  exists es rs, reset_envs ereset (c_envs c) (seq 0 (length (c_envs c))) = Ok (es, rs) /\ l_envs l = es /\
    forall j id, nth_error (l_ready l) j = Some id -> option_map (fun x => (Some (fst x), Some (snd x))) (nth_error rs id) = Some (nth_error (l_obs l) j, nth_error (l_inf l) j).
Proof. exact C367_first_call_lemma. Qed.
Print Assumptions C367_first_call.

(** C367.  After collecting whole episodes the collector stands as after reset_env: with the observations of new episodes and no hidden state. *)
Theorem C367_after_episodes : forall (Ob A B Inf R H ES PS : Type) (r0 : R) (radd : R -> R -> R) (last_frame : Ob -> Ob) (o : opts) (estep : nat -> ES -> B -> ES * sres Ob Inf R)
    (ereset : nat -> ES -> ES * (Ob * Inf)) (act_fn : PS -> list nat -> list Ob -> list Inf -> option (list H) -> PS * (list (A * B) * option (list H)))
    (hreset : list nat -> list H -> list H) (hook : list (row_out Ob A Inf R) -> bool) (fuel n : nat) (reset_before : bool) (c c' : coll Ob A Inf R H ES PS) (l : loop Ob A B Inf R H ES PS),
  collect r0 radd last_frame o estep ereset act_fn hreset hook fuel None (Some n) reset_before c = Ok (c', l) ->
  c_hid c' = None /\ exists es rs, reset_envs ereset (l_envs l) (seq 0 (length (l_envs l))) = Ok (es, rs) /\ c_envs c' = es /\ c_pre c' = Some (map fst rs, map snd rs) /\
  c_mgr c' = l_mgr l /\ c_pol c' = l_pol l.
Proof. exact C367_after_episodes_lemma. Qed.
Print Assumptions C367_after_episodes.

(** ** Non-vacuity *)
(** Environments that count their steps and end after three; the hidden state counts the calls of the policy. *)
Definition fr_step (e s b : nat) : nat * sres nat unit nat := (S s, mkSres (S s) 1 (S s =? 3) false tt).
Definition fr_reset (e s : nat) : nat * (nat * unit) := (0, (0, tt)).
Definition fr_act (p : unit) (ids obs : list nat) (inf : list unit) (h : option (list nat)) : unit * (list (nat * nat) * option (list nat)) :=
  let h := match h with Some h => h | None => map (fun _ => 0) ids end in (p, (map (fun x => (x, x)) h, Some (map S h))).
Definition fr_o : opts := mkOpts 1 false true false.
Definition fr_c (s : nat) (obs : list nat) (h : option (list nat)) (n : nat) : coll nat nat unit nat nat nat unit :=
  mkColl [s; s] (m_init 0 [4; 4]) tt (Some (obs, [tt; tt])) h n n.
Definition fr_collect (ns ne : option nat) (rb : bool) (c : coll nat nat unit nat nat nat unit) :=
  collect 0 Nat.add (fun x => x) fr_o fr_step fr_reset fr_act (fun _ h => h) (fun _ => false) 20 ns ne rb c.
(** Without a reset the hidden state of the past shows in the actions, with one it does not. *)
Example C367_ex : exists c1 l1 c2 l2 c3 l3, fr_collect (Some 2) None false (fr_c 1 [1; 1] (Some [5; 6]) 9) = Ok (c1, l1)
  /\ fr_collect (Some 2) None true (fr_c 1 [1; 1] (Some [5; 6]) 9) = Ok (c2, l2) /\ fr_collect (Some 2) None true (fr_c 1 [0; 0] None 0) = Ok (c3, l3)
  /\ l_calls l1 = [([0; 1], [1; 1], [(5, 5); (6, 6)])] /\ l_calls l2 = [([0; 1], [0; 0], [(0, 0); (0, 0)])] /\ c2 = c3 /\ l2 = l3.
Proof. do 6 eexists. repeat (split; [vm_compute; reflexivity|]). vm_compute. reflexivity. Qed.
Example C367_ex_parts : same_parts (fr_c 1 [1; 1] (Some [5; 6]) 9) (fr_c 1 [0; 0] None 0) /\ same_sizes (fr_c 1 [1; 1] (Some [5; 6]) 9) (fr_c 2 [0; 0] None 0)
  /\ (forall e s s', fr_reset e s = fr_reset e s') /\ is_ok (reset 0 fr_reset true (fr_c 1 [1; 1] (Some [5; 6]) 9)) = true.
Proof. repeat split. Qed.
Example C367_ex_episodes : exists c l, fr_collect None (Some 2) false (fr_c 0 [0; 0] None 0) = Ok (c, l) /\ l_hid l <> None /\ c_hid c = None /\ c_pre c = Some ([0; 0], [tt; tt]).
Proof. do 2 eexists. split; [vm_compute; reflexivity|]. split; [vm_compute; discriminate|]. split; reflexivity. Qed.
