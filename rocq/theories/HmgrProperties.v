(** * Property C265: hindsight experience replay with several sub-buffers *)
From Verif Require Import Py PyLemmas BufferModel BufferSpec BufferMainProofs ManagerModel ManagerSpec HerModel HerSpec HerMainProofs HmgrModel HmgrSpec HmgrProofs.
Open Scope nat_scope.

(** C265. A HERReplayBufferManager ([stack_num] 1) returns from every sequence of add / reset / sample calls exactly what a plain
    ReplayBufferManager returns; what it would save (and what the next add / reset works on) is exactly the plain manager's state; and meanwhile
    its rows differ from the plain manager's in goals and rewards only. *)
Theorem C265_restore : forall (Ob0 G A Inf R : Type) (r0 : R) radd (last_frame : gobs Ob0 G -> gobs Ob0 G) rew_fn o ns (ops : list (hmop Ob0 G A Inf R)),
  stack_num o = 1 -> (forall n, In n ns -> 0 < n) ->
  match mp_run r0 radd last_frame o (m_init r0 ns) ops with
  | Ok (m, outs) =>
      exists h, hm_run r0 radd last_frame rew_fn o (hm_init r0 ns) ops = Ok (h, outs)
        /\ hm_saved h = m /\ m_bufs (hm_mgr h) = m_bufs m /\ m_last (hm_mgr h) = m_last m /\ m_lens (hm_mgr h) = m_lens m
        /\ forall i x, nth_error (meta_rows 0 (m_meta m)) i = Some (Some x) ->
             exists x', nth_error (meta_rows 0 (m_meta (hm_mgr h))) i = Some (Some x') /\ same_but_goal x x'
  | Err e => hm_run r0 radd last_frame rew_fn o (hm_init r0 ns) ops = Err e
  end.
Proof. exact C265_restore_lemma. Qed.
Print Assumptions C265_restore.

(** C265. What one sampling rewrites ([horizon] at least the remaining episode lengths), in sub-buffer [k] with contents [q]: at most one goal
    position per episode with sampled transitions; it is a position of that same episode of that same sub-buffer, at or after every sampled
    position of it; the rows of that episode from its first sampled position on get the goal achieved there, and every other row is as stored -
    also when an earlier sampling had relabelled it. *)
Theorem C265_relabel : forall (Ob0 G A Inf R : Type) (r0 : R) radd (last_frame : gobs Ob0 G -> gobs Ob0 G) rew_fn o ns (ops : list (hmop Ob0 G A Inf R))
    h outs rnd_b rnd bs horizon offs hsel h' l k,
  stack_num o = 1 -> (forall n, In n ns -> 0 < n) -> k < length ns ->
  hm_run r0 radd last_frame rew_fn o (hm_init r0 ns) ops = Ok (h, outs) ->
  hm_sample rew_fn o h rnd_b rnd bs horizon offs hsel = Ok (h', l) -> match bs with Some z => (0 <= z)%Z | None => True end ->
  let q := mqueue last_frame o ns (writes ops) k in
  let at_ p := maddress ns (writes ops) (k, p) in
  let rows := meta_rows 0 (m_meta (hm_mgr h')) in
  (forall p, p < length q -> last_of q p < p + horizon) ->
  exists goal_pos : nat -> option nat,
    (forall x s f g, nth_error q x = Some s -> (exists p, In (at_ p) l /\ last_of q p = last_of q x /\ p <= x) ->
       goal_pos (last_of q x) = Some f -> achieved o q f = Some g -> nth_error rows (at_ x) = Some (Some (relabelled rew_fn o q x g s)))
    /\ (forall x s, nth_error q x = Some s -> (goal_pos (last_of q x) = None \/ ~ exists p, In (at_ p) l /\ last_of q p = last_of q x /\ p <= x) ->
       nth_error rows (at_ x) = Some (Some s))
    /\ (forall e f, goal_pos e = Some f ->
          f < length q /\ last_of q f = e /\ (exists g, achieved o q f = Some g)
          /\ (exists p, p < length q /\ In (at_ p) l /\ last_of q p = e) /\ (forall p, p < length q -> In (at_ p) l -> last_of q p = e -> p <= f))
    /\ ((forall j, hsel k j = true) -> forall p, p < length q -> In (at_ p) l -> exists f, goal_pos (last_of q p) = Some f)
    /\ ((forall j, hsel k j = false) -> forall e, goal_pos e = None).
Proof. exact C265_relabel_lemma. Qed.
Print Assumptions C265_relabel.

(** C265. A negative batch size: no sub-buffer restores its rows, unlike in a single HERReplayBuffer. *)
Theorem C265_negative : forall (Ob0 G A Inf R : Type) (rew_fn : G -> G -> R) o (h : hmgr Ob0 G A Inf R) (h1 : her Ob0 G A Inf R) rnd_b rnd rnd1 z horizon offs hsel offs1 hsel1,
  (z < 0)%Z -> stack_num o = 1 ->
  hm_sample rew_fn o h rnd_b rnd (Some z) horizon offs hsel = Ok (h, [])
  /\ h_sample rew_fn o h1 rnd1 (Some z) horizon offs1 hsel1 = Ok (restore_cache h1, []).
Proof. exact C265_negative_lemma. Qed.
Print Assumptions C265_negative.

(** C265. After [set_batch] the rows are the given ones and no sub-buffer holds rows to put back, whatever was
    sampled before. *)
Theorem C265_set_batch : forall (Ob0 G A Inf R : Type) (h : hmgr Ob0 G A Inf R) rows,
  m_meta (hm_mgr (hm_set_batch h rows)) = Some rows /\ m_bufs (hm_mgr (hm_set_batch h rows)) = m_bufs (hm_mgr h) /\
  Forall (fun l => l = []) (hm_alts (hm_set_batch h rows)).
Proof. exact C265_set_batch_lemma. Qed.
Print Assumptions C265_set_batch.

(** ** Non-vacuity: capacities 4 and 3; sub-buffer 0 gets an episode of three steps and one step more, sub-buffer 1 two steps of an episode. *)
Definition mg_ops : list (hmop nat nat nat unit Z) :=
  [GAdd None [gt 0 0 9 5 0%Z 1 false; gt 10 10 8 5 0%Z 11 false]; GAdd (Some [0%Z]) [gt 1 1 9 5 0%Z 2 false];
   GAdd (Some [(-2)%Z; 1%Z]) [gt 2 2 9 5 0%Z 3 true; gt 11 11 8 5 0%Z 12 false];
   GSample (fun j => j) (fun _ j => j) (Some 4%Z) 4 (fun _ j => S j) (fun _ _ => true);
   GAdd (Some [0%Z]) [gt 4 4 7 5 0%Z 5 false]].
Definition mg_run (ops : list (hmop nat nat nat unit Z)) := hm_run 0%Z Z.add (fun x => x) grew plain (hm_init 0%Z [4; 3]) ops.
Definition mg_goals (m : mgr (gobs nat nat) nat unit Z) : list (option (nat * Z)) :=
  map (option_map (fun s => (g_des (s_obs s), s_rew s))) (meta_rows 0 (m_meta m)).
(** Sampling transitions of sub-buffer 0 only relabels its first episode; those of sub-buffer 1, relabelled before, are restored. *)
Definition mg_s1 : list (hmop nat nat nat unit Z) := mg_ops ++ [GSample (fun j => 4) (fun _ j => j) (Some 1%Z) 4 (fun _ _ => 1) (fun _ _ => true)].
Definition mg_s2 : list (hmop nat nat nat unit Z) := mg_s1 ++ [GSample (fun j => 0) (fun _ j => j) (Some 1%Z) 4 (fun _ _ => 1) (fun _ _ => true)].
Example C265_ex_run : exists h1 o1 h2 o2 m, mg_run mg_s1 = Ok (h1, o1) /\ mg_run mg_s2 = Ok (h2, o2)
  /\ mp_run 0%Z Z.add (fun x => x) plain (m_init 0%Z [4; 3]) mg_s2 = Ok (m, o2)
  /\ mg_goals m = [Some (9, 0%Z); Some (9, 0%Z); Some (9, 0%Z); Some (7, 0%Z); Some (8, 0%Z); Some (8, 0%Z); None]
  /\ mg_goals (hm_mgr h1) = [Some (9, 0%Z); Some (9, 0%Z); Some (9, 0%Z); Some (7, 0%Z); Some (12, 0%Z); Some (12, 1%Z); None]
  /\ mg_goals (hm_mgr h2) = [Some (2, 0%Z); Some (2, 1%Z); Some (2, 0%Z); Some (7, 0%Z); Some (8, 0%Z); Some (8, 0%Z); None]
  /\ hm_saved h1 = m /\ hm_saved h2 = m.
Proof. eexists _, _, _, _, _. repeat (split; [vm_compute; reflexivity|]). vm_compute. reflexivity. Qed.
Example C265_ex_horizon : let q := mqueue (fun x => x) plain [4; 3] (writes mg_ops) 0 in
  length q = 4 /\ map (last_of q) [0; 1; 2; 3] = [2; 2; 2; 3] /\ forallb (fun p => last_of q p <? p + 4) [0; 1; 2; 3] = true.
Proof. vm_compute. repeat split. Qed.
(** After sampling with batch size -1 the rows are still relabelled. *)
Example C265_ex_negative : exists h o1, mg_run (mg_s1 ++ [GSample (fun j => 0) (fun _ j => j) (Some (-1)%Z) 4 (fun _ _ => 1) (fun _ _ => true)]) = Ok (h, o1)
  /\ mg_goals (hm_mgr h) = [Some (9, 0%Z); Some (9, 0%Z); Some (9, 0%Z); Some (7, 0%Z); Some (12, 0%Z); Some (12, 1%Z); None].
Proof. eexists _, _. split; vm_compute; reflexivity. Qed.
