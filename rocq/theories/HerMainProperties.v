(** * Properties C17, C66, C67: hindsight experience replay *)
From Verif Require Import Py PyLemmas BufferModel BufferSpec BufferMainProofs HerModel HerSpec HerProofs HerMainProofs.
Open Scope nat_scope.

(** C17.  A HERReplayBuffer ([stack_num] 1) returns from every sequence of add / reset / update /
    sample calls exactly what a plain ReplayBuffer returns; what it would save (and what the next
    add / reset / update works on) is exactly the plain buffer's state; and meanwhile its rows
    differ from the plain buffer's in goals and rewards only. *)
Theorem C17_restore : forall (Ob0 G A Inf R : Type) (r0 : R) radd (last_frame : gobs Ob0 G -> gobs Ob0 G)
    rew_fn o n (ops : list (hop Ob0 G A Inf R)),
  stack_num o = 1 -> 0 < n -> Forall (hop_ok r0 radd last_frame o) ops ->
  match plain_run r0 radd last_frame o (buf_init r0 n) ops with
  | Ok (b, outs) =>
      exists h, h_run r0 radd last_frame rew_fn o (her_init r0 n) ops = Ok (h, outs)
        /\ h_saved h = b /\ b_st (h_buf h) = b_st b
        /\ forall i x, nth_error (meta_rows 0 (b_meta b)) i = Some (Some x) ->
             exists x', nth_error (meta_rows 0 (b_meta (h_buf h))) i = Some (Some x') /\ same_but_goal x x'
  | Err e => h_run r0 radd last_frame rew_fn o (her_init r0 n) ops = Err e
  end.
Proof. exact C17_restore_lemma. Qed.
Print Assumptions C17_restore.

(** C17.  What one sampling rewrites ([horizon] at least the remaining episode length): with
    [last_of q x] naming the episode of position [x], there is at most one goal position per
    sampled episode; it is a position of that same episode, at or after every sampled position
    of it; the rows of that episode from its first sampled position on get the goal achieved
    there, and every other row is unchanged. *)
Theorem C17_relabel : forall (Ob0 G A Inf R : Type) (r0 : R) radd (last_frame : gobs Ob0 G -> gobs Ob0 G)
    rew_fn o n (b : buf (gobs Ob0 G) A Inf R) q rnd idx P horizon offs hsel,
  stack_num o = 1 -> 0 < n -> reach r0 radd last_frame o n b q ->
  sample_indices plain b rnd (Some 0%Z) = Ok idx ->
  P <> [] -> (forall p, In p P -> p < length q) -> (forall p, In p P -> last_of q p < p + horizon) ->
  let at_ p := nth p idx 0 in
  exists h' (goal_pos : nat -> option nat),
    rewrite_transitions rew_fn o (mkHer b []) (map at_ P) horizon offs hsel = Ok h'
    /\ b_st (h_buf h') = b_st b
    /\ (forall x s f g, nth_error q x = Some s -> (exists p, In p P /\ last_of q p = last_of q x /\ p <= x) ->
          goal_pos (last_of q x) = Some f -> achieved o q f = Some g ->
          nth_error (meta_rows n (b_meta (h_buf h'))) (at_ x) = Some (Some (relabelled rew_fn o q x g s)))
    /\ (forall x s, nth_error q x = Some s ->
          (goal_pos (last_of q x) = None \/ ~ exists p, In p P /\ last_of q p = last_of q x /\ p <= x) ->
          nth_error (meta_rows n (b_meta (h_buf h'))) (at_ x) = Some (Some s))
    /\ (forall e f, goal_pos e = Some f ->
          f < length q /\ last_of q f = e /\ (exists g, achieved o q f = Some g)
          /\ (exists p, In p P /\ last_of q p = e) /\ (forall p, In p P -> last_of q p = e -> p <= f))
    /\ ((forall j, hsel j = true) -> forall p, In p P -> exists f, goal_pos (last_of q p) = Some f)
    /\ ((forall j, hsel j = false) -> forall e, goal_pos e = None).
Proof. exact C17_relabel_lemma. Qed.
Print Assumptions C17_relabel.

Theorem C66_reward_uses_new_goal_refuted : exists h outs x sn,
  grun gnosave (gops ++ [HSample (fun _ => 0) (Some 1%Z) 4 (fun _ => 0) (fun _ => true)]) = Ok (h, outs)
  /\ nth_error (meta_rows 4 (b_meta (h_buf h))) 0 = Some (Some x)
  /\ nth_error (meta_rows 4 (b_meta (h_buf h))) 1 = Some (Some sn)
  /\ g_ach (s_obs sn) = g_des (s_obs x)
  /\ grew (g_ach (s_obs sn)) (g_des (s_obs x)) = 1%Z /\ s_rew x = 0%Z.
Proof. exact C66_reward_uses_new_goal_refuted_lemma. Qed.
Print Assumptions C66_reward_uses_new_goal_refuted.

(** C66 (restricted).  With stored next observations the relabelled reward is the reward
    function applied to the achieved goal of the next observation and the new goal. *)
Theorem C66_saved_obs_next_partial : forall (Ob0 G A Inf R : Type) (rew_fn : G -> G -> R) o
    (q : list (slot (gobs Ob0 G) A Inf R)) x g s ob,
  save_obs_next o = true -> s_obs_next s = Some ob ->
  s_rew (relabelled rew_fn o q x g s) = rew_fn (g_ach ob) g
  /\ g_des (s_obs (relabelled rew_fn o q x g s)) = g
  /\ s_obs_next (relabelled rew_fn o q x g s) = Some (mkG (g_in ob) (g_ach ob) g).
Proof. exact C66_saved_obs_next_partial_lemma. Qed.
Print Assumptions C66_saved_obs_next_partial.

(** C67.  [update] from a HERReplayBuffer does not store the source's original transitions: the
    source relabels its rows while they are being listed, and the relabelled rows are copied
    (and never restored in the destination). *)
Theorem C67_update_from_her_refuted : exists src outs h' src' l x y,
  grun plain gops = Ok (src, outs) /\ h_alt src = []
  /\ h_update_from grew plain (her_init 0%Z 4) src 4 (fun _ => 0) (fun _ => true) = Ok (h', src', l)
  /\ nth_error (meta_rows 4 (b_meta (h_saved src))) 0 = Some (Some x)
  /\ nth_error (meta_rows 4 (b_meta (h_saved h'))) 0 = Some (Some y)
  /\ g_des (s_obs x) = 9 /\ g_des (s_obs y) = 3.
Proof. exact C67_update_from_her_refuted_lemma. Qed.
Print Assumptions C67_update_from_her_refuted.

(** C67 (restricted).  When no episode is selected for relabelling, [update] from a
    HERReplayBuffer is [update] from the plain buffer. *)
Theorem C67_no_relabelling_partial : forall (Ob0 G A Inf R : Type) (r0 : R) radd (last_frame : gobs Ob0 G -> gobs Ob0 G)
    rew_fn o n n2 (b src : buf (gobs Ob0 G) A Inf R) q q2 horizon offs hsel,
  0 < n -> 0 < n2 -> reach r0 radd last_frame o n b q -> reach r0 radd last_frame o n2 src q2 ->
  (forall j, hsel j = false) ->
  exists h' src' l, h_update_from rew_fn o (mkHer b []) (mkHer src []) horizon offs hsel = Ok (h', src', l)
    /\ update b src = Ok (h_saved h', l) /\ h_saved src' = src.
Proof. exact C67_no_relabelling_partial_lemma. Qed.
Print Assumptions C67_no_relabelling_partial.

(** ** Non-vacuity: capacity 4, an episode of three steps, a sampling, two more adds (the second
    wraps around), a sampling of everything, a reset, an add and another sampling. *)
Definition hex_ops : list (hop nat nat nat unit Z) :=
  gops ++ [HSample (fun k => k) (Some 2%Z) 5 (fun k => S k) (fun _ => true);
    HAdd (gt 4 4 7 5 0%Z 5 false); HAdd (gt 5 5 7 5 0%Z 6 false);
    HSample (fun _ => 0) (Some 0%Z) 5 (fun k => k) (fun e => e =? 1)].
Example C17_ex_ok : stack_num plain = 1 /\ Forall (hop_ok 0%Z Z.add (fun x => x) plain) hex_ops.
Proof. split; [reflexivity|]. repeat constructor. Qed.
(** The two sides of the theorem on this run: the plain run succeeds; the HER buffer's second
    episode (rows 3, 0) is relabelled with a goal achieved in it, and saving restores it. *)
Definition goals_of (b : buf (gobs nat nat) nat unit Z) : list (option (nat * Z)) :=
  map (option_map (fun s => (g_des (s_obs s), s_rew s))) (meta_rows 4 (b_meta b)).
Example C17_ex_run : exists h b outs, grun plain hex_ops = Ok (h, outs)
  /\ plain_run 0%Z Z.add (fun x => x) plain (buf_init 0%Z 4) hex_ops = Ok (b, outs)
  /\ goals_of (h_buf h) = [Some (6, 1%Z); Some (9, 0%Z); Some (9, 0%Z); Some (6, 0%Z)]
  /\ goals_of b = [Some (7, 0%Z); Some (9, 0%Z); Some (9, 0%Z); Some (7, 0%Z)]
  /\ h_saved h = b.
Proof. eexists _, _, _. repeat (split; [vm_compute; reflexivity|]). vm_compute; reflexivity. Qed.
(** The hypotheses of the relabelling theorem, for the buffer after the first three adds. *)
Definition hex_b : buf (gobs nat nat) nat unit Z :=
  match plain_run 0%Z Z.add (fun x => x) plain (buf_init 0%Z 4) gops with Ok (b, _) => b | Err _ => buf_init 0%Z 4 end.
Definition hex_q := map (kept (fun x => x) plain) [gt 0 0 9 5 0%Z 1 false; gt 1 1 9 5 0%Z 2 false; gt 2 2 9 5 0%Z 3 true].
Example C17_ex_reach : reach 0%Z Z.add (fun x => x) plain 4 hex_b hex_q.
Proof.
  change hex_q with (push 4 (push 4 (push 4 [] [kept (fun x => x) plain (gt 0 0 9 5 0%Z 1 false)])
     [kept (fun x => x) plain (gt 1 1 9 5 0%Z 2 false)]) [kept (fun x => x) plain (gt 2 2 9 5 0%Z 3 true)]).
  eapply reach_add; [eapply reach_add; [eapply reach_add; [apply reach_init|]|]|]; vm_compute; reflexivity.
Qed.
Example C17_ex_hyp : [2; 0] <> [] /\ (forall p, In p [2; 0] -> p < length hex_q)
  /\ (forall p, In p [2; 0] -> last_of hex_q p < p + 3)
  /\ sample_indices plain hex_b (fun _ => 0) (Some 0%Z) = Ok [0; 1; 2].
Proof.
  split; [discriminate|]. split; [intros p [<-|[<-|[]]]; cbn; lia|]. split; [intros p [<-|[<-|[]]]; vm_compute; lia|].
  vm_compute; reflexivity.
Qed.
Example C67_ex : exists h' src' l,
  h_update_from grew plain (mkHer (buf_init 0%Z 2) []) (mkHer hex_b []) 3 (fun _ => 0) (fun _ => false) = Ok (h', src', l)
  /\ l = [0; 1; 0].
Proof. eexists _, _, _. split; vm_compute; reflexivity. Qed.
