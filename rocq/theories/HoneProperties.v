(** * Property C358: a HERVectorReplayBuffer with one sub-buffer *)
From Verif Require Import Py PyLemmas TatSpec BufferModel BufferSpec ManagerModel SpcSpec HerModel HerSpec HmgrModel HmgrSpec HoneSpec HoneProofs.
Open Scope nat_scope.

(** C358. A HERVectorReplayBuffer with one sub-buffer returns from every sequence of adding single transitions, resetting and sampling with relabelling what a
    HERReplayBuffer of its capacity returns, holds the same rows, rewritten or not, and the same rows to put back, and raises the same errors. *)
Theorem C358_run : forall (Ob0 G A Inf R : Type) (r0 : R) (radd : R -> R -> R) (last_frame : gobs Ob0 G -> gobs Ob0 G) (rew_fn : G -> G -> R) (o : opts) (n : nat)
    (ids : option (list Z)) (rb : nat -> nat) (ops : list (hop Ob0 G A Inf R)),
  stack_num o = 1 -> ids = None \/ ids = Some [0%Z] -> Forall shared_call ops ->
  vec_sizes n 1 = Ok [n] /\
  hm_run r0 radd last_frame rew_fn o (hm_init r0 [n]) (map (manager_call ids rb) ops)
  = rmap (fun x => (as_hmanager (fst x), map manager_out (snd x))) (h_run r0 radd last_frame rew_fn o (her_init r0 n) ops).
Proof. exact C358_run_lemma. Qed.
Print Assumptions C358_run.

(** C358. Both save the same rows. *)
Theorem C358_saved : forall (Ob0 G A Inf R : Type) (r0 : R) (radd : R -> R -> R) (last_frame : gobs Ob0 G -> gobs Ob0 G) (rew_fn : G -> G -> R) (o : opts) (n : nat)
    (ops : list (hop Ob0 G A Inf R)) (h : her Ob0 G A Inf R) outs,
  stack_num o = 1 -> Forall shared_call ops -> h_run r0 radd last_frame rew_fn o (her_init r0 n) ops = Ok (h, outs) ->
  hm_saved (as_hmanager h) = as_manager (h_saved h).
Proof. exact C358_saved_lemma. Qed.
Print Assumptions C358_saved.

(** ** Non-vacuity: an episode of three steps and one step more in a buffer of capacity 4, sampled twice. *)
Definition ht (i a d : nat) (a' : nat) (dn : bool) : trans (gobs nat nat) nat unit Z :=
  mkTrans (mkG i a d) 5 0%Z dn false (mkG (i + 1) a' d) tt.
Definition h_ex (more : list (hop nat nat nat unit Z)) : list (hop nat nat nat unit Z) :=
  [HAdd (ht 0 0 9 1 false); HAdd (ht 1 1 9 2 false); HAdd (ht 2 2 9 3 true); HSample (fun j => j) (Some 2%Z) 4 (fun _ => 1) (fun _ => true); HAdd (ht 4 4 7 5 false)] ++ more.
Definition h_again : list (hop nat nat nat unit Z) := [HSample (fun j => j) (Some 1%Z) 4 (fun _ => 1) (fun _ => true)].
Definition hx_opts : opts := mkOpts 1 true false false.
Definition h_goals (b : buf (gobs nat nat) nat unit Z) : list (option (nat * Z)) :=
  map (option_map (fun s => (g_des (s_obs s), s_rew s))) (meta_rows 0 (b_meta b)).
Example C358_ex : exists h outs, h_run 0%Z Z.add (fun x => x) (fun a g => if a =? g then 1%Z else 0%Z) hx_opts (her_init 0%Z 4) (h_ex h_again) = Ok (h, outs)
  /\ h_goals (h_buf h) = [Some (2, 0%Z); Some (2, 1%Z); Some (2, 0%Z); Some (7, 0%Z)] /\ length (h_alt h) = 4 /\ h_goals (h_saved h) = [Some (9, 0%Z); Some (9, 0%Z); Some (9, 0%Z); Some (7, 0%Z)].
Proof. eexists _, _. split; [vm_compute; reflexivity|]. split; [vm_compute; reflexivity|]. split; vm_compute; reflexivity. Qed.
Example C358_ex_calls : Forall shared_call (h_ex h_again).
Proof. repeat constructor; cbn; discriminate. Qed.
