(** * Histories of asynchronous steps and resets of RayVectorEnv *)
From Verif Require Export AresrModel AraySpec AonceSpec.
Open Scope nat_scope.

(** [log]: what has been sent to which environment, in this order: an action (true) or a reset (false); the k-th has the
    handle k.  [out], [rout]: what the steps and the resets have returned. *)
Inductive r_hist (timed : bool) (num n : nat) : av -> list (nat * bool) -> list (nat * nat) -> list (nat * nat) -> Prop :=
| rh_init : r_hist timed num n (av_init n) [] [] []
| rh_step : forall v log out rout sent rounds, r_hist timed num n v log out rout ->
    NoDup (sent_ids sent) -> (forall i, In i (sent_ids sent) -> In i (a_ready v)) ->
    r_hist timed num n (snd (a_step timed num v sent rounds)) (log ++ map (fun i => (i, true)) (sent_ids sent))
           (out ++ match fst (a_step timed num v sent rounds) with Ok o => o | Err _ => [] end) rout
| rh_reset : forall v log out rout ids, r_hist timed num n v log out rout ->
    NoDup ids -> (forall i, In i ids -> In i (a_ready v)) ->
    r_hist timed num n (snd (a_reset v ids)) (log ++ map (fun i => (i, false)) ids)
           out (rout ++ match fst (a_reset v ids) with Ok o => o | Err _ => [] end).
(** The entries of one kind, each with its environment and handle. *)
Definition entries (kind : bool) (log : list (nat * bool)) : list (nat * nat) :=
  map (fun p => (fst (fst p), snd p)) (filter (fun p => Bool.eqb (snd (fst p)) kind) (combine log (seq 0 (length log)))).
