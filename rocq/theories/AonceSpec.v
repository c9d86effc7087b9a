(** * Histories of asynchronous steps of RayVectorEnv *)
From Verif Require Export AraySpec.
From Coq Require Export Sorting.Sorted.
Open Scope nat_scope.

(** [log]: the environments to which actions have been sent, in this order; the handle of the k-th action is k.
    [out]: the results returned so far, each with its environment and handle.  Steps name ready
    environments, none of them twice; they may raise. *)
Inductive a_hist (timed : bool) (num n : nat) : av -> list nat -> list (nat * nat) -> Prop :=
| ah_init : a_hist timed num n (av_init n) [] []
| ah_step : forall v log out sent rounds, a_hist timed num n v log out ->
    NoDup (sent_ids sent) -> (forall i, In i (sent_ids sent) -> In i (a_ready v)) ->
    a_hist timed num n (snd (a_step timed num v sent rounds)) (log ++ sent_ids sent)
           (out ++ match fst (a_step timed num v sent rounds) with Ok o => o | Err _ => [] end).
(** Every action sent, with its handle. *)
Definition numbered (log : list nat) : list (nat * nat) := combine log (seq 0 (length log)).
(** What the waiting environments still owe. *)
Definition owed (v : av) : list (nat * nat) := map (fun i => (i, a_handle v i)) (a_wait v).
