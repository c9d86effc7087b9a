(** * What an asynchronous step of RayVectorEnv keeps *)
From Verif Require Export ArayModel.
From Coq Require Export Permutation.
Open Scope nat_scope.

(** Every environment is either waiting or ready, and no two waiting ones share a handle. *)
Definition av_ok (n : nat) (v : av) : Prop :=
  a_conn v = a_wait v /\ Permutation (a_wait v ++ a_ready v) (seq 0 n) /\
  NoDup (map (a_handle v) (a_wait v)) /\ Forall (fun i => a_handle v i < a_next v) (a_wait v).
(** The environments to which the call sends an action. *)
Definition sent_ids (sent : option (list nat)) : list nat := match sent with Some ids => ids | None => [] end.
(** States reached by steps that name no environment twice, whatever they return. *)
Inductive a_reach (timed : bool) (num n : nat) : av -> Prop :=
| ar_init : a_reach timed num n (av_init n)
| ar_step : forall v sent rounds, a_reach timed num n v -> NoDup (sent_ids sent) -> a_reach timed num n (snd (a_step timed num v sent rounds)).
