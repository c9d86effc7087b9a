(** * Specification of collecting from environments one by one *)
From Verif Require Export Py BufferModel BufferSpec ManagerModel ManagerSpec CollectModel CollectSpec.
From Coq Require Export Permutation.
Open Scope nat_scope.

Section Follow.
Context {Ob A B Inf R ES : Type}.
Variable step : ES -> B -> ES * sres Ob Inf R.
Variable reset : ES -> ES * (Ob * Inf).
(** What the policy does with an observation: the action that is stored and the one that is executed. *)
Variable f : Ob -> A * B.
(** State and observation after acting in state [s] at observation [ob]; a finished episode is followed by a reset. *)
Definition next_of (s : ES) (ob : Ob) : ES * Ob :=
  let x := step s (snd (f ob)) in
  if r_term (snd x) || r_trunc (snd x) then (fst (reset (fst x)), fst (snd (reset (fst x)))) else (fst x, r_obs (snd x)).
(** The next [n] transitions of one environment under the policy, and where they end. *)
Fixpoint follow (s : ES) (ob : Ob) (n : nat) : list (trans Ob A Inf R) :=
  match n with
  | O => []
  | S n => let r := snd (step s (snd (f ob))) in
           mkTrans ob (fst (f ob)) (r_rew r) (r_term r) (r_trunc r) (r_obs r) (r_info r) :: follow (fst (next_of s ob)) (snd (next_of s ob)) n
  end.
Fixpoint follow_end (s : ES) (ob : Ob) (n : nat) : ES * Ob :=
  match n with O => (s, ob) | S n => follow_end (fst (next_of s ob)) (snd (next_of s ob)) n end.
End Follow.

(** A policy whose action for a row depends on its environment and observation only. *)
Definition by_rows {Ob A B Inf H PS} (f : nat -> Ob -> A * B)
    (act_fn : PS -> list nat -> list Ob -> list Inf -> option (list H) -> PS * (list (A * B) * option (list H))) : Prop :=
  forall p ids obs inf hid, length obs = length ids -> fst (snd (act_fn p ids obs inf hid)) = map (fun x => f (fst x) (snd x)) (combine ids obs).

(** Environment [e] of a collector [c] with history [ops] of the buffer, and environment 0 of [c1]. *)
Definition same_env {Ob A Inf R H PS H1 PS1 ES} (ns : list nat) (ops : list (mop Ob A Inf R)) (c : coll Ob A Inf R H ES PS) (e : nat)
    (n : nat) (ops1 : list (mop Ob A Inf R)) (c1 : coll Ob A Inf R H1 ES PS1) : Prop :=
  nth_error ns e = Some n /\ length (c_envs c1) = 1 /\ e < length (c_envs c) /\ proj 1 0 ops1 = proj (length ns) e ops
  /\ nth_error (c_envs c) e = nth_error (c_envs c1) 0 /\ pre_obs c e = pre_obs c1 0.

(** Return, length and rows of the episodes reported. *)
Definition reported {Ob A B Inf R H ES PS} (l : loop Ob A B Inf R H ES PS) :=
  combine (combine (st_returns (l_stats l)) (st_lens (l_stats l))) (map (map (@o_cur _ _ _ _)) (l_hook l)).
