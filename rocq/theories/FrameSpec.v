(** * Environments that stack frames, and buffers that keep only the newest one *)
From Verif Require Export BufferModel BufferSpec ManagerModel ManagerSpec.
Open Scope nat_scope.
Section Frame.
Context {F A Inf R : Type}.
Notation trans := (trans (list F) A Inf R).

(** What an environment that stacks [k] frames shows once the frames [fs] of the episode are there: the newest [k]; while there are fewer,
    the first one is repeated in front. *)
Definition shown (k : nat) (fs : list F) : list F :=
  match fs with [] => [] | f0 :: _ => lastn k (repeat f0 k ++ fs) end.

(** [framed k fs ts]: the transitions [ts] of such an environment, [fs] being the frames of the episode that are there at the beginning. *)
Inductive framed (k : nat) : list F -> list trans -> Prop :=
| framed_nil fs : framed k fs []
| framed_go fs t f ts : t_obs t = shown k fs -> t_obs_next t = shown k (fs ++ [f]) -> t_term t || t_trunc t = false ->
    framed k (fs ++ [f]) ts -> framed k fs (t :: ts)
| framed_end fs t f f0 ts : t_obs t = shown k fs -> t_obs_next t = shown k (fs ++ [f]) -> t_term t || t_trunc t = true ->
    framed k [f0] ts -> framed k fs (t :: ts).
(** Where the episode of the [g]-th transition begins. *)
Fixpoint begun (ts : list trans) (g : nat) : nat :=
  match g with
  | 0 => 0
  | S g' => if match nth_error ts g' with Some t => t_term t || t_trunc t | None => false end then g else begun ts g'
  end.
(** [received ns ops e ts]: since the last reset the sub-buffer [e] received [ts]. *)
Definition received (ns : list nat) (ops : list (mop (list F) A Inf R)) (e : nat) (ts : list trans) : Prop :=
  proj (length ns) e ops = map OpAdd ts \/ exists pre keep, proj (length ns) e ops = pre ++ OpReset keep :: map OpAdd ts.
End Frame.
