(** * Abstract specification of the replay buffer: a bounded queue of transitions.

    Positions in the queue are counted from the oldest stored transition (0) to the newest. *)
From Verif Require Export Py BufferModel.
Open Scope nat_scope.

Section BufferSpec.
Context {Ob A Inf R : Type}.
Variable r0 : R.
Variable radd : R -> R -> R.
Variable last_frame : Ob -> Ob.
Notation trans := (trans Ob A Inf R).
Notation slot := (slot Ob A Inf R).
Notation buf := (buf Ob A Inf R).

(** What is kept of a transition: everything; the observations reduced to their last frame
    when [save_only_last_obs], the next observation dropped when it is not saved. *)
Definition kept (o : opts) (t : trans) : slot := {|
  s_obs := (if save_only_last_obs o then last_frame else fun x => x) (t_obs t);
  s_act := t_act t; s_rew := t_rew t;
  s_term := t_term t; s_trunc := t_trunc t;
  s_done := t_term t || t_trunc t;
  s_obs_next := if save_obs_next o
                then Some ((if save_only_last_obs o then last_frame else fun x => x) (t_obs_next t))
                else None;
  s_info := t_info t |}.

(** Bounded queue: append, keep the newest [n]. *)
Definition push (n : nat) (q xs : list slot) : list slot := lastn n (q ++ xs).

(** [reach o n b q]: [b] is a buffer of capacity [n] obtained by some sequence of
    [add]/[reset]/[update] calls (the source of an [update] being itself such a buffer), and
    [q] is the content of the abstract queue after the same operations. *)
Inductive reach (o : opts) : nat -> buf -> list slot -> Prop :=
| reach_init n : reach o n (buf_init r0 n) []
| reach_add n b q t b' r :
    reach o n b q -> add r0 radd last_frame o b t = Ok (b', r) -> reach o n b' (push n q [kept o t])
| reach_reset n b q keep :
    reach o n b q -> reach o n (buf_reset r0 keep b) []
| reach_update n b q n2 src q2 b' l :
    reach o n b q -> reach o n2 src q2 -> update b src = Ok (b', l) ->
    reach o n b' (push n q q2).

(** Does position [p] end an episode? *)
Definition qdone (q : list slot) (p : nat) : bool :=
  match nth_error q p with Some s => s_done s | None => false end.

(** First stored position of the episode of position [p]. *)
Fixpoint first_of (q : list slot) (p : nat) : nat :=
  match p with
  | 0 => 0
  | S p' => if qdone q p' then S p' else first_of q p'
  end.

(** Last stored position of the episode of position [p], [fuel] positions ahead at most. *)
Fixpoint last_of_ (q : list slot) (fuel p : nat) : nat :=
  match fuel with
  | 0 => p
  | S f => if qdone q p then p else last_of_ q f (S p)
  end.
Definition last_of (q : list slot) (p : nat) : nat := last_of_ q (length q - 1 - p) p.

(** Predecessor and successor inside the episode; the end positions are their own. *)
Definition pred_of (q : list slot) (p : nat) : nat :=
  if (p =? 0) || qdone q (p - 1) then p else p - 1.
Definition succ_of (q : list slot) (p : nat) : nat :=
  if (S p =? length q) || qdone q p then p else S p.

(** ** Episode bookkeeping of [add] *)

(** What happened since the last [reset]: [e_cnt] transitions were added; the current episode
    has its first transition at number [e_start]; [e_rews] are the rewards added since the
    last episode end (or statistics reset), oldest first. *)
Record epi : Type := mkEpi { e_cnt : nat; e_start : nat; e_rews : list R }.
Definition epi0 : epi := mkEpi 0 0 [].

Inductive aop : Type := OpAdd (t : trans) | OpReset (keep : bool).

(** The episode return is the left-to-right sum of the rewards, starting from [r0]. *)
Definition total (l : list R) : R := fold_left radd l r0.

(** One operation of the abstract bookkeeping: new state and what [add] must return. *)
Definition epi_step (n : nat) (e : epi) (op : aop) : epi * option (nat * R * nat * nat) :=
  match op with
  | OpReset keep => (mkEpi 0 0 (if keep then e_rews e else []), None)
  | OpAdd t =>
      let rews := e_rews e ++ [t_rew t] in
      if t_term t || t_trunc t
      then (mkEpi (S (e_cnt e)) (S (e_cnt e)) [],
            Some (e_cnt e mod n, total rews, length rews, e_start e mod n))
      else (mkEpi (S (e_cnt e)) (e_start e) rews,
            Some (e_cnt e mod n, r0, 0, e_start e mod n))
  end.

Fixpoint epi_run (n : nat) (e : epi) (ops : list aop) : epi * list (nat * R * nat * nat) :=
  match ops with
  | [] => (e, [])
  | op :: ops =>
      let '(e', r) := epi_step n e op in
      let '(e'', rs) := epi_run n e' ops in
      (e'', match r with Some x => x :: rs | None => rs end)
  end.

(** The same operations on the model, collecting what [add] returns. *)
Fixpoint buf_run (o : opts) (b : buf) (ops : list aop) : res (buf * list (nat * R * nat * nat)) :=
  match ops with
  | [] => Ok (b, [])
  | OpReset keep :: ops => buf_run o (buf_reset r0 keep b) ops
  | OpAdd t :: ops =>
      let* x := add r0 radd last_frame o b t in
      let* y := buf_run o (fst x) ops in
      Ok (fst y, snd x :: snd y)
  end.

End BufferSpec.
Arguments aop : clear implicits.
Arguments epi : clear implicits.
