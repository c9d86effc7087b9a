(** * Specification of returns: sums over the steps of one episode. *)
From Verif Require Export Py Num BufferModel BufferSpec.
Open Scope nat_scope.

(** sum_{l < n} f l *)
Definition sum_n (n : nat) (f : nat -> Qc) : Qc := qsum (map f (seq 0 n)).

(** Number of positions from [i] up to and including the first set flag (or the last one). *)
Fixpoint run_length (flags : list bool) : nat :=
  match flags with
  | [] => 0
  | e :: flags => if e then 1 else S (run_length flags)
  end.
Definition steps_left (flags : list bool) (i : nat) : nat := run_length (skipn i flags).

(** TD(lambda) target of the first of the given steps of an episode: a step is (reward, value of
    its next state); the last one is the end of the (stored part of the) episode. *)
Fixpoint lambda_return (gamma lam : Qc) (steps : list (Qc * Qc)) : Qc :=
  match steps with
  | [] => 0%Qc
  | [(r, v)] => (r + gamma * v)%Qc
  | (r, v) :: rest => (r + gamma * ((1 - lam) * v + lam * lambda_return gamma lam rest))%Qc
  end.

Section EpisodeSpec.
Context {Ob A Inf : Type}.
Notation slot := (slot Ob A Inf Qc).

Definition rew_at (q : list slot) (p : nat) : Qc :=
  match nth_error q p with Some s => s_rew s | None => 0%Qc end.
Definition term_at (q : list slot) (p : nat) : bool :=
  match nth_error q p with Some s => s_term s | None => false end.
Definition trunc_at (q : list slot) (p : nat) : bool :=
  match nth_error q p with Some s => s_trunc s | None => false end.

(** Positions from [p] to the end of its episode (or to the newest one). *)
Definition rest_of_episode (q : list slot) (p : nat) : list nat := seq p (last_of q p + 1 - p).

(** Value of the next state of position [p] as seen by a return: 0 after a terminal step. *)
Definition next_value (q : list slot) (v : nat -> Qc) (p : nat) : Qc :=
  if term_at q p then 0%Qc else v p.

(** A batch given as a list of positions (buffer id, position): every position that is not the last
    stored one of its episode is followed by the next position of the same episode. *)
Definition is_end (q : nat -> list slot) (x : nat * nat) : Prop := last_of (q (fst x)) (snd x) = snd x.
Fixpoint whole_episodes (q : nat -> list slot) (xs : list (nat * nat)) : Prop :=
  match xs with
  | [] => True
  | x :: t => match t with
              | [] => is_end q x
              | y :: _ => is_end q x \/ y = (fst x, S (snd x))
              end /\ whole_episodes q t
  end.

(** TD(lambda) target of position [x] when the next state of position [j] of buffer [k] has value
    [v (k, j)]. *)
Definition target_of (q : nat -> list slot) (v : nat * nat -> Qc) (gamma lam : Qc) (x : nat * nat) : Qc :=
  let k := fst x in
  lambda_return gamma lam
    (map (fun j => (rew_at (q k) j, next_value (q k) (fun j => v (k, j)) j)) (rest_of_episode (q k) (snd x))).

(** All stored positions, buffer after buffer, oldest first. *)
Definition all_positions (q : nat -> list slot) (num : nat) : list (nat * nat) :=
  flat_map (fun k => map (pair k) (seq 0 (length (q k)))) (seq 0 num).

(** The n-step return of position [p], bootstrapping from the values [row]. *)
Definition nstep_target (q : list slot) (gamma : Qc) (n p : nat) (row : list Qc) : list Qc :=
  let m := Nat.min n (last_of q p + 1 - p) in
  map (fun v => (sum_n m (fun j => (gamma ^ j * rew_at q (p + j)%nat)%Qc)
                 + gamma ^ m * (if term_at q (p + m - 1)%nat then 0 else v))%Qc) row.
(** The position whose next state is bootstrapped from. *)
Definition nstep_reached (q : list slot) (n p : nat) : nat := p + Nat.min n (last_of q p + 1 - p) - 1.

End EpisodeSpec.
