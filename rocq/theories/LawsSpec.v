(** * Specification of laws of returns *)
From Verif Require Export Py Num BufferModel BufferSpec ReturnsSpec.
Open Scope nat_scope.

(** [a * l + b * m], entry by entry. *)
Definition lin (a b : Qc) (l m : list Qc) : list Qc :=
  map (fun x => (a * fst x + b * snd x)%Qc) (combine l m).
Definition lin2 (a b : Qc) (l m : list (list Qc)) : list (list Qc) :=
  map (fun x => lin a b (fst x) (snd x)) (combine l m).

(** The weights of TD(lambda) on the first [L] of a sequence: (1 - lam) lam^(n-1) on number [n] and
    what is left on number [L]. *)
Definition mixture (lam : Qc) (L : nat) (G : nat -> Qc) : Qc :=
  ((1 - lam) * sum_n (L - 1) (fun k => lam ^ k * G (S k)) + lam ^ (L - 1) * G L)%Qc.

(** At most [e] apart. *)
Definition within (e x y : Qc) : Prop := (x - y <= e)%Qc /\ (y - x <= e)%Qc.

Section Episodes.
Context {Ob A Inf : Type}.
Notation slot := (slot Ob A Inf Qc).

(** Number of stored steps of the episode from position [p] on. *)
Definition steps_from (q : list slot) (p : nat) : nat := last_of q p + 1 - p.

(** What a batch of positions gives to [compute_episodic_return]. *)
Definition rows_of (q : list slot) (ps : list nat) : list (Qc * bool * bool) :=
  map (fun p => (rew_at q p, term_at q p, trunc_at q p)) ps.
Definition mrows_of (q : nat -> list slot) (xs : list (nat * nat)) : list (Qc * bool * bool) :=
  map (fun x => (rew_at (q (fst x)) (snd x), term_at (q (fst x)) (snd x), trunc_at (q (fst x)) (snd x))) xs.
End Episodes.
