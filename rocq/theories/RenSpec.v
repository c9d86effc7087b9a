(** * Renumbering the states and actions of PSRL *)
From Verif Require Import Py Num PsrlModel.
Open Scope nat_scope.

(** The entries of [l] in the order [sigma]; [d] is not used for numbers in range. *)
Definition reindex {X : Type} (sigma : list nat) (d : X) (l : list X) : list X := map (fun i => nth i l d) sigma.
(** Transition probabilities with renumbered states: from and to. *)
Definition restate (sigma : list nat) (P : list (list (list Qc))) : list (list (list Qc)) :=
  reindex sigma [] (map (map (reindex sigma 0%Qc)) P).
(** Every distribution is over [n] states. *)
Definition over (n : nat) (P : list (list (list Qc))) : Prop := forall s a, In s P -> In a s -> length a = n.
(** A renumbering of [n] numbers (of all numbers, keeping those below [n] below [n]). *)
Definition renumbers (n : nat) (f : nat -> nat) : Prop := (forall x y, f x = f y -> x = y) /\ (forall x, f x < n <-> x < n).
Definition rename_row (f g : nat -> nat) (w : row) : row := mkRow (f (w_obs w)) (g (w_act w)) (f (w_next w)) (w_rew w) (w_done w).
(** The same tables with renumbered states and actions. *)
Definition alike2 (f g : nat -> nat) (t t' : table2) : Prop := forall s a, t' (f s) (g a) = t s a.
Definition alike3 (f g : nat -> nat) (t t' : table3) : Prop := forall s a u, t' (f s) (g a) (f u) = t s a u.
Record alike_model (f g : nat -> nat) (hm hm' : store * psrl) : Prop := {
  al_ns : ps_ns (snd hm') = ps_ns (snd hm);
  al_na : ps_na (snd hm') = ps_na (snd hm);
  al_trans : alike3 f g (fst hm (ps_trans (snd hm))) (fst hm' (ps_trans (snd hm')));
  al_mean : alike2 f g (ps_mean (snd hm)) (ps_mean (snd hm'));
  al_var : alike2 f g (ps_var (snd hm)) (ps_var (snd hm'));
  al_sq : alike2 f g (ps_sq (snd hm)) (ps_sq (snd hm'));
  al_count : alike2 f g (ps_count (snd hm)) (ps_count (snd hm'));
  al_prior : alike2 f g (ps_var_prior (snd hm)) (ps_var_prior (snd hm')) }.
