(** * Property C359: the numbering of states and actions of PSRL *)
From Coq Require Import Permutation.
From Verif Require Import Py Num TatSpec PsrlModel RenSpec RenProofs.
Open Scope nat_scope.

(** C359. Learning from rows with renumbered states and actions gives the same posterior with renumbered states and actions, and raises in the same cases. *)
Theorem C359_learn : forall (f g : nat -> nat) (fe : Qc) (loop : bool) (hm hm' : store * psrl) (rows : list row),
  renumbers (ps_ns (snd hm)) f -> renumbers (ps_na (snd hm)) g -> alike_model f g hm hm' ->
  match learn fe loop hm rows, learn fe loop hm' (map (rename_row f g) rows) with
  | Ok x, Ok x' => alike_model f g x x' | Err e, Err e' => e = e' | _, _ => False end.
Proof. exact C359_learn_lemma. Qed.
Print Assumptions C359_learn.

(** C359. Value iteration with renumbered states gives the same values and the same actions, with renumbered states, after the same number of sweeps. *)
Theorem C359_values : forall (n : nat) (sigma : list nat) (fuel : nat) (P : list (list (list Qc))) (rew : list (list Qc)) (g atol eps : Qc) (value : list Qc) (noise : list (list Qc)),
  Permutation sigma (seq 0 n) -> length P = n -> length rew = n -> over n P -> length value = n -> length noise = n ->
  value_iteration fuel (restate sigma P) (reindex sigma [] rew) g atol eps (reindex sigma 0%Qc value) (reindex sigma [] noise)
  = rmap (fun x => (reindex sigma 0 (fst x), reindex sigma 0%Qc (snd x))) (value_iteration fuel P rew g atol eps value noise).
Proof. exact C359_values_lemma. Qed.
Print Assumptions C359_values.

(** ** Non-vacuity: three states and two actions; states 0 and 2 and both actions exchanged. *)
Definition swap3 (x : nat) : nat := match x with 0 => 2 | 1 => 1 | 2 => 0 | _ => x end.
Definition swap2 (x : nat) : nat := match x with 0 => 1 | 1 => 0 | _ => x end.
Example ex_swap3 : renumbers 3 swap3.
Proof.
  split; [intros [|[|[|x]]] [|[|[|y]]]; cbn; intros H; try discriminate; try reflexivity; exact H|].
  intros [|[|[|x]]]; cbn; lia.
Qed.
Example ex_swap2 : renumbers 2 swap2.
Proof.
  split; [intros [|[|x]] [|[|y]]; cbn; intros H; try discriminate; try reflexivity; exact H|].
  intros [|[|x]]; cbn; lia.
Qed.
Definition ren_model : store * psrl := ((fun _ _ _ _ => 1%Qc), psrl_init 7 3 2 (fun s a => if (s =? 0) && (a =? 1) then Q2Qc 2 else 0%Qc) (fun _ _ => 1%Qc) (Q2Qc (1 # 2))).
Definition ren_model' : store * psrl := ((fun _ _ _ _ => 1%Qc), psrl_init 4 3 2 (fun s a => if (s =? 2) && (a =? 0) then Q2Qc 2 else 0%Qc) (fun _ _ => 1%Qc) (Q2Qc (1 # 2))).
Example ex_alike : alike_model swap3 swap2 ren_model ren_model'.
Proof. constructor; try reflexivity; try (intros s a; reflexivity); try (intros s a u; reflexivity). intros [|[|[|s]]] [|[|a]]; reflexivity. Qed.
Definition ren_rows : list row := [mkRow 0 1 2 (Q2Qc 3) false; mkRow 2 0 1 1%Qc true].
Definition ren_shown (r : res (store * psrl)) (s a u : nat) : list Q :=
  match r with Ok (h, m) => map this [h (ps_trans m) s a u; ps_mean m s a; ps_count m s a] | Err _ => [] end.
Example C359_ex_learn : ren_shown (learn 1%Qc true ren_model ren_rows) 0 1 2 = [2 # 1; 8 # 3; 3 # 2]%Q
  /\ ren_shown (learn 1%Qc true ren_model' (map (rename_row swap3 swap2) ren_rows)) 2 0 0 = [2 # 1; 8 # 3; 3 # 2]%Q
  /\ ren_shown (learn 1%Qc true ren_model ren_rows) 2 0 1 = [2 # 1; 2 # 3; 3 # 2]%Q.
Proof. repeat split; vm_compute; reflexivity. Qed.
(** Two states: state 1 gives 1 for ever, state 0 leads there by action 1. *)
Definition ren_P : list (list (list Qc)) := [[[1%Qc; 0%Qc]; [0%Qc; 1%Qc]]; [[0%Qc; 1%Qc]; [0%Qc; 1%Qc]]].
Definition ren_R : list (list Qc) := [[0%Qc; 0%Qc]; [1%Qc; 1%Qc]].
Definition ren_N : list (list Qc) := [[0%Qc; 0%Qc]; [0%Qc; 1%Qc]].
Definition ren_vi (x : res (list nat * list Qc)) : list nat * list Q := match x with Ok (a, v) => (a, map this v) | Err _ => ([], []) end.
Example C359_ex_values : ren_vi (value_iteration 20 ren_P ren_R (Q2Qc (1 # 2)) (Q2Qc (1 # 4)) (Q2Qc (1 # 10)) [0%Qc; 0%Qc] ren_N) = ([1; 1], [3 # 4; 7 # 4]%Q)
  /\ ren_vi (value_iteration 20 (restate [1; 0] ren_P) (reindex [1; 0] [] ren_R) (Q2Qc (1 # 2)) (Q2Qc (1 # 4)) (Q2Qc (1 # 10)) [0%Qc; 0%Qc] (reindex [1; 0] [] ren_N)) = ([1; 1], [7 # 4; 3 # 4]%Q).
Proof. split; vm_compute; reflexivity. Qed.
Example C359_ex_over : over 2 ren_P /\ Permutation [1; 0] (seq 0 2).
Proof. split; [intros s a [<-|[<-|[]]] [<-|[<-|[]]]; reflexivity|apply perm_swap]. Qed.
