(** * Property C383: exploration noise of several agents *)
From Verif Require Import Py Num ActorModel ExpnModel ManoiseModel ManoiseSpec ManoiseProofs.
From Coq Require Import Permutation.
Open Scope nat_scope.

(** C383.  In one call the rows of every agent get the noise of its own policy, called with these rows in their order;
    a policy without rows is not called and rows of no agent stay as they are. *)
Theorem C383_call : forall (ids : list nat) (z : nat -> list Qc) (act : list Qc) (ps : list (nat * enoise)) (a : nat),
  NoDup (map fst ps) -> length act = length ids ->
  length (fst (ma_noise ids z act ps)) = length ids /\
  match look a ps with
  | Some ns => own a ids (fst (ma_noise ids z act ps)) = fst (solo ns (own a ids act) (z a)) /\
               look a (snd (ma_noise ids z act ps)) = Some (snd (solo ns (own a ids act) (z a)))
  | None => own a ids (fst (ma_noise ids z act ps)) = own a ids act
  end.
Proof. exact C383_call_lemma. Qed.
Print Assumptions C383_call.

(** C383.  Over any sequence of calls, whichever agents have rows in each, an agent's actions and its noise are those of
    its policy called alone with its rows: the other agents make no difference. *)
Theorem C383_run : forall (steps : list mstep) (ps : list (nat * enoise)) (a : nat) (ns : enoise),
  NoDup (map fst ps) -> Forall (fun s => length (ms_act s) = length (ms_ids s)) steps -> look a ps = Some ns ->
  map (fun sr : mstep * list Qc => own a (ms_ids (fst sr)) (snd sr)) (combine steps (fst (ma_run ps steps))) = fst (alone a ns steps) /\
  look a (snd (ma_run ps steps)) = Some (snd (alone a ns steps)) /\ length (fst (ma_run ps steps)) = length steps.
Proof. exact C383_run_lemma. Qed.
Print Assumptions C383_run.

(** C383.  The order of the agents makes no difference. *)
Theorem C383_order : forall (ids : list nat) (z : nat -> list Qc) (act : list Qc) (ps qs : list (nat * enoise)),
  NoDup (map fst ps) -> Permutation ps qs -> length act = length ids ->
  fst (ma_noise ids z act ps) = fst (ma_noise ids z act qs) /\
  forall a, look a (snd (ma_noise ids z act ps)) = look a (snd (ma_noise ids z act qs)).
Proof. exact C383_order_lemma. Qed.
Print Assumptions C383_order.

(** ** Non-vacuity: agents 7 and 4 with OUNoise (alpha = 1/2) and GaussianNoise, and a row of agent 9 without policy. *)
Definition mn_q (n : Z) (d : positive) : Qc := Q2Qc (n # d).
Definition mn_ps : list (nat * enoise) := [(7, NOU 0%Qc (mn_q 1 2) 1%Qc OUNone); (4, NGauss (mn_q 10 1) 1%Qc)].
Definition mn_z (a : nat) : list Qc := [mn_q (Z.of_nat a) 1; 0%Qc].
Definition mn_steps : list mstep :=
  [mkMS [4; 7; 9; 4] (repeat 0%Qc 4) mn_z; mkMS [4; 4; 4] (repeat 1%Qc 3) mn_z; mkMS [7] [1%Qc] mn_z].
Definition mn_show (l : list (list Qc)) : list (list Q) := map (map (fun x : Qc => this x)) l.
Example C383_ex_hyp : NoDup (map fst mn_ps) /\ Forall (fun s => length (ms_act s) = length (ms_ids s)) mn_steps /\ look 7 mn_ps = Some (NOU 0%Qc (mn_q 1 2) 1%Qc OUNone).
Proof. split; [|split; [repeat constructor|reflexivity]]. constructor; [intros [H|[]]; discriminate|]. constructor; [intros []|constructor]. Qed.
(** Agent 7 goes on with 7/2 + 7 in the third call, although it had no row in the second. *)
Example C383_ex : mn_show (fst (ma_run mn_ps mn_steps)) = [[14 # 1; 7 # 1; 0 # 1; 10 # 1]; [15 # 1; 11 # 1; 11 # 1]; [23 # 2]].
Proof. vm_compute. reflexivity. Qed.
Example C383_ex_alone : mn_show (fst (alone 7 (NOU 0%Qc (mn_q 1 2) 1%Qc OUNone) mn_steps)) = [[7 # 1]; []; [23 # 2]].
Proof. vm_compute. reflexivity. Qed.
Example C383_ex_order : Permutation mn_ps (rev mn_ps) /\ mn_show (fst (ma_run (rev mn_ps) mn_steps)) = mn_show (fst (ma_run mn_ps mn_steps)).
Proof. split; [apply Permutation_rev|vm_compute; reflexivity]. Qed.
