(** * Property C381: bounds and special cases of the exploration noise *)
From Verif Require Import Py Num ActorModel ExpnModel OulimProofs.
Open Scope nat_scope.

(** C381.  OUNoise with theta dt = 1 is GaussianNoise with the same mean and sigma sqrt(dt), in every
    sequence of calls and from every state. *)
Theorem C381_gauss : forall (mu beta : Qc) (x0 : ouval) (steps : list cstep),
  expl_run (NOU mu 1%Qc beta x0) steps = expl_run (NGauss mu beta) steps.
Proof. exact C381_gauss_lemma. Qed.
Print Assumptions C381_gauss.

(** C381.  With 0 <= theta dt <= 1 and draws in [-zm, zm], the noise stays within m of mu in every sequence of calls,
    if m theta dt >= sigma sqrt(dt) zm and the starting values 0 and x0 are that near. *)
Theorem C381_bounded : forall (mu alpha beta m zm : Qc) (x0 : ouval) (steps : list cstep) (k j i : nat) (s : cstep) (a : Qc),
  (0 <= alpha)%Qc -> (alpha <= 1)%Qc -> (0 <= beta)%Qc -> (beta * zm <= alpha * m)%Qc ->
  (mu - m <= 0)%Qc -> (0 <= mu + m)%Qc -> (forall j, (mu - m <= ou_get x0 j)%Qc /\ (ou_get x0 j <= mu + m)%Qc) ->
  Forall (fun s => cstep_ok s /\ forall j, (- zm <= nth j (cs_z s) 0)%Qc /\ (nth j (cs_z s) 0 <= zm)%Qc) steps ->
  nth_error steps k = Some s -> nth_error (cs_ids s) j = Some i -> nth_error (cs_act s) j = Some a ->
  exists l v, nth_error (expl_run (NOU mu alpha beta x0) steps) k = Some l /\ nth_error l j = Some (i, (a + v)%Qc)
    /\ (mu - m <= v)%Qc /\ (v <= mu + m)%Qc.
Proof. exact C381_bounded_lemma. Qed.
Print Assumptions C381_bounded.

(** C381.  Once the number of ready environments has changed, earlier noise, x0 included, does not matter any more. *)
Theorem C381_forget : forall (mu alpha beta : Qc) (x0 : ouval) (s t : cstep) (steps : list cstep) (before : list cstep),
  length (cs_act s) <> length (cs_act t) ->
  skipn (S (length before)) (expl_run (NOU mu alpha beta x0) (before ++ s :: t :: steps)) =
  expl_run (NOU mu alpha beta OUNone) (t :: steps).
Proof. exact C381_forget_lemma. Qed.
Print Assumptions C381_forget.

(** C381.  Two noises that differ only in where they start approach each other: with equal draws and equally many ready
    environments their difference shrinks by 1 - theta dt in every step. *)
Theorem C381_contract : forall (mu alpha beta : Qc) (n : nat) (zs : list (list Qc)) (x0 y0 : ouval) (k j : nat) (r q : list Qc),
  match x0 with OUArr l => length l = n | _ => True end -> match y0 with OUArr l => length l = n | _ => True end -> j < n ->
  nth_error (ou_run mu alpha beta (map (pair (SizeTuple n)) zs) x0) k = Some r ->
  nth_error (ou_run mu alpha beta (map (pair (SizeTuple n)) zs) y0) k = Some q ->
  (nth j r 0 - nth j q 0 = Qcpower (1 - alpha) (S k) * (ou_get x0 j - ou_get y0 j))%Qc.
Proof. exact C381_contract_lemma. Qed.
Print Assumptions C381_contract.

(** ** Non-vacuity: alpha = 1/2, beta = 1 and draws in [-1, 1] keep the noise within 2 of mu = 1. *)
Definition ol_q (n : Z) (d : positive) : Qc := Q2Qc (n # d).
Definition ol_s (ids : list nat) : cstep := mkCS ids (map (fun _ => 0%Qc) ids) (map (fun i => if Nat.even i then 1%Qc else (- (1))%Qc) ids).
Definition ol_steps : list cstep := [ol_s [0; 1]; ol_s [0; 1]; ol_s [2]].
Definition ol_run (x0 : ouval) : list (list (nat * Q)) :=
  map (map (fun p : nat * Qc => (fst p, this (snd p)))) (expl_run (NOU 1%Qc (ol_q 1 2) 1%Qc x0) ol_steps).
Example C381_ex_hyp : (0 <= ol_q 1 2)%Qc /\ (ol_q 1 2 <= 1)%Qc /\ (0 <= 1)%Qc /\ (1 * 1 <= ol_q 1 2 * ol_q 2 1)%Qc /\ (1 - ol_q 2 1 <= 0)%Qc /\ (0 <= 1 + ol_q 2 1)%Qc
  /\ (1 - ol_q 2 1 <= ou_get (OUScal (ol_q 3 1)) 0)%Qc /\ (ou_get (OUScal (ol_q 3 1)) 0 <= 1 + ol_q 2 1)%Qc.
Proof. repeat split; vm_compute; discriminate. Qed.
Example C381_ex_draws : Forall (fun s => cstep_ok s /\ forall j, (- (1) <= nth j (cs_z s) 0)%Qc /\ (nth j (cs_z s) 0 <= 1)%Qc) ol_steps.
Proof.
  repeat constructor; destruct j as [|[|[|j]]]; vm_compute; discriminate.
Qed.
(** The upper end 3 is kept from x0 = 3; the third step starts again at 0. *)
Example C381_ex : ol_run (OUScal (ol_q 3 1)) = [[(0, 3 # 1); (1, 1 # 1)]; [(0, 3 # 1); (1, 0 # 1)]; [(2, 3 # 2)]].
Proof. vm_compute. reflexivity. Qed.
Example C381_ex_forget : skipn 2 (ol_run (OUScal (ol_q 3 1))) = skipn 2 (ol_run OUNone) /\ ol_run (OUScal (ol_q 3 1)) <> ol_run OUNone.
Proof. split; [vm_compute; reflexivity|vm_compute; discriminate]. Qed.
