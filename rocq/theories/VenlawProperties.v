(** * Properties C331, C333: laws of stepping and resetting vector environments *)
From Verif Require Import Py PyLemmas VenvModel VenlawProofs.
From Coq Require Import Permutation.
Open Scope nat_scope.

(** C331.  In synchronous mode, stepping some environments and then others gives what stepping
    all of them in one call gives: the same vector environment (all workers with their pending
    results and histories) and the two results one after the other.  With subprocess workers this
    holds for all ids, also shared ones; with dummy workers the two calls must not share an
    environment. *)
Theorem C331_step : forall (E Act R : Type) (estep : E -> cmd Act -> E * R) (dummy : bool) (v v1 v2 : @venv E Act R) acts1 acts2 ids1 ids2 rounds r1 r2,
  is_async v = false ->
  (dummy = true -> forall i j k, In i ids1 -> In j ids2 -> norm_index (length (workers v)) i = Ok k -> norm_index (length (workers v)) j <> Ok k) ->
  v_step estep dummy v (Some acts1) (Some ids1) rounds = (v1, Ok r1) ->
  v_step estep dummy v1 (Some acts2) (Some ids2) rounds = (v2, Ok r2) ->
  v_step estep dummy v (Some (acts1 ++ acts2)) (Some (ids1 ++ ids2)) rounds = (v2, Ok (r1 ++ r2)).
Proof. exact C331_step_lemma. Qed.
Print Assumptions C331_step.

(** C331.  So does resetting. *)
Theorem C331_reset : forall (E Act R : Type) (estep : E -> cmd Act -> E * R) (dummy : bool) (v v1 v2 : @venv E Act R) ids1 ids2 r1 r2,
  is_async v = false ->
  (dummy = true -> forall i j k, In i ids1 -> In j ids2 -> norm_index (length (workers v)) i = Ok k -> norm_index (length (workers v)) j <> Ok k) ->
  v_reset estep dummy v (Some ids1) = (v1, Ok r1) ->
  v_reset estep dummy v1 (Some ids2) = (v2, Ok r2) ->
  v_reset estep dummy v (Some (ids1 ++ ids2)) = (v2, Ok (r1 ++ r2)).
Proof. exact C331_reset_lemma. Qed.
Print Assumptions C331_reset.

(** C331.  With distinct environments the order of the pairs of id and action does not matter:
    the vector environment afterwards is the same and the results (each with its id) are
    permuted. *)
Theorem C331_order : forall (E Act R : Type) (estep : E -> cmd Act -> E * R) (dummy : bool) (v v' : @venv E Act R) (l l' : list (Z * Act)) rounds r,
  is_async v = false -> Permutation l l' -> NoDup (map (norm_index (length (workers v))) (map fst l)) ->
  v_step estep dummy v (Some (map snd l)) (Some (map fst l)) rounds = (v', Ok r) ->
  exists r', v_step estep dummy v (Some (map snd l')) (Some (map fst l')) rounds = (v', Ok r') /\ Permutation r r'.
Proof. exact C331_order_lemma. Qed.
Print Assumptions C331_order.

(** C333.  An asynchronous step (subprocess workers, nothing running before) that returns a result
    for every environment it was asked to step - whatever the order and the rounds in which they
    finished - does what the synchronous step does: all workers end in the same state, the results
    are a permutation of those of the synchronous step, nothing is running and the same
    environments are ready. *)
Theorem C333_all : forall (E Act R : Type) (estep : E -> cmd Act -> E * R) (v v' : @venv E Act R) acts ks rounds r,
  is_async v = true -> waiting_conn v = [] -> waiting_id v = [] -> NoDup (ready_id v) -> NoDup ks -> ks <> [] -> Forall (fun k => k < length (workers v)) ks ->
  v_step estep false v (Some acts) (Some (map Z.of_nat ks)) rounds = (v', Ok r) -> length r = length ks ->
  let sync := mkV (workers v) (wait_num v) (timed v) false [] [] (ready_id v) (is_closed v) in
  exists sync' rs, v_step estep false sync (Some acts) (Some (map Z.of_nat ks)) [] = (sync', Ok rs)
    /\ workers v' = workers sync' /\ Permutation rs r
    /\ waiting_conn v' = [] /\ waiting_id v' = [] /\ Permutation (ready_id v') (ready_id v).
Proof. exact C333_all_lemma. Qed.
Print Assumptions C333_all.

(** ** Non-vacuity: environments that count their commands and echo them. *)
Definition echo (e : nat) (c : cmd nat) : nat * (nat * cmd nat) := (S e, (S e, c)).
Definition ex_v : @venv nat nat (nat * cmd nat) := match init (R := nat * cmd nat) [0; 10; 20] None None with Ok v => v | Err _ => mkV [] 0 false false [] [] [] true end.
Definition ex_1 (dummy : bool) := v_step echo dummy ex_v (Some [7; 8]) (Some [2%Z; 0%Z]) [].
Example C331_ex : is_async ex_v = false
  /\ (forall i j k, In i [2%Z; 0%Z] -> In j [(-2)%Z] -> norm_index (length (workers ex_v)) i = Ok k -> norm_index (length (workers ex_v)) j <> Ok k)
  /\ (forall dummy, snd (ex_1 dummy) = Ok [(2%Z, (21, CStep 7)); (0%Z, (1, CStep 8))]
      /\ snd (v_step echo dummy (fst (ex_1 dummy)) (Some [9]) (Some [(-2)%Z]) []) = Ok [((-2)%Z, (11, CStep 9))]
      /\ v_step echo dummy ex_v (Some [7; 8; 9]) (Some [2%Z; 0%Z; (-2)%Z]) []
         = (fst (v_step echo dummy (fst (ex_1 dummy)) (Some [9]) (Some [(-2)%Z]) []), Ok [(2%Z, (21, CStep 7)); (0%Z, (1, CStep 8)); ((-2)%Z, (11, CStep 9))])).
Proof.
  split; [reflexivity|]. split.
  - intros i j k [<-|[<-|[]]] [<-|[]] H; vm_compute in H; injection H as <-; vm_compute; discriminate.
  - intros [|]; repeat match goal with |- _ /\ _ => split end; vm_compute; reflexivity.
Qed.
(** Subprocess workers with a shared environment; dummy workers would answer the last result
    twice. *)
Example C331_shared_ex : snd (v_step echo false ex_v (Some [7; 8]) (Some [2%Z; 2%Z]) []) = Ok [(2%Z, (21, CStep 7)); (2%Z, (22, CStep 8))]
  /\ snd (v_step echo true ex_v (Some [7; 8]) (Some [2%Z; 2%Z]) []) = Ok [(2%Z, (22, CStep 8)); (2%Z, (22, CStep 8))].
Proof. split; vm_compute; reflexivity. Qed.
Example C331_order_ex : NoDup (map (norm_index (length (workers ex_v))) (map fst [(2%Z, 7); (0%Z, 8); ((-2)%Z, 9)]))
  /\ v_step echo true ex_v (Some [9; 7; 8]) (Some [(-2)%Z; 2%Z; 0%Z]) []
     = (fst (v_step echo true ex_v (Some [7; 8; 9]) (Some [2%Z; 0%Z; (-2)%Z]) []), Ok [((-2)%Z, (11, CStep 9)); (2%Z, (21, CStep 7)); (0%Z, (1, CStep 8))]).
Proof. split; [|vm_compute; reflexivity]. cbn. repeat constructor; cbn; intuition discriminate. Qed.
(** wait_num 2 of three; the environments finish in the rounds [1] and [2; 0]. *)
Definition ex_a : @venv nat nat (nat * cmd nat) := match init (R := nat * cmd nat) [0; 10; 20] (Some 2) None with Ok v => v | Err _ => ex_v end.
Example C333_ex : is_async ex_a = true /\ waiting_conn ex_a = [] /\ NoDup (ready_id ex_a) /\ Forall (fun k => k < length (workers ex_a)) [0; 1; 2]
  /\ (let r := v_step echo false ex_a (Some [7; 8; 9]) (Some (map Z.of_nat [0; 1; 2])) [Some [1]; Some [2; 0]] in
      snd r = Ok [(1%Z, (11, CStep 8)); (2%Z, (21, CStep 9)); (0%Z, (1, CStep 7))] /\ ready_id (fst r) = [1; 2; 0]%Z).
Proof.
  split; [reflexivity|]. split; [reflexivity|]. split; [vm_compute; repeat constructor; cbn; intuition discriminate|]. split; [repeat constructor|]. split; vm_compute; reflexivity.
Qed.
