(** * Property C376: Ray workers and dummy workers *)
From Verif Require Import Py PyLemmas RayModel RayProofs.
Open Scope nat_scope.

(** C376.  If reset and step of the environment do not raise, a Ray worker answers every sequence
    of calls as a dummy worker does, whenever its actor runs the calls; only seed() returns None. *)
Theorem C376_answers : forall (E A V : Type) (env_reset : option nat -> E -> res V * E) (env_step : A -> E -> res V * E) (env_get : nat -> E -> res V) (env_set : nat -> V -> E -> E) (env_render : E -> res V * E) (env_close : E -> E)
  (e : E) (l : list (nat * wcall)),
  (forall s e, is_ok (fst (env_reset s e)) = true) -> (forall a e, is_ok (fst (env_step a e)) = true) ->
  r_run env_reset env_step env_get env_set env_render env_close l (r_new e)
  = map (fun x => match x with Ok (ASeeds _) => Ok ANone | _ => x end) (d_run env_reset env_step env_get env_set env_render env_close (map snd l) (d_new e)).
Proof. exact C376_answers_lemma. Qed.
Print Assumptions C376_answers.

(** C376.  seed() of a dummy worker returns the seed in a list, that of a Ray worker None. *)
Theorem C376_seed : forall (E A V : Type) (env_reset : option nat -> E -> res V * E) (env_step : A -> E -> res V * E) (env_get : nat -> E -> res V) (env_set : nat -> V -> E -> E) (env_render : E -> res V * E) (env_close : E -> E)
  (d : @dummy E V) (r : @ray E A V) (s : option nat), is_ok (fst (env_reset s (d_env d))) = true ->
  fst (d_call env_reset env_step env_get env_set env_render env_close (WSeed s) d) = Ok (ASeeds [s])
  /\ fst (r_call env_reset env_step env_get env_set env_render env_close (WSeed s) r) = Ok ANone.
Proof. exact C376_seed_lemma. Qed.
Print Assumptions C376_seed.

(** C376.  Both seed their action space alike and are closed alike. *)
Theorem C376_space : forall (E A V : Type) (env_reset : option nat -> E -> res V * E) (env_step : A -> E -> res V * E) (env_get : nat -> E -> res V) (env_set : nat -> V -> E -> E) (env_render : E -> res V * E) (env_close : E -> E)
  (e : E) (l : list (nat * wcall)),
  (forall s e, is_ok (fst (env_reset s e)) = true) -> (forall a e, is_ok (fst (env_step a e)) = true) ->
  let d := d_after env_reset env_step env_get env_set env_render env_close (map snd l) (d_new e) in
  let r := r_after env_reset env_step env_get env_set env_render env_close l (r_new e) in
  r_space r = d_space d /\ r_closed r = d_closed d.
Proof. exact C376_space_lemma. Qed.
Print Assumptions C376_space.

(** C376.  If a step raises, the dummy worker raises when the action is sent, and the Ray worker
    when the result is received; what a reset raises within seed() the Ray worker never reports. *)
Theorem C376_raise : forall (E A V : Type) (env_reset : option nat -> E -> res V * E) (env_step : A -> E -> res V * E) (env_get : nat -> E -> res V) (env_set : nat -> V -> E -> E) (env_render : E -> res V * E) (env_close : E -> E)
  (e : E) (a : A) (s : option nat) (x : exn) (e' : E) (i j : nat),
  (env_step a e = (Err x, e') ->
     d_run env_reset env_step env_get env_set env_render env_close [WSend (Some a) None; WRecv] (d_new e) = [Err x; Err AttributeError]
     /\ r_run env_reset env_step env_get env_set env_render env_close [(i, WSend (Some a) None); (j, WRecv)] (r_new e) = [Ok ANone; Err x]
     /\ d_run env_reset env_step env_get env_set env_render env_close [WStep a] (d_new e) = [Err x]
     /\ r_run env_reset env_step env_get env_set env_render env_close [(i, WStep a)] (r_new e) = [Err x])
  /\ (env_reset s e = (Err x, e') ->
     d_run env_reset env_step env_get env_set env_render env_close [WSeed s] (d_new e) = [Err x]
     /\ forall k, r_run env_reset env_step env_get env_set env_render env_close [(i, WSeed s); (j, WGet k)] (r_new e) = [Ok ANone; let* v := env_get k e' in Ok (AVal v)]).
Proof. exact C376_raise_lemma. Qed.
Print Assumptions C376_raise.

(** C376.  wait returns the first [num] of the workers whose results are ready, in their order. *)
Theorem C376_wait : forall (W : Type) (result_of : W -> nat) (ready : nat -> bool) (workers : list W) (num : nat),
  NoDup (map result_of workers) -> 1 <= num -> num <= length workers ->
  wait_workers result_of ready workers num = Ok (firstn num (filter (fun w => ready (result_of w)) workers)).
Proof. exact C376_wait_lemma. Qed.
Print Assumptions C376_wait.

(** ** Non-vacuity: an environment that counts; attribute 0 is the count. *)
Definition ex_reset (s : option nat) (e : nat) : res nat * nat := let n := match s with Some n => n | None => 0 end in (Ok n, n).
Definition ex_step (a e : nat) : res nat * nat := (Ok (e + a), e + a).
Definition ex_get (k e : nat) : res nat := if k =? 0 then Ok e else Err AttributeError.
Definition ex_set (k v e : nat) : nat := if k =? 0 then v else e.
Definition ex_calls : list (nat * @wcall nat nat) :=
  [(0, WRecv); (3, WReset (Some (Some 4))); (0, WSend (Some 2) None); (0, WSend (Some 3) None); (1, WGet 0); (0, WRecv); (2, WSeed (Some 7)); (0, WStep 1); (0, WGet 5); (0, WSet 0 20); (1, WRender); (0, WSend None None);
   (0, WClose); (0, WRecv); (0, WClose)].
Example C376_answers_ex : (forall s e, is_ok (fst (ex_reset s e)) = true) /\ (forall a e, is_ok (fst (ex_step a e)) = true)
  /\ r_run ex_reset ex_step ex_get ex_set (fun e => (Ok (e * 10), e)) (fun e => 0) ex_calls (r_new 1)
     = [Err AttributeError; Ok (AVal 4); Ok ANone; Ok ANone; Ok (AVal 9); Ok (AVal 9); Ok ANone; Ok (AVal 8); Err AttributeError; Ok ANone; Ok (AVal 200); Ok ANone; Ok ANone; Ok (AVal 0); Ok ANone]
  /\ nth_error (d_run ex_reset ex_step ex_get ex_set (fun e => (Ok (e * 10), e)) (fun e => 0) (map snd ex_calls) (d_new 1)) 6 = Some (Ok (ASeeds [Some 7]))
  /\ r_space (r_after ex_reset ex_step ex_get ex_set (fun e => (Ok (e * 10), e)) (fun e => 0) ex_calls (r_new 1)) = [Some 4; Some 7].
Proof. repeat split. Qed.
Example C376_raise_ex : let step (a e : nat) : res nat * nat := (if a =? 0 then Err ValueError else Ok e, e) in
  step 0 3 = (Err ValueError, 3)
  /\ r_run ex_reset step ex_get ex_set (fun e => (Ok e, e)) (fun e => e) [(0, WSend (Some 0) None); (2, WRecv)] (r_new 3) = [Ok ANone; Err ValueError].
Proof. split; reflexivity. Qed.
Example C376_wait_ex : NoDup (map (fun w => w * 7 mod 5) [4; 1; 3; 2])
  /\ wait_workers (fun w => w * 7 mod 5) (fun h => negb (h =? 2)) [4; 1; 3; 2] 2 = Ok [4; 3]
  /\ wait_workers (fun w => w * 7 mod 5) (fun h => h =? 2) [4; 1; 3; 2] 2 = Ok [1].
Proof. split; [repeat constructor; cbn; intuition discriminate|]. split; reflexivity. Qed.
