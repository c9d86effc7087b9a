(** * Model of RayEnvWorker ([tianshou/env/worker/ray.py]) beside DummyEnvWorker ([tianshou/env/worker/dummy.py]) *)
From Verif Require Export Py.
Open Scope nat_scope.

Section Worker.
Context {E A V : Type}.
(** The environment: reset (keyword arguments reduced to an optional seed), step, attributes,
    render and close.  A call that raises may change the state too.  The environment has no [seed]
    method (gymnasium has none), and its behaviour does not depend on the random state of
    action_space, which in a DummyEnvWorker is shared with the worker. *)
Variable env_reset : option nat -> E -> res V * E.
Variable env_step : A -> E -> res V * E.
Variable env_get : nat -> E -> res V.
Variable env_set : nat -> V -> E -> E.
Variable env_render : E -> res V * E.
Variable env_close : E -> E.

Inductive answer := ANone | AVal (v : V) | ASeeds (l : list (option nat)).
Definition val_of (r : res V * E) : res answer * E := (let* v := fst r in Ok (AVal v), snd r).

(** The calls of a worker.  [WReset None] is reset() without a seed, [WReset (Some s)] is
    reset(seed=s); [WSend None s] sends the reset signal. *)
Inductive wcall :=
| WReset (seed : option (option nat)) | WSend (action : option A) (seed : option nat) | WRecv | WStep (action : A)
| WSeed (seed : option nat) | WGet (key : nat) | WSet (key : nat) (v : V) | WRender | WClose.

(** ** DummyEnvWorker (dummy.py:10-55, base.py:11-86)

    [d_space] lists the seeds given to [self.action_space.seed]; [d_result] is [self.result], if set. *)
Record dummy := mkD { d_env : E; d_result : option V; d_space : list (option nat); d_closed : bool }.
Definition d_with (d : dummy) (e : E) : dummy := mkD e (d_result d) (d_space d) (d_closed d).
Definition d_seeded (d : dummy) (s : option nat) : dummy := mkD (d_env d) (d_result d) (d_space d ++ [s]) (d_closed d).
Definition d_send (d : dummy) (action : option A) (seed : option nat) : res answer * dummy :=
  let '(r, e) := match action with None => env_reset seed (d_env d) | Some a => env_step a (d_env d) end in
  match r with
  | Ok v => (Ok ANone, mkD e (Some v) (d_space d) (d_closed d))
  | Err x => (Err x, d_with d e)
  end.
Definition d_recv (d : dummy) : res answer * dummy :=
  (match d_result d with Some v => Ok (AVal v) | None => Err AttributeError end, d).
Definition d_call (c : wcall) (d : dummy) : res answer * dummy :=
  match c with
  | WReset s =>
      let d := match s with Some s => d_seeded d s | None => d end in
      let '(r, e) := val_of (env_reset (match s with Some s => s | None => None end) (d_env d)) in (r, d_with d e)
  | WSend action seed => d_send d action seed
  | WRecv => d_recv d
  | WStep a => let '(r, d) := d_send d (Some a) None in
      match r with Ok _ => d_recv d | Err x => (Err x, d) end
  | WSeed s =>
      let d := d_seeded d s in
      let '(r, e) := env_reset s (d_env d) in
      (let* _ := r in Ok (ASeeds [s]), d_with d e)
  | WGet k => (let* v := env_get k (d_env d) in Ok (AVal v), d)
  | WSet k v => (Ok ANone, d_with d (env_set k v (d_env d)))
  | WRender => let '(r, e) := val_of (env_render (d_env d)) in (r, d_with d e)
  | WClose => if d_closed d then (Ok ANone, d) else (Ok ANone, mkD (env_close (d_env d)) (d_result d) (d_space d) true)
  end.

(** ** The actor of a RayEnvWorker

    [remote] puts a call into the queue of the actor and returns a handle at once; the actor runs
    the calls one at a time, in order, whenever it likes; what a call returns or raises is kept
    under its handle, and [ray.get] waits for it (an exception is raised then; Ray raises an
    instance of the same class). *)
Inductive rcall := QReset (seed : option nat) | QStep (action : A) | QGet (key : nat) | QSet (key : nat) (v : V) | QRender | QClose.
Definition q_run (c : rcall) (e : E) : res answer * E :=
  match c with
  | QReset s => val_of (env_reset s e)
  | QStep a => val_of (env_step a e)
  | QGet k => (let* v := env_get k e in Ok (AVal v), e)
  | QSet k v => (Ok ANone, env_set k v e)
  | QRender => val_of (env_render e)
  | QClose => (Ok ANone, env_close e)
  end.
Record actor := mkA { a_queue : list (nat * rcall); a_done : list (nat * res answer); a_env : E; a_next : nat }.
Fixpoint look (h : nat) (l : list (nat * res answer)) : option (res answer) :=
  match l with [] => None | (h', r) :: l => if h' =? h then Some r else look h l end.
(** The actor runs its next call, if any. *)
Definition a_tick (a : actor) : actor :=
  match a_queue a with
  | [] => a
  | (h, c) :: q => let '(r, e) := q_run c (a_env a) in mkA q (a_done a ++ [(h, r)]) e (a_next a)
  end.
Definition remote (a : actor) (c : rcall) : actor * nat :=
  (mkA (a_queue a ++ [(a_next a, c)]) (a_done a) (a_env a) (S (a_next a)), a_next a).
(** ray.get: the actor goes on until the handle has a value. *)
Fixpoint ray_get_fuel (n : nat) (a : actor) (h : nat) : res answer * actor :=
  match look h (a_done a) with
  | Some r => (r, a)
  | None => match n with O => (Err OutOfFuel, a) | S n => ray_get_fuel n (a_tick a) h end
  end.
Definition ray_get (a : actor) (h : nat) : res answer * actor := ray_get_fuel (length (a_queue a)) a h.

(** ** RayEnvWorker (ray.py:26-79) *)
Record ray := mkRay { r_actor : actor; r_result : option nat; r_space : list (option nat); r_closed : bool }.
Definition r_with (r : ray) (a : actor) : ray := mkRay a (r_result r) (r_space r) (r_closed r).
Definition r_seeded (r : ray) (s : option nat) : ray := mkRay (r_actor r) (r_result r) (r_space r ++ [s]) (r_closed r).
(** [ray.get(self.env.….remote(…))] *)
Definition r_ask (r : ray) (c : rcall) : res answer * ray :=
  let '(a, h) := remote (r_actor r) c in let '(x, a) := ray_get a h in (x, r_with r a).
Definition r_send (r : ray) (action : option A) (seed : option nat) : ray :=
  let '(a, h) := remote (r_actor r) (match action with None => QReset seed | Some x => QStep x end) in
  mkRay a (Some h) (r_space r) (r_closed r).
Definition r_recv (r : ray) : res answer * ray :=
  match r_result r with
  | Some h => let '(x, a) := ray_get (r_actor r) h in (x, r_with r a)
  | None => (Err AttributeError, r)
  end.
(** [self.env.seed] is no method of the actor's class: AttributeError, so seed() sends a reset and
    does not wait for it (ray.py:67-73). *)
Definition r_call (c : wcall) (r : ray) : res answer * ray :=
  match c with
  | WReset s =>
      let r := match s with Some s => r_seeded r s | None => r end in
      r_ask r (QReset (match s with Some s => s | None => None end))
  | WSend action seed => (Ok ANone, r_send r action seed)
  | WRecv => r_recv r
  | WStep a => r_recv (r_send r (Some a) None)
  | WSeed s =>
      let r := r_seeded r s in
      let '(a, _) := remote (r_actor r) (QReset s) in (Ok ANone, r_with r a)
  | WGet k => r_ask r (QGet k)
  | WSet k v => r_ask r (QSet k v)
  | WRender => r_ask r QRender
  | WClose => if r_closed r then (Ok ANone, r) else
      r_ask (mkRay (r_actor r) (r_result r) (r_space r) true) QClose
  end.

(** New workers of an environment, and sequences of calls; before every call the actor of the Ray
    worker runs as many of its calls as it likes ([ticks]). *)
Definition d_new (e : E) : dummy := mkD e None [] false.
Definition r_new (e : E) : ray := mkRay (mkA [] [] e 0) None [] false.
Fixpoint ticks (n : nat) (r : ray) : ray := match n with O => r | S n => ticks n (r_with r (a_tick (r_actor r))) end.
Fixpoint d_after (l : list wcall) (d : dummy) : dummy := match l with [] => d | c :: l => d_after l (snd (d_call c d)) end.
Fixpoint r_after (l : list (nat * wcall)) (r : ray) : ray := match l with [] => r | (n, c) :: l => r_after l (snd (r_call c (ticks n r))) end.
Fixpoint d_run (l : list wcall) (d : dummy) : list (res answer) :=
  match l with [] => [] | c :: l => let '(x, d) := d_call c d in x :: d_run l d end.
Fixpoint r_run (l : list (nat * wcall)) (r : ray) : list (res answer) :=
  match l with [] => [] | (n, c) :: l => let '(x, r) := r_call c (ticks n r) in x :: r_run l r end.
End Worker.

(** ** RayEnvWorker.wait (ray.py:47-55)

    ray.wait takes distinct handles and a number from 1 to theirs, and returns the handles with a
    value, in the order given, at most that many; [ready] says which have one when it returns. *)
Definition ray_wait (ready : nat -> bool) (results : list nat) (num : nat) : res (list nat) :=
  guard ((1 <=? num) && (num <=? length results)) ValueError (Ok (firstn num (filter ready results))).
Fixpoint index_of (x : nat) (l : list nat) : option nat :=
  match l with [] => None | y :: l => if y =? x then Some 0 else option_map S (index_of x l) end.
(** [result_of w] is the handle a worker holds. *)
Definition wait_workers {W} (result_of : W -> nat) (ready : nat -> bool) (workers : list W) (num : nat) : res (list W) :=
  let results := map result_of workers in
  let* got := ray_wait ready results num in
  mapM (fun h => match index_of h results with
                 | None => Err ValueError
                 | Some i => match nth_error workers i with Some w => Ok w | None => Err IndexError end
                 end) got.
