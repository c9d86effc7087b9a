(** * Specification of a collection run

    One environment on its own, the episodes in its stream of transitions, and which part of a run
    concerns one environment. *)
From Verif Require Export BufferSpec ManagerSpec CollectModel.
Open Scope nat_scope.

Section CollectSpec.
Context {Ob A B Inf R ES : Type}.
Notation trans := (trans Ob A Inf R).
Variable estep : nat -> ES -> B -> ES * sres Ob Inf R.
Variable ereset : nat -> ES -> ES * (Ob * Inf).

(** State and current observation of environment [e] after the action [b]: it is reset as soon as an
    episode ends. *)
Definition after (e : nat) (s : ES) (b : B) : ES * Ob :=
  let '(s, r) := estep e s b in
  if r_term r || r_trunc r then let '(s, x) := ereset e s in (s, fst x) else (s, r_obs r).
(** The transition that the action [b], stored as [a], makes in state [s] with observation [ob]. *)
Definition transition (e : nat) (s : ES) (ob : Ob) (a : A) (b : B) : trans :=
  let r := snd (estep e s b) in
  mkTrans ob a (r_rew r) (r_term r) (r_trunc r) (r_obs r) (r_info r).
(** Environment [e] alone, given a sequence of actions. *)
Fixpoint solo (e : nat) (s : ES) (ob : Ob) (acts : list (A * B)) : list trans :=
  match acts with
  | [] => []
  | (a, b) :: acts => transition e s ob a b :: solo e (fst (after e s b)) (snd (after e s b)) acts
  end.
Fixpoint solo_end (e : nat) (s : ES) (ob : Ob) (acts : list (A * B)) : ES * Ob :=
  match acts with
  | [] => (s, ob)
  | (_, b) :: acts => solo_end e (fst (after e s b)) (snd (after e s b)) acts
  end.
End CollectSpec.

Section Episodes.
Context {Ob A B Inf R : Type}.
Notation trans := (trans Ob A Inf R).
Definition ends (t : trans) : bool := t_term t || t_trunc t.

(** Episode in progress: the rows stored since the later of the last episode end and the last
    reset, and the rewards that count for its return (a reset may keep them). *)
Definition open_step (x : list trans * list R) (op : aop Ob A Inf R) : list trans * list R :=
  match op with
  | OpReset keep => ([], if keep then snd x else [])
  | OpAdd t => if ends t then ([], []) else (fst x ++ [t], snd x ++ [t_rew t])
  end.
Definition open_episode (ops : list (aop Ob A Inf R)) : list trans * list R := fold_left open_step ops ([], []).
(** The episodes that end in a stream of transitions, oldest first, when [x] is in progress before. *)
Fixpoint finished (x : list trans * list R) (ts : list trans) : list (list trans * list R) :=
  match ts with
  | [] => []
  | t :: ts => (if ends t then [(fst x ++ [t], snd x ++ [t_rew t])] else []) ++ finished (open_step x (OpAdd t)) ts
  end.

(** The part of a run that concerns environment [e]: a round is a list of environments together with
    one entry for each. *)
Definition part {T} (e : nat) (round : list nat * list T) : list T :=
  map snd (filter (fun x => fst x =? e) (combine (fst round) (snd round))).
Definition parts {T} (e : nat) (rounds : list (list nat * list T)) : list T := concat (map (part e) rounds).
(** What the policy was shown and what it answered for environment [e]. *)
Definition shown (e : nat) (calls : list (list nat * list Ob * list (A * B))) : list Ob :=
  parts e (map (fun c => (fst (fst c), snd (fst c))) calls).
Definition answered (e : nat) (calls : list (list nat * list Ob * list (A * B))) : list (A * B) :=
  parts e (map (fun c => (fst (fst c), snd c)) calls).
(** The calls made on the buffer. *)
Definition as_adds (rounds : list (list nat * list trans)) : list (mop Ob A Inf R) :=
  map (fun x => MAdd (Some (map Z.of_nat (fst x))) (snd x)) rounds.
(** The environments whose episode ended, in the order in which this was noticed. *)
Definition enders (rounds : list (list nat * list trans)) : list nat :=
  concat (map (fun x => map fst (filter (fun y => ends (snd y)) (combine (fst x) (snd x)))) rounds).
End Episodes.

(** ** Calls of [collect] *)
Inductive target : Type := Steps (n : nat) | Episodes (k : nat).     (* one more than [n], [k] *)
Definition by_steps (t : target) : option nat := match t with Steps n => Some (S n) | Episodes _ => None end.
Definition by_episodes (t : target) : option nat := match t with Steps _ => None | Episodes k => Some (S k) end.
(** The environments that take part. *)
Definition width (t : target) (N : nat) : nat := match t with Steps _ => N | Episodes k => Nat.min N (S k) end.

Section CollectorState.
Context {Ob A Inf R H ES PS : Type}.
Variable r0 : R.
Variable radd : R -> R -> R.
Variable last_frame : Ob -> Ob.
Variable o : opts.

(** A collector that was reset: its buffer, of capacities [ns], has the history [ops], there is a
    sub-buffer for every environment and a current observation of every environment. *)
Definition coll_ok (ns : list nat) (ops : list (mop Ob A Inf R)) (c : coll Ob A Inf R H ES PS) : Prop :=
  (forall n, In n ns -> 0 < n) /\ 0 < stack_num o
  /\ 0 < length (c_envs c) <= length ns
  /\ (exists outs, m_run r0 radd last_frame o (m_init r0 ns) ops = Ok (c_mgr c, outs))
  /\ exists obs inf, c_pre c = Some (obs, inf) /\ length obs = length (c_envs c) /\ length inf = length (c_envs c).
Definition pre_obs (c : coll Ob A Inf R H ES PS) (e : nat) : option Ob :=
  match c_pre c with Some (obs, _) => nth_error obs e | None => None end.

(** The rows that were added to the buffer after [ops], round by round: [rounds], for the calls [calls]
    of the policy. *)
Definition recorded {B} (estep : nat -> ES -> B -> ES * sres Ob Inf R) (ereset : nat -> ES -> ES * (Ob * Inf))
    (ns : list nat) (ops : list (mop Ob A Inf R)) (c : coll Ob A Inf R H ES PS)
    (m : mgr Ob A Inf R) (calls : list (list nat * list Ob * list (A * B))) (rounds : list (list nat * list (trans Ob A Inf R))) : Prop :=
  (exists outs, m_run r0 radd last_frame o (m_init r0 ns) (ops ++ as_adds rounds) = Ok (m, outs))
  /\ map fst rounds = map (fun call => fst (fst call)) calls
  /\ (forall rd, In rd rounds -> NoDup (fst rd) /\ length (snd rd) = length (fst rd) /\ forall e, In e (fst rd) -> e < length (c_envs c))
  /\ forall e s ob, nth_error (c_envs c) e = Some s -> pre_obs c e = Some ob ->
       parts e rounds = solo estep ereset e s ob (answered e calls)
       /\ map (@t_obs _ _ _ _) (parts e rounds) = shown e calls.
(** The episode in progress in sub-buffer [e] after [ops]. *)
Definition in_progress (ns : list nat) (ops : list (mop Ob A Inf R)) (e : nat) : list (trans Ob A Inf R) * list R :=
  open_episode (proj (length ns) e ops).
(** The episodes that environment [e] finished in [rounds]. *)
Definition episodes (ns : list nat) (ops : list (mop Ob A Inf R)) (rounds : list (list nat * list (trans Ob A Inf R))) (e : nat)
  : list (list (trans Ob A Inf R) * list R) := finished (in_progress ns ops e) (parts e rounds).
End CollectorState.

(** Every finished episode is shorter than the sub-buffer that holds it. *)
Definition short_enough {Ob A Inf R} (ns : list nat) (ops : list (mop Ob A Inf R)) (rounds : list (list nat * list (trans Ob A Inf R))) : Prop :=
  forall e n ep, nth_error ns e = Some n -> In ep (episodes ns ops rounds e) -> length (fst ep) < n.
(** Number of finished episodes in [rounds] of the environments below [w]. *)
Definition num_ends {Ob A Inf R} (w : nat) (rounds : list (list nat * list (trans Ob A Inf R))) : nat :=
  list_sum (map (fun e => length (filter ends (parts e rounds))) (seq 0 w)).

(** Several calls one after the other. *)
Fixpoint collects {C L : Type} (collect : option nat -> option nat -> C -> res (C * L)) (targets : list target) (c : C) : res (C * list L) :=
  match targets with
  | [] => Ok (c, [])
  | t :: targets => match collect (by_steps t) (by_episodes t) c with
                    | Err e => Err e
                    | Ok (c1, l) => match collects collect targets c1 with Err e => Err e | Ok (c2, ls) => Ok (c2, l :: ls) end
                    end
  end.

(** ** A small instance

    An environment that is given the lengths of its episodes, observations that count the steps and
    rewards of 1; every environment gets one list. *)
Definition demo_step (e : nat) (s : nat * list nat) (b : unit) : (nat * list nat) * sres nat unit Z :=
  let t := S (fst s) in ((t, snd s), mkSres t 1%Z (t =? hd 1 (snd s)) false tt).
Definition demo_reset (e : nat) (s : nat * list nat) : (nat * list nat) * (nat * unit) := ((0, tl (snd s)), (0, tt)).
(** The policy's hidden state counts how often it was called; a missing one is 0. *)
Definition demo_act (p : unit) (ids obs : list nat) (inf : list unit) (hid : option (list nat)) : unit * (list (unit * unit) * option (list nat)) :=
  (tt, (map (fun _ => (tt, tt)) obs, Some (map S (match hid with Some h => h | None => map (fun _ => 0) obs end)))).
Definition demo_opts : opts := mkOpts 1 true false false.
Definition demo_collect (k : hkind) := collect 0%Z Z.add (fun x : nat => x) demo_opts demo_step demo_reset demo_act (reset_hidden k (fun _ => 0)) (fun _ => false).
Definition demo_coll (ns : list nat) (lens : list (list nat)) : coll nat unit unit Z nat (nat * list nat) unit :=
  mkColl (map (fun l => (0, l)) lens) (m_init 0%Z ns) tt (Some (map (fun _ => 0) lens, map (fun _ => tt) lens)) None 0 0.
Definition demo_ok := @coll_ok nat unit unit Z nat (nat * list nat) unit 0%Z Z.add (fun x => x) demo_opts.
