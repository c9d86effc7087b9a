(** * Model of AsyncCollector ([tianshou/data/collector.py]:1079-1357)

    The collector runs on the vector environment of VenvModel.v in asynchronous mode: which
    environments finish in a round is decided by the oracle [rounds] of [v_step].  The loop gets a
    list of such oracles, one per round; if it ends before the loop does the result is [OutOfFuel].

    Environments, policy and reset of hidden states are arbitrary functions as in CollectModel.v;
    the policy's answer [act_fn] covers both branches of _compute_action_policy_hidden.

    The array of current hidden states and the entry hidden_state of the array of current policy
    entries are one and the same object: both are set from the policy's [state] in the first round
    (collector.py:721-725, 1235-1249) and written at the same rows afterwards, so one list [a_hid]
    stands for both ([None]: no hidden state, and an empty policy entry; further entries under the key
    "policy" of a policy's answer are not modelled).  What is stored in the buffer under "act" and
    "policy" is modelled as a pair in the action column.

    Not modelled: rendering, times, exceptions inside environments. *)
From Verif Require Export Py Num BufferModel ManagerModel CollectModel.
From Verif Require VenvModel.
Open Scope nat_scope.

(** What a worker answers to a command. *)
Inductive answer (Ob Inf R : Type) : Type := AStep (r : sres Ob Inf R) | AReset (ob : Ob) (inf : Inf) | AOther.
Arguments AStep {Ob Inf R}. Arguments AReset {Ob Inf R}. Arguments AOther {Ob Inf R}.

Section Async.
Context {Ob A B Inf R H ES PS : Type}.
Variable r0 : R.
Variable radd : R -> R -> R.
Variable last_frame : Ob -> Ob.
Variable o : opts.
Variable estep : ES -> B -> ES * sres Ob Inf R.
Variable ereset : ES -> ES * (Ob * Inf).
Variable dummy : bool.                                      (* the class of the workers *)
Variable act_fn : PS -> list nat -> list Ob -> list Inf -> option (list H) -> PS * (list (A * B) * option (list H)).
Variable hreset : list nat -> list H -> list H.
(** The value left by [batch[rows] = Batch()] (batch.py:796-826), written when an answer without
    hidden state follows one with a hidden state. *)
Variable hzero : H -> H.
(** Conversion of an action to an element of [np.empty(env_num)], see [to_cell]. *)
Variable cell : A -> res A.

Notation venv := (@VenvModel.venv ES B (answer Ob Inf R)).
Notation mgr := (mgr Ob (A * H) Inf R).

(** An environment as the state machine of VenvModel.v. *)
Definition env_cmd (s : ES) (c : VenvModel.cmd B) : ES * answer Ob Inf R :=
  match c with
  | VenvModel.CStep b => let '(s, r) := estep s b in (s, AStep r)
  | VenvModel.CReset => let '(s, x) := ereset s in (s, AReset (fst x) (snd x))
  | _ => (s, AOther)
  end.
Definition as_step (x : Z * answer Ob Inf R) : res (nat * sres Ob Inf R) :=
  match snd x with AStep r => Ok (Z.to_nat (fst x), r) | _ => Err TypeError end.
Definition as_reset (x : Z * answer Ob Inf R) : res (Ob * Inf) :=
  match snd x with AReset ob inf => Ok (ob, inf) | _ => Err TypeError end.
Definition ids_of (l : list nat) : option (list Z) := Some (map Z.of_nat l).

(** The attributes of the collector (1112-1124).  [a_cur]: current observations and infos of all
    environments, [a_act]: the array of current actions (np.empty at first: arbitrary values). *)
Record acoll : Type := mkA {
  a_venv : venv; a_mgr : mgr; a_pol : PS; a_ready : list nat;
  a_cur : option (list Ob * list Inf); a_hid : option (list H); a_act : list A;
  a_step : nat; a_episode : nat }.
(** One run of _collect; [n_calls] records what the policy was shown (observations, hidden state) and
    what it answered. *)
Record arun : Type := mkRun {
  n_venv : venv; n_mgr : mgr; n_pol : PS; n_ready : list nat;
  n_obs : list Ob; n_inf : list Inf; n_hid : option (list H); n_act : list A;
  n_last_obs : list Ob; n_last_inf : list Inf; n_last_hid : option (list H);
  n_steps : nat; n_eps : nat; n_lens : list nat; n_returns : list R;
  n_calls : list (list nat * list Ob * option (list H) * list (A * B) * option (list H)) }.

(** [arr[ids] = xs] with one row for each id (broadcasting of a single row is not modelled). *)
Definition assign {T} (ids : list nat) (xs l : list T) : res (list T) :=
  if length xs =? length ids then Ok (put ids xs l) else Err ValueError.

(** One round of the loop (1203-1334). *)
Definition around (rounds : list (option (list nat))) (l : arun) : res arun :=
  if negb (length (n_obs l) =? length (n_act l)) || negb (length (n_act l) =? VenvModel.env_num (n_venv l)) then Err RuntimeError
  else
  let '(p, (acts, hid)) := act_fn (n_pol l) (n_ready l) (n_last_obs l) (n_last_inf l) (n_last_hid l) in
  (* 1229-1249: actions, policy entries and hidden states of the rows that step *)
  let* cells := mapM cell (map fst acts) in
  let* act := assign (n_ready l) cells (n_act l) in
  let* hids := match hid, n_hid l with
               | Some h, Some hs => let* hs := assign (n_ready l) h hs in Ok (Some hs)
               | Some h, None => Ok (Some h)
               | None, Some hs => let* old := take hs (n_ready l) in Ok (Some (put (n_ready l) (map hzero old) hs))
               | None, None => Ok None
               end in
  (* 1252-1263: the environments that answer *)
  let '(v, out) := VenvModel.v_step env_cmd dummy (n_venv l) (Some (map snd acts)) (ids_of (n_ready l)) rounds in
  let* out := out in
  let* steps := mapM as_step out in
  let ready := map fst steps in
  let rs := map snd steps in
  (* 1265-1278: an empty policy entry cannot be indexed *)
  let* ob := take (n_obs l) ready in
  let* ac := take act ready in
  let* pe := match hids with Some hs => take hs ready | None => Err IndexError end in
  let rows := rows_of ob (combine ac pe) rs in
  (* 1286-1294 *)
  let* y := m_add r0 radd last_frame o (n_mgr l) (Some (map Z.of_nat ready)) rows in
  let '(m, reps) := y in
  let done := map r_done rs in
  let num := length (filter (fun b => b) done) in
  let calls := n_calls l ++ [(n_ready l, n_last_obs l, n_last_hid l, acts, hid)] in
  (* 1296-1323 *)
  let last_obs := map r_obs rs in
  let last_inf := map r_info rs in
  let* z := if num =? 0 then Ok (v, (last_obs, last_inf, pe), ([], []))
            else
              let dl := where_true done in
              let* reps_d := take reps dl in
              let* dg := take ready dl in
              let '(v, rst) := VenvModel.v_reset env_cmd dummy v (ids_of dg) in
              let* rst := rst in
              let* rst := mapM as_reset rst in
              Ok (v, (put dl (map fst rst) last_obs, put dl (map snd rst) last_inf, hreset dl pe),
                  (map (fun rep : nat * R * nat * nat => snd (fst rep)) reps_d, map (fun rep : nat * R * nat * nat => snd (fst (fst rep))) reps_d)) in
  let '(v, (last_obs, last_inf, last_hid), (lens, rets)) := z in
  (* 1325-1344 *)
  Ok (mkRun v m p ready (put ready last_obs (n_obs l)) (put ready last_inf (n_inf l))
        (option_map (put ready last_hid) hids) act last_obs last_inf (Some last_hid)
        (n_steps l + length ready) (n_eps l + num) (n_lens l ++ lens) (n_returns l ++ rets) calls).

Fixpoint arounds (sched : list (list (option (list nat)))) (n_step n_episode : option nat) (l : arun) : res arun :=
  match sched with
  | [] => Err OutOfFuel
  | rounds :: sched =>
      let* l := around rounds l in
      if reached n_step (n_steps l) || reached n_episode (n_eps l) then Ok l else arounds sched n_step n_episode l
  end.

(** _collect before the loop (1176-1199) and after it (1346-1357) *)
Definition a_start (c : acoll) : res arun :=
  match a_cur c with
  | None => Err RuntimeError
  | Some (obs, inf) =>
      let* lo := take obs (a_ready c) in
      let* li := take inf (a_ready c) in
      let* lh := match a_hid c with None => Ok None | Some hs => let* h := take hs (a_ready c) in Ok (Some h) end in
      Ok (mkRun (a_venv c) (a_mgr c) (a_pol c) (a_ready c) obs inf (a_hid c) (a_act c) lo li lh 0 0 [] [] [])
  end.
Definition a_finish (c : acoll) (l : arun) : acoll :=
  mkA (n_venv l) (n_mgr l) (n_pol l) (n_ready l) (Some (n_obs l, n_inf l)) (n_hid l) (n_act l)
      (a_step c + n_steps l) (a_episode c + n_eps l).

(** reset_env (1151-1159 and 652-675): the running environments are stepped once, all are reset. *)
Definition a_reset_env (rounds : list (option (list nat))) (c : acoll) : res (acoll * list (Ob * Inf)) :=
  let* v := match VenvModel.waiting_id (a_venv c) with
            | [] => Ok (a_venv c)
            | w => let '(v, out) := VenvModel.v_step env_cmd dummy (a_venv c) None (Some w) rounds in
                   let* _ := out in Ok v
            end in
  let '(v, rst) := VenvModel.v_reset env_cmd dummy v None in
  let* rst := rst in
  let* rst := mapM as_reset rst in
  Ok (mkA v (a_mgr c) (a_pol c) (a_ready c) (a_cur c) (a_hid c) (a_act c) (a_step c) (a_episode c), rst).
(** reset with reset_stats=True (1126-1149); [junk]: what np.empty leaves in the action array. *)
Definition a_reset (rounds : list (option (list nat))) (junk : list A) (reset_buffer : bool) (c : acoll) : res acoll :=
  let* x := a_reset_env rounds c in
  let '(c, rst) := x in
  Ok (mkA (a_venv c) (if reset_buffer then m_reset r0 false (a_mgr c) else a_mgr c) (a_pol c)
        (seq 0 (VenvModel.env_num (a_venv c))) (Some (map fst rst, map snd rst)) None junk 0 0).

(** collect with reset_before_collect=False (433-517) *)
Definition a_collect (sched : list (list (option (list nat)))) (n_step n_episode : option nat) (c : acoll) : res (acoll * arun) :=
  let* _ := validate n_step n_episode in
  let* l := a_start c in
  let* l := arounds sched n_step n_episode l in
  Ok (a_finish c l, l).
(** The constructor (1085-1124). *)
Definition a_init (v : venv) (m : mgr) (p : PS) (junk : list A) : acoll :=
  mkA v m p (seq 0 (VenvModel.env_num v)) None None junk 0 0.
End Async.
Arguments acoll : clear implicits.
Arguments arun : clear implicits.

(** ** Elements of [np.empty(env_num)] (1121, 1148, 1229)

    A one-dimensional float array.  Integers are converted, arrays do not fit (an array of one row and
    one column does, which is not modelled). *)
Inductive action : Type := AInt (z : Z) | AFloat (q : Qc) | AVec (l : list Qc).
Definition to_cell (a : action) : res action :=
  match a with AInt z => Ok (AFloat (Q2Qc (inject_Z z))) | AFloat q => Ok (AFloat q) | AVec _ => Err ValueError end.
