(** * Specification of asynchronous collection

    The environments on their own ([solo], [part], [parts], [enders], [finished]) are those of
    CollectSpec.v. *)
From Verif Require Export CollectSpec AsyncModel.
From Verif Require VenvModel VenvProofs.
Open Scope nat_scope.

Section AsyncSpec.
Context {Ob A B Inf R H ES PS : Type}.

(** The policy answers every call with a hidden state, one row per observation. *)
Definition stateful (act_fn : PS -> list nat -> list Ob -> list Inf -> option (list H) -> PS * (list (A * B) * option (list H))) : Prop :=
  forall p ids obs inf hid, exists h, snd (snd (act_fn p ids obs inf hid)) = Some h /\ length h = length obs.

(** A call of the policy: the environments, what they showed, and what is to be stored (the action as
    a float and the hidden state) and executed. *)
Notation acall := (list nat * list Ob * option (list H) * list (A * B) * option (list H))%type.
Definition reply (fl : A -> A) (call : acall) : list nat * list Ob * list ((A * H) * B) :=
  let '(ids, obs, _, acts, hid) := call in
  (ids, obs, map (fun x => ((fl (fst (fst x)), snd x), snd (fst x))) (combine acts (match hid with Some h => h | None => [] end))).

(** The hidden state that the policy was given for environment [e], call by call. *)
Definition given (e : nat) (calls : list acall) : list (option H) :=
  parts e (map (fun c : acall => let '(ids, _, hid, _, _) := c in
                  (ids, match hid with Some h => map Some h | None => map (fun _ => None) ids end)) calls).

(** Several calls of [collect] one after the other, each with its schedule. *)
Fixpoint a_collects {C L S : Type} (collect : S -> option nat -> option nat -> C -> res (C * L)) (calls : list (target * S)) (c : C) : res (C * list L) :=
  match calls with
  | [] => Ok (c, [])
  | (t, s) :: calls => match collect s (by_steps t) (by_episodes t) c with
                       | Err e => Err e
                       | Ok (c1, l) => match a_collects collect calls c1 with Err e => Err e | Ok (c2, ls) => Ok (c2, l :: ls) end
                       end
  end.

(** A collector right after reset: [v0] is the vector environment as it was made. *)
Variable r0 : R.
Variable radd : R -> R -> R.
Variable last_frame : Ob -> Ob.
Variable o : opts.
Variable estep : ES -> B -> ES * sres Ob Inf R.
Variable ereset : ES -> ES * (Ob * Inf).
Variable dummy : bool.
Notation acoll := (acoll Ob A B Inf R H ES PS).
Definition just_reset (envs : list ES) (ns : list nat) (ops : list (mop Ob (A * H) Inf R)) (c : acoll) : Prop :=
  (forall n, In n ns -> 0 < n) /\ length envs <= length ns
  /\ (exists outs, m_run r0 radd last_frame o (m_init r0 ns) ops = Ok (a_mgr c, outs))
  /\ exists wn tm v0 rounds junk rb c0 out, VenvModel.init envs wn tm = Ok v0 /\ VenvModel.is_async v0 = true
     /\ VenvProofs.reach (env_cmd estep ereset) dummy envs v0 (a_venv c0) out
     /\ length junk = length envs /\ a_reset r0 estep ereset dummy rounds junk rb c0 = Ok c.
(** State and observation of environment [e]. *)
Definition env_of (c : acoll) (e : nat) : option ES := option_map (@VenvModel.w_env _ _ _) (nth_error (VenvModel.workers (a_venv c)) e).
Definition obs_of (c : acoll) (e : nat) : option Ob := match a_cur c with Some (obs, _) => nth_error obs e | None => None end.
Definition running (c : acoll) (e : nat) : Prop := In (Z.of_nat e) (VenvModel.waiting_id (a_venv c)).
End AsyncSpec.

(** ** A concrete collector

    The environments of CollectSpec.v; the policy answers the same action everywhere, and with
    [st = true] a hidden state that counts its calls. *)
Definition ademo_act (a : action) (st : bool) (p : unit) (ids obs : list nat) (inf : list unit) (hid : option (list nat)) : unit * (list (action * unit) * option (list nat)) :=
  (tt, (map (fun _ => (a, tt)) obs, if st then Some (map (fun i => S (match hid with Some h => nth i h 0 | None => 0 end)) (seq 0 (length obs))) else None)).
Definition ademo_start (dummy : bool) (wn : nat) (ns : list nat) (lens : list (list nat)) : res (acoll nat action unit unit Z nat (nat * list nat) unit) :=
  let* v := VenvModel.init (map (fun l => (0, l)) lens) (Some wn) None in
  a_reset 0%Z (demo_step 0) (demo_reset 0) dummy [] (map (fun _ => AFloat 0%Qc) lens) false (a_init v (m_init 0%Z ns) tt []).
Definition ademo_collect (a : action) (st dummy : bool) :=
  a_collect 0%Z Z.add (fun x : nat => x) demo_opts (demo_step 0) (demo_reset 0) dummy (ademo_act a st) (reset_hidden HArray (fun _ => 0)) (fun _ => 0) to_cell.
Definition ademo_reset (dummy : bool) (c : acoll nat action unit unit Z nat (nat * list nat) unit) rounds :=
  a_reset 0%Z (demo_step 0) (demo_reset 0) dummy rounds (a_act c) false c.
Definition ademo_just_reset (dummy : bool) (lens : list (list nat)) := just_reset (A := action) (H := nat) (PS := unit) 0%Z Z.add (fun x : nat => x) demo_opts (demo_step 0) (demo_reset 0) dummy (map (fun l => (0, l)) lens).
(** Three environments with these episode lengths, and the order in which they answer. *)
Definition lens3 : list (list nat) := [[1; 4; 1; 2; 2; 2]; [3; 1; 3; 2; 2]; [2; 2; 5; 2; 2]].
Definition sched3 : list (list (option (list nat))) := [[Some [0; 2]]; [Some [1]; Some [0]]; [Some [2; 1]]].
(** Integer and float actions: the float. *)
Definition as_float (a : action) : action := match a with AInt z => AFloat (Q2Qc (inject_Z z)) | a => a end.
