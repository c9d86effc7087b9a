(** * Model of MultiAgentPolicyManager.exploration_noise ([tianshou/policy/multiagent/mapolicy.py]) over DDPG policies *)
From Verif Require Export Py Num ActorModel ExpnModel.
Open Scope nat_scope.

(** np.nonzero(batch.obs.agent_id == agent_id)[0] (mapolicy.py:176) *)
Definition rows_for (a : nat) (ids : list nat) : list nat := filter (fun j => nth j ids 0 =? a) (seq 0 (length ids)).
(** act[agent_index] (mapolicy.py:179) *)
Definition gather (idx : list nat) (act : list Qc) : list Qc := map (fun j => nth j act 0%Qc) idx.
(** act[agent_index] = vals, in place (mapolicy.py:179) *)
Definition scatter (idx : list nat) (vals act : list Qc) : list Qc :=
  fold_left (fun l jv => upd l (fst jv) (snd jv)) (combine idx vals) act.

(** One turn of the loop (mapolicy.py:175-179).  The actions are an array with one component; every
    policy is a DDPGPolicy of its own (no object is used for two agents), represented by its noise;
    [z a] are the draws of agent [a]'s noise. *)
Definition noise_agent (ids : list nat) (z : nat -> list Qc) (act : list Qc) (p : nat * enoise) : list Qc * (nat * enoise) :=
  let '(a, ns) := p in
  match rows_for a ids with
  | [] => (act, (a, ns))
  | idx => let '(r, ns, _) := expl_noise ns (EArr (gather idx act)) (z a) in
           (scatter idx (match r with EArr l | EBatch l => l end) act, (a, ns))
  end.
(** MultiAgentPolicyManager.exploration_noise (mapolicy.py:165-180) for observations that are a batch *)
Fixpoint ma_noise (ids : list nat) (z : nat -> list Qc) (act : list Qc) (ps : list (nat * enoise)) : list Qc * list (nat * enoise) :=
  match ps with
  | [] => (act, [])
  | p :: ps => let '(act, p) := noise_agent ids z act p in
               let '(act, ps) := ma_noise ids z act ps in (act, p :: ps)
  end.
(** Successive calls: the agent of every row, the actions and the draws. *)
Record mstep := mkMS { ms_ids : list nat; ms_act : list Qc; ms_z : nat -> list Qc }.
Fixpoint ma_run (ps : list (nat * enoise)) (steps : list mstep) : list (list Qc) * list (nat * enoise) :=
  match steps with
  | [] => ([], ps)
  | s :: steps => let '(act, ps) := ma_noise (ms_ids s) (ms_z s) (ms_act s) ps in
                  let '(out, ps) := ma_run ps steps in (act :: out, ps)
  end.
