(** * Model of DDPGPolicy.exploration_noise ([tianshou/policy/modelfree/ddpg.py]) as a collector calls it *)
From Verif Require Export Py Num ActorModel.
Open Scope nat_scope.

(** policy._exploration_noise: None, a GaussianNoise or an OUNoise with its state
    (ddpg.py:110-115, ddpg.py:120-122, exploration/random.py:21-82; for OUNoise see [ou_call]). *)
Inductive enoise := NNone | NGauss (mu sigma : Qc) | NOU (mu alpha beta : Qc) (x : ouval).
(** The actions of one call: an array, or a batch.  The actions have one component, so the array of
    shape (R, 1) is the list of its rows; for more components each behaves as this one. *)
Inductive eact := EArr (l : list Qc) | EBatch (l : list Qc).

(** noise(size) with the standard normal draws [z] *)
Definition noise_call (ns : enoise) (n : nat) (z : list Qc) : list Qc * enoise :=
  match ns with
  | NNone => (repeat 0%Qc n, NNone)
  | NGauss mu sigma => (map (fun j => mu + sigma * nth j z 0)%Qc (seq 0 n), ns)
  | NOU mu alpha beta x => let '(r, x) := ou_call mu alpha beta (SizeTuple n) z x in (r, NOU mu alpha beta x)
  end.
(** DDPGPolicy.exploration_noise (ddpg.py:214-224); the flag says that the warning is given. *)
Definition expl_noise (ns : enoise) (act : eact) (z : list Qc) : eact * enoise * bool :=
  match ns with
  | NNone => (act, ns, false)
  | _ => match act with
         | EArr l => let '(r, ns) := noise_call ns (length l) z in (EArr (map (fun xy : Qc * Qc => fst xy + snd xy)%Qc (combine l r)), ns, false)
         | EBatch l => (EBatch l, ns, true)
         end
  end.

(** One step of a collector (collector.py:704-711): the ready environments, the policy's action for each
    and the draws.  The result pairs each environment with its action before map_action. *)
Record cstep := mkCS { cs_ids : list nat; cs_act : list Qc; cs_z : list Qc }.
Definition cstep_ok (s : cstep) : Prop := length (cs_act s) = length (cs_ids s).
Fixpoint expl_run (ns : enoise) (steps : list cstep) : list (list (nat * Qc)) :=
  match steps with
  | [] => []
  | s :: steps =>
      let '(a, ns, _) := expl_noise ns (EArr (cs_act s)) (cs_z s) in
      combine (cs_ids s) (match a with EArr l | EBatch l => l end) :: expl_run ns steps
  end.
