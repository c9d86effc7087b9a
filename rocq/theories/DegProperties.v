(** * Properties C342-C344: components at the ends of their parameters *)
From Verif Require Import Py PyLemmas Num BufferModel BufferSpec SegTreeModel PrioModel PrioSpec HerModel HerSpec MaModel TatSpec DegSpec DegProofs.
Open Scope nat_scope.

(** C342.  With alpha 0, whatever was added, moved in from other buffers or given new weights, a draw
    takes every stored index for an equal part of the uniform draws. *)
Theorem C342_uniform : forall (Ob A Inf R : Type) (eps : Qc) (r0 : R) (radd : R -> R -> R) (last_frame : Ob -> Ob) (o : opts) (n : nat) (ops : list (pop Ob A Inf R)) (b : pbuf Ob A Inf R) rnd draw z,
  (0 < eps)%Qc -> 0 < n -> pops_ok (fun _ => 1%Qc) eps r0 radd last_frame o n (ps_init n) ops ->
  p_run (fun _ => 1%Qc) eps r0 radd last_frame o (pb_init r0 n) ops = Ok b ->
  0 < size (b_st (pb_buf b)) -> (0 < z)%Z -> (forall j, (0 <= draw j)%Qc /\ (draw j < 1)%Qc) ->
  exists l, pb_sample_indices o b rnd draw (Some z) = Ok l /\ length l = Z.to_nat z
    /\ forall k j, nth_error l k = Some j -> equal_part (size (b_st (pb_buf b))) (draw k) j.
Proof. exact C342_uniform_lemma. Qed.
Print Assumptions C342_uniform.

(** C342.  Every draw is in exactly one of the equal parts, so a prioritized sample with alpha 0 is a
    sample of a plain buffer for some draws of integers. *)
Theorem C342_parts : forall m r, 0 < m -> (0 <= r)%Qc -> (r < 1)%Qc ->
  exists j, equal_part m r j /\ forall j', equal_part m r j' -> j' = j.
Proof. exact C342_parts_lemma. Qed.
Print Assumptions C342_parts.

(** C342.  With alpha 0 all importance weights are equal, and 1 if normalised. *)
Theorem C342_weights : forall (Ob A Inf R : Type) (eps : Qc) (ipw : Qc -> Qc) (r0 : R) (radd : R -> R -> R) (last_frame : Ob -> Ob) (o : opts) (n : nat) (ops : list (pop Ob A Inf R)) (b : pbuf Ob A Inf R) index,
  (0 < eps)%Qc -> 0 < n -> pops_ok (fun _ => 1%Qc) eps r0 radd last_frame o n (ps_init n) ops ->
  p_run (fun _ => 1%Qc) eps r0 radd last_frame o (pb_init r0 n) ops = Ok b ->
  index <> [] -> (forall x, (0 < x)%Qc -> (0 < ipw x)%Qc) -> (forall i, In i index -> i < size (b_st (pb_buf b))) ->
  (exists w, batch_weight ipw false (pb_prio b) (map Z.of_nat index) = Ok (map (fun _ => w) index))
  /\ batch_weight ipw true (pb_prio b) (map Z.of_nat index) = Ok (map (fun _ => 1%Qc) index).
Proof. exact C342_weights_lemma. Qed.
Print Assumptions C342_weights.

(** C342.  With beta 0 all importance weights are 1 for every alpha and whatever the priorities. *)
Theorem C342_beta : forall (p : prio) (norm : bool) (index : list Z) ws, batch_weight (fun _ => 1%Qc) norm p index = Ok ws -> ws = map (fun _ => 1%Qc) index.
Proof. exact C342_beta_lemma. Qed.
Print Assumptions C342_beta.

(** C343.  If no episode is chosen for relabelling (future_k = 1), a HER buffer holds after every call, also
    right after a sampling, what a plain buffer holds, and returns the same. *)
Theorem C343_her : forall (Ob0 G A Inf R : Type) (r0 : R) (radd : R -> R -> R) (last_frame : gobs Ob0 G -> gobs Ob0 G) (rew_fn : G -> G -> R) (o : opts) (n : nat) (ops : list (hop Ob0 G A Inf R)),
  stack_num o = 1 -> 0 < n -> Forall (hop_ok r0 radd last_frame o) ops -> Forall no_relabel ops ->
  rmap (fun x => (h_buf (fst x), snd x)) (h_run r0 radd last_frame rew_fn o (her_init r0 n) ops) = plain_run r0 radd last_frame o (buf_init r0 n) ops.
Proof. exact C343_her_lemma. Qed.
Print Assumptions C343_her.

(** C344.  The manager of one agent acts and explores as the agent's policy, with the same errors. *)
Theorem C344_act : forall (Row Act St : Type) (policy : nat -> option (option St) -> list Row -> res (list Act * option St))
  (noise : nat -> list Act -> list Row -> res (list Act)) (a : nat) (rows : list Row) state (act : list Act),
  rows <> [] -> length act = length rows ->
  (forall out, policy a (option_map (fun st => st a) state) rows = Ok out -> length (fst out) = length rows) ->
  (forall new, noise a act rows = Ok new -> length new = length rows) ->
  forward policy [a] (repeat a (length rows)) rows state
    = rmap (fun out => (fst out, [(a, snd out)])) (policy a (option_map (fun st => st a) state) rows)
  /\ exploration noise [a] (repeat a (length rows)) rows act = noise a act rows.
Proof. exact C344_act_lemma. Qed.
Print Assumptions C344_act.

(** C344.  It processes and learns as the agent's policy, with the same errors, and puts the rewards back. *)
Theorem C344_learn : forall (Row R X Stats : Type) (agent_idx : nat -> nat) (pf : nat -> list Row -> list R -> list nat -> list R -> res X) (learn_fn : nat -> X -> res Stats)
  (a : nat) (rows : list Row) (rews : list R) (indice : list nat) (save : list R),
  rows <> [] -> length rews = length rows -> length indice = length rows -> agent_idx a = 0 ->
  let run := process agent_idx pf [a] (repeat a (length rows)) rows (map (fun r => [r]) rews) indice (map (fun r => [r]) save) in
  snd run = rmap (fun x => [(a, Some x)]) (pf a rows rews indice save)
  /\ (let* l := snd run in ma_learn learn_fn l) = rmap (fun s => [(a, s)]) (let* x := pf a rows rews indice save in learn_fn a x)
  /\ (is_ok (snd run) = true -> fst run = RFull (map (fun r => [r]) save)).
Proof. exact C344_learn_lemma. Qed.
Print Assumptions C344_learn.

(** ** Non-vacuity *)
Definition plain : opts := mkOpts 1 true false false.
Definition ex_t (k : nat) (d : bool) : trans nat nat nat Z := mkTrans k k (Z.of_nat k) d false (S k) 0.
Definition qq (a : Z) (b : positive) : Qc := Q2Qc (a # b).
Definition pex_ops : list (pop nat nat nat Z) := [PAdd (ex_t 1 false); PAdd (ex_t 2 true); PWeights [1; 0]%Z [qq (-15) 8; qq 3 8]; PAdd (ex_t 3 false)].
Example C342_ex_ok : pops_ok (fun _ => 1%Qc) (qq 1 8) 0%Z Z.add (fun x => x) plain 4 (ps_init 4) pex_ops.
Proof.
  cbn [pops_ok pex_ops pop_ok]. split; [exact Logic.I|]. split; [exact Logic.I|]. split; [|split; exact Logic.I].
  split; [discriminate|]. split; [reflexivity|]. intros i [<-|[<-|[]]]; vm_compute; split; (discriminate || reflexivity).
Qed.
(** Three rows in a buffer of four: the draws 0, 1/4, 2/4, 3/4. *)
Example C342_ex : match p_run (fun _ => 1%Qc) (qq 1 8) 0%Z Z.add (fun x : nat => x) plain (pb_init 0%Z 4) pex_ops with
  | Ok b => pb_sample_indices plain b (fun _ => 0) (fun j => qq (Z.of_nat j) 4) (Some 4%Z) = Ok [0; 0; 1; 2]
      /\ size (b_st (pb_buf b)) = 3
      /\ match batch_weight (fun x => / x)%Qc false (pb_prio b) [0; 2]%Z, batch_weight (fun x => / x)%Qc true (pb_prio b) [0; 2]%Z with
         | Ok u, Ok v => map this u = [1 # 2; 1 # 2]%Q /\ map this v = [1; 1]%Q | _, _ => False end
  | Err _ => False end.
Proof. vm_compute. repeat split. Qed.
Example C342_ex_part : equal_part 3 (qq 2 4) 1 /\ ~ equal_part 3 (qq 2 4) 2.
Proof.
  split.
  - split; [lia|]. split; [intros H; vm_compute in H; discriminate H|right; vm_compute; reflexivity].
  - intros (_ & _ & [H|H]); [discriminate|vm_compute in H; discriminate H].
Qed.
Example C342_ex_beta : batch_weight (fun _ => 1%Qc) false (prio_init 2) [0; 1]%Z = Ok [1%Qc; 1%Qc].
Proof. vm_compute. reflexivity. Qed.

Definition gt (o ach des : nat) (nach : nat) (d : bool) : trans (gobs nat nat) nat unit Z := mkTrans (mkG o ach des) o 0%Z d false (mkG (S o) nach des) tt.
Definition ex_hops (sel : nat -> bool) : list (hop nat nat nat unit Z) :=
  [HAdd (gt 0 0 9 1 false); HAdd (gt 1 1 9 2 true); HAdd (gt 2 4 9 5 false); HSample (fun k => k) (Some 3%Z) 5 (fun k => S k) sel].
Definition goals_of (b : buf (gobs nat nat) nat unit Z) : list (option (nat * Z)) := map (option_map (fun s => (g_des (s_obs s), s_rew s))) (meta_rows 4 (b_meta b)).
Definition grew (a d : nat) : Z := if a =? d then 1%Z else 0%Z.
Example C343_ex : Forall no_relabel (ex_hops (fun _ => false)) /\ Forall (hop_ok 0%Z Z.add (fun x => x) plain) (ex_hops (fun _ => false))
  /\ match h_run 0%Z Z.add (fun x => x) grew plain (her_init 0%Z 4) (ex_hops (fun _ => false)), h_run 0%Z Z.add (fun x => x) grew plain (her_init 0%Z 4) (ex_hops (fun _ => true)) with
     | Ok (h, outs), Ok (h', outs') => outs = outs' /\ goals_of (h_buf h) = [Some (9, 0%Z); Some (9, 0%Z); Some (9, 0%Z); None]
         /\ goals_of (h_buf h') = [Some (2, 0%Z); Some (2, 1%Z); Some (5, 1%Z); None] /\ length (h_alt h) = 10
     | _, _ => False end.
Proof. split; [repeat constructor|]. split; [repeat constructor|]. vm_compute. repeat split. Qed.

Example C344_ex : forward (fun a (s : option (option nat)) rows => Ok (map (fun x => x + a) rows, Some (length rows))) [3] [3; 3] [10; 20] None = Ok ([13; 23], [(3, Some 2)])
  /\ exploration (fun a acts rows => Ok (map S acts)) [3] [3; 3] [10; 20] [13; 23] = Ok [14; 24]
  /\ process (fun _ => 0) (fun a rows rews ind brew => Ok (rews, ind, brew)) [3] [3; 3] [10; 20] [[7%Z]; [8%Z]] [1; 0] [[8%Z]; [7%Z]; [6%Z]]
     = (RFull [[8%Z]; [7%Z]; [6%Z]], Ok [(3, Some ([7%Z; 8%Z], [1; 0], [8%Z; 7%Z; 6%Z]))]).
Proof. vm_compute. repeat split. Qed.
