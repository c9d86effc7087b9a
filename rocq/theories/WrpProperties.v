(** * Property C337: wrappers of observations and of actions *)
From Verif Require Import Py PyLemmas BufferModel ManagerModel GetIndicesModel CollectModel TatSpec WrpSpec WrpProofs.
Open Scope nat_scope.

(** C337. Transforming the observations and infos in the environments gives what transforming them in
    front of the policy gives, with transformed data in the buffer; everything else is the same. *)
Theorem C337_obs : forall (Ob Ob' A B Inf Inf' R H ES PS : Type) (r0 : R) (radd : R -> R -> R) (fo : Ob -> Ob') (fi : Inf -> Inf') (last_frame : Ob -> Ob) (last_frame' : Ob' -> Ob') (o : opts)
    (estep : nat -> ES -> B -> ES * sres Ob Inf R) (ereset : nat -> ES -> ES * (Ob * Inf))
    (act_fn : PS -> list nat -> list Ob' -> list Inf' -> option (list H) -> PS * (list (A * B) * option (list H))) (hreset : list nat -> list H -> list H)
    (hook : list (row_out Ob A Inf R) -> bool) (hook' : list (row_out Ob' A Inf' R) -> bool) (fuel : nat) (n_step n_episode : option nat) (reset_before : bool) (c : coll Ob A Inf R H ES PS),
  (forall x, last_frame' (fo x) = fo (last_frame x)) -> (forall rows, hook' (map (obs_out fo fi) rows) = hook rows) ->
  CollectModel.collect r0 radd last_frame' o (obs_step fo fi estep) (obs_reset fo fi ereset) act_fn hreset hook' fuel n_step n_episode reset_before (obs_coll fo fi c) =
  rmap (fun x => (obs_coll fo fi (fst x), obs_loop fo fi (snd x))) (CollectModel.collect r0 radd last_frame o estep ereset (obs_act fo fi act_fn) hreset hook fuel n_step n_episode reset_before c).
Proof. exact C337_obs_lemma. Qed.
Print Assumptions C337_obs.

(** C337. Transforming the actions in the environments gives what transforming them behind the policy
    gives: the same collector, buffer, statistics and episodes. *)
Theorem C337_act : forall (Ob A B B' Inf R H ES PS : Type) (r0 : R) (radd : R -> R -> R) (fb : B' -> B) (last_frame : Ob -> Ob) (o : opts)
    (estep : nat -> ES -> B -> ES * sres Ob Inf R) (ereset : nat -> ES -> ES * (Ob * Inf))
    (act_fn : PS -> list nat -> list Ob -> list Inf -> option (list H) -> PS * (list (A * B') * option (list H))) (hreset : list nat -> list H -> list H)
    (hook : list (row_out Ob A Inf R) -> bool) (fuel : nat) (n_step n_episode : option nat) (reset_before : bool) (c : coll Ob A Inf R H ES PS),
  CollectModel.collect r0 radd last_frame o estep ereset (act_act fb act_fn) hreset hook fuel n_step n_episode reset_before c =
  rmap (fun x => (fst x, act_loop fb (snd x))) (CollectModel.collect r0 radd last_frame o (act_step fb estep) ereset act_fn hreset hook fuel n_step n_episode reset_before c).
Proof. exact C337_act_lemma. Qed.
Print Assumptions C337_act.

(** ** Non-vacuity: two environments that count their steps and end after three and two of them;
    observations are numbers, transformed to pairs; actions are numbers, transformed to their parity. *)
Definition ex_o : opts := mkOpts 2 false false false.
Definition ex_step (e s : nat) (b : bool) : nat * sres nat nat Z := (S s, mkSres (10 * e + S s) (if b then 5 else 1)%Z (S s =? 3 - e) false s).
Definition ex_reset (e s : nat) : nat * (nat * nat) := (0, (10 * e, 0)).
Definition ex_fo (x : nat) : nat * bool := (S x, Nat.even x).
Definition ex_act (p : nat) (ids : list nat) (obs : list (nat * bool)) (inf : list nat) (h : option (list unit)) : nat * (list (nat * nat) * option (list unit)) :=
  (S p, (map (fun x => (fst x, fst x + (if snd x : bool then 1 else 2) + p)) obs, None)).
Definition ex_c : coll nat nat nat Z unit nat nat := mkColl [0; 0] (m_init 0%Z [4; 4]) 0 (Some ([0; 10], [0; 0])) None 0 0.
Example C337_ex :
  match CollectModel.collect 0%Z Z.add (fun x => x) ex_o (act_step Nat.even ex_step) ex_reset (obs_act ex_fo (fun x => x) ex_act) (fun _ h => h) (fun _ => false) 20 (Some 8) None false ex_c,
        CollectModel.collect 0%Z Z.add (fun x => x) ex_o (obs_step ex_fo (fun x => x) (act_step Nat.even ex_step)) (obs_reset ex_fo (fun x => x) ex_reset) ex_act (fun _ h => h) (fun _ => false) 20 (Some 8) None false (obs_coll ex_fo (fun x => x) ex_c),
        CollectModel.collect 0%Z Z.add (fun x => x) ex_o ex_step ex_reset (act_act Nat.even (obs_act ex_fo (fun x => x) ex_act)) (fun _ h => h) (fun _ => false) 20 (Some 8) None false ex_c with
  | Ok (c, l), Ok (c1, l1), Ok (c2, l2) =>
      st_returns (l_stats l) = [6; 11; 6]%Z /\ st_lens (l_stats l) = [2; 3; 2]
      /\ c1 = obs_coll ex_fo (fun x => x) c /\ l_stats l1 = l_stats l /\ c2 = c /\ l_stats l2 = l_stats l
      /\ option_map (map (option_map s_obs)) (m_meta (c_mgr c)) = Some [Some 0; Some 1; Some 2; Some 0; Some 10; Some 11; Some 10; Some 11]
      /\ option_map (map (option_map s_obs)) (m_meta (c_mgr c1)) = Some (map (fun x => Some (ex_fo x)) [0; 1; 2; 0; 10; 11; 10; 11])
      /\ map (fun x => snd x) (l_calls l2) = map (fun x => map (fun ab : nat * nat => (fst ab, Nat.even (snd ab))) (snd x)) (l_calls l)
  | _, _, _ => False end.
Proof. vm_compute. repeat split. Qed.
