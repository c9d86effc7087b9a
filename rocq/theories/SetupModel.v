(** * Model of what surrounds the collection loop ([tianshou/data/collector.py],
      [tianshou/highlevel/agent.py]): checks at construction, the batch of infos, actions, standard
      deviations of actions, the Monte Carlo hook *)
From Verif Require Export Py Num BatchModel.
From Verif Require Import BufferModel ManagerModel CachedModel PolicyModel ReturnsModel.
Open Scope nat_scope.
Open Scope list_scope.

(** ** The batch of infos *)

(** _HACKY_create_info_batch (collector.py:267-293).  An info is a parsed dict; it is falsy if it is
    empty.  [obj]: the array has dtype object.  Batch(info=array) stacks the infos
    (batch.py:653-655). *)
Definition falsy_at (infos : list bval) : list nat :=
  filter (fun i => match nth_error infos i with Some b => is_reserved b | None => false end) (seq 0 (length infos)).
Definition info_batch (obj : bool) (infos : list bval) : res bval :=
  if negb obj then Err ValueError
  else
    let falsy := falsy_at infos in
    if length falsy =? length infos then Ok (Node [])
    else match find (fun b => negb (is_reserved b)) infos with
         | None => Ok (Node [])
         | Some some =>
             let* r := bstack (fold_left (fun l i => upd l i some) falsy infos) in
             match bset r (IArr (map Z.of_nat falsy)) (Node []) with
             | (r, None) => Ok r
             | (_, Some e) => Err e
             end
         end.

(** ** Actions of one step *)

(** What the policy returns for a batch: actions, the entries "policy" (None: absent, [Some None]: not
    a Batch), "state" and "dist". *)
Record pout (P H D : Type) := mkPout { po_act : list (list Qc); po_policy : option (option P); po_state : option H; po_dist : option D }.
Arguments mkPout {P H D}.
Arguments po_act {P H D}.
Arguments po_policy {P H D}.
Arguments po_state {P H D}.
Arguments po_dist {P H D}.
(** The result: [c_policy] is the policy entry (None: an empty Batch) and the hidden state saved in
    it. *)
Record cact (P H D : Type) := mkCact { c_act : list (list Qc); c_norm : list (list Qc); c_policy : option P * option H; c_dist : option D; c_hidden : option H }.
Arguments mkCact {P H D}.
Arguments c_act {P H D}.
Arguments c_norm {P H D}.
Arguments c_policy {P H D}.
Arguments c_dist {P H D}.
Arguments c_hidden {P H D}.
(** The action space of the vector environment: one per environment, or a single one (envpool; it
    cannot be indexed). *)
Inductive spaces (S : Type) := Each (l : list S) | Single (s : S).
Arguments Each {S}.
Arguments Single {S}.
Section Act.
Context {Ob P H D S : Type}.
Variables (tanh atanh : Qc -> Qc) (eps : Qc) (is_box : bool) (m : bound_method) (scaling : bool) (low high : list Qc).
(** The policy as a function; [noise]: its exploration noise; [sample s j]: draw number [j], from [s]. *)
Variable policy : Ob -> bval -> option H -> res (pout P H D).
Variable noise : list (list Qc) -> Ob -> bval -> list (list Qc).
Variable sample : S -> nat -> list Qc.
Definition sample_all (sp : spaces S) (ids : list nat) : res (list (list Qc)) :=
  match sp with
  | Each l => mapM (fun ji => match nth_error l (snd ji) with Some s => Ok (sample s (fst ji)) | None => Err IndexError end) (combine (seq 0 (length ids)) ids)
  | Single s => Ok (map (fun j => sample s j) (seq 0 (length ids)))
  end.
(** _compute_action_policy_hidden (collector.py:677-740). *)
Definition compute_action (explore random : bool) (sp : spaces S) (ids : list nat) (obs : Ob) (obj : bool) (infos : list bval)
    (hidden : option H) : res (cact P H D) :=
  if random then
    let* norm := sample_all sp ids in
    let* act := map_action_inverse atanh eps is_box m scaling low high norm in
    Ok (mkCact act norm (None, None) None None)
  else
    let* info := info_batch obj infos in
    let* r := policy obs info hidden in
    let act := if explore then noise (po_act r) obs info else po_act r in
    let* norm := map_action tanh is_box m scaling low high act in
    let* entry := match po_policy r with None => Ok None | Some (Some p) => Ok (Some p) | Some None => Err RuntimeError end in
    Ok (mkCact act norm (entry, po_state r) (po_dist r) (po_state r)).
End Act.

(** ** Standard deviations of actions *)

(** A Categorical over one state or over a batch of states (its normalised probabilities), or no
    distribution.  Other distributions and batches of more dimensions are left out. *)
Inductive cat_dist := Unbatched (p : list Qc) | Batched (ps : list (list Qc)) | NoDist.
Definition actions_of (p : list Qc) : list Qc := map (fun k => Q2Qc (inject_Z (Z.of_nat k))) (seq 0 (length p)).
Definition cat_mean (p : list Qc) : Qc := qsum (map (fun pa => (fst pa * snd pa)%Qc) (combine p (actions_of p))).
Definition cat_var (p : list Qc) : Qc :=
  let mean := cat_mean p in
  qsum (map (fun pa => (fst pa * ((snd pa - mean) * (snd pa - mean)))%Qc) (combine p (actions_of p))).
(** get_stddev_from_dist (collector.py:78-99): the shape of the result and its entries, squared (the
    square root is left out). *)
Definition stddev_from_dist (d : cat_dist) : list nat * list Qc :=
  match d with
  | Unbatched p => ([1], [cat_var p])
  | Batched ps => ([length ps; 1], map cat_var ps)
  | NoDist => ([0], [])
  end.

(** ** The Monte Carlo hook *)

(** EpisodeRolloutHookMCReturn.__init__, __call__ (collector.py:1457-1472): the entries
    mc_return_to_go and full_episode_mc_return. *)
Definition mc_hook_new (gamma : Qc) : res Qc := if Qcleb 0 gamma && Qcleb gamma 1 then Ok gamma else Err ValueError.
Definition mc_hook_call (gamma : Qc) (rew : list Qc) : res (list Qc * list Qc) :=
  let* l := episode_mc_return_to_go rew gamma in
  match l with [] => Err IndexError | x :: _ => Ok (l, repeat x (length l)) end.

(** ** Construction *)

(** A fresh buffer: plain, a manager (sizes of its sub-buffers), cached. *)
Inductive cbuf := Plain (n : nat) | Managed (ns : list nat) | CachedB (n0 num c : nat).
(** _validate_buffer (collector.py:341-361). *)
Definition validate_buffer (env_num : nat) (b : cbuf) : res unit :=
  let buffer_num := match b with Managed ns => length ns | CachedB _ num _ => Datatypes.S num | Plain _ => 0 end in
  let manager := match b with Plain _ => false | _ => true end in
  if manager && (buffer_num <? env_num) then Err ValueError
  else if match b with CachedB _ num _ => num <? env_num | _ => false end then Err ValueError
  else match b with
       | Plain n => if n =? 0 then Err ValueError else if 1 <? env_num then Err ValueError else Ok tt
       | _ => Ok tt
       end.
(** BaseCollector.__init__ (310-339): the buffer of the collector.  A single environment counts as
    one; [dflt] is DEFAULT_BUFFER_MAXSIZE (10000). *)
Definition base_init (dflt env_num : nat) (b : option cbuf) : res cbuf :=
  let* b := match b with
            | Some b => Ok b
            | None => let* ns := vec_sizes (dflt * env_num) env_num in Ok (Managed ns)
            end in
  let* _ := validate_buffer env_num b in
  Ok b.
(** Settings of a buffer (SamplingConfig.replay_buffer_..., ReplayBuffer.__init__). *)
Record bset_ := mkBset { bs_stack : nat; bs_last : bool; bs_ignore_next : bool }.
Record coll := mkColl { co_buffer : cbuf; co_opts : bset_; co_noise : bool; co_reset : bool }.
(** AgentFactory.create_train_test_collector (agent.py:94-134); [co_reset]: reset before it is
    returned. *)
Definition create_collectors (dflt buffer_size n_train n_test : nat) (cfg : bset_) (reset : bool) : res (coll * coll) :=
  let* b := if 1 <? n_train then let* ns := vec_sizes buffer_size n_train in Ok (Managed ns) else Ok (Plain buffer_size) in
  let* b := base_init dflt n_train (Some b) in
  let* t := base_init dflt n_test None in
  Ok (mkColl b cfg true reset, mkColl t (mkBset 1 false false) false reset).

(** Adding to a fresh buffer what the environments [ids] return, step after step
    (collector.py:896-899). *)
Section Adds.
Context {Ob A Inf R : Type}.
Variables (r0 : R) (radd : R -> R -> R) (last_frame : Ob -> Ob) (o : opts).
Notation step := (list Z * list (trans Ob A Inf R))%type.
Definition run_adds (b : cbuf) (l : list step) : res unit :=
  match b with
  | Plain n => let* _ := foldM (fun b (x : step) => let* y := add_stacked r0 radd last_frame o b (fst x) (snd x) in Ok (fst y)) l (buf_init r0 n) in Ok tt
  | Managed ns => let* _ := foldM (fun m (x : step) => let* y := m_add r0 radd last_frame o m (Some (fst x)) (snd x) in Ok (fst y)) l (m_init r0 ns) in Ok tt
  | CachedB n0 num c =>
      let* m := c_init r0 n0 num c in
      let* _ := foldM (fun m (x : step) => let* y := c_add r0 radd last_frame o m (Some (fst x)) (snd x) in Ok (fst y)) l m in Ok tt
  end.
End Adds.
