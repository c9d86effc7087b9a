(** * Model of parts of [policy/modelfree/dqn.py], [c51.py] and [policy/random.py]

    Tensors of network outputs are lists of rows of exact rationals. *)
From Verif Require Export Py Num ReturnsModel.
Open Scope nat_scope.

(** [argmax] along a row: the first maximal entry (0 for an empty row). *)
Fixpoint argmax_from (best : Qc) (bi i : nat) (l : list Qc) : nat :=
  match l with
  | [] => bi
  | x :: l => if Qcltb best x then argmax_from x i (S i) l else argmax_from best bi (S i) l
  end.
Definition argmax (l : list Qc) : nat :=
  match l with [] => 0 | x :: l => argmax_from x 0 1 l end.

(** [logits.min()], [logits.max()]; of an empty tensor: RuntimeError. *)
Definition tmin (l : list Qc) : res Qc :=
  match l with [] => Err RuntimeError | x :: l => Ok (fold_left Qcminb l x) end.
Definition tmax (l : list Qc) : res Qc :=
  match l with [] => Err RuntimeError | x :: l => Ok (fold_left Qcmaxb l x) end.

(** dqn.py:158-164 [compute_q_value]; the mask has the shape of the logits (True: available). *)
Definition compute_q_value (logits : list (list Qc)) (mask : option (list (list bool)))
  : res (list (list Qc)) :=
  match mask with
  | None => Ok logits
  | Some mask =>
      let* mn := tmin (concat logits) in
      let* mx := tmax (concat logits) in
      let min_value := (mn - mx - 1)%Qc in
      Ok (map (fun rm => map (fun xm => (fst xm + (1 - b2q (snd xm)) * min_value)%Qc)
                             (combine (fst rm) (snd rm))) (combine logits mask))
  end.

(** dqn.py:203-209, the actions of [forward]. *)
Definition greedy (logits : list (list Qc)) (mask : option (list (list bool))) : res (list nat) :=
  let* q := compute_q_value logits mask in Ok (map argmax q).

(** dqn.py:238-254 [exploration_noise] for an action array.  [near0]: [np.isclose(eps, 0)];
    [u], [q]: the two results of [np.random.rand]. *)
Definition exploration_noise (near0 : bool) (eps : Qc) (max_action_num : option nat)
    (u : list Qc) (q : list (list Qc)) (mask : option (list (list bool))) (act : list nat) : res (list nat) :=
  if near0 then Ok act
  else match max_action_num with
       | None => Err AssertionError
       | Some _ =>
           let q := match mask with
                    | None => q
                    | Some mask => map (fun rm => map (fun xm => (fst xm + b2q (snd xm))%Qc)
                                                      (combine (fst rm) (snd rm))) (combine q mask)
                    end in
           Ok (map (fun x => let '(a, (u, row)) := x in if Qcltb u eps then argmax row else a)
                   (combine act (combine u q)))
       end.

(** random.py:26-48, [forward] of the random multi-agent policy: random values
    with the masked entries set to -inf ([None]). *)
Definition neg_inf_lt (x y : option Qc) : bool :=
  match x, y with
  | None, Some _ => true
  | Some x, Some y => Qcltb x y
  | _, None => false
  end.
Fixpoint argmaxo_from (best : option Qc) (bi i : nat) (l : list (option Qc)) : nat :=
  match l with
  | [] => bi
  | x :: l => if neg_inf_lt best x then argmaxo_from x i (S i) l else argmaxo_from best bi (S i) l
  end.
Definition argmaxo (l : list (option Qc)) : nat :=
  match l with [] => 0 | x :: l => argmaxo_from x 0 1 l end.
Definition random_forward (logits : list (list Qc)) (mask : list (list bool)) : list nat :=
  map (fun rm => argmaxo (map (fun xm : Qc * bool => if snd xm then Some (fst xm) else None)
                              (combine (fst rm) (snd rm)))) (combine logits mask).

(** dqn.py:121-135 [_target_q]: [q_new], [q_old] are the logits of the two networks at the next
    observations, [mask] the mask stored there. *)
Definition target_q (use_target is_double : bool) (q_new q_old : list (list Qc))
    (mask : option (list (list bool))) : res (list Qc) :=
  let* act := greedy q_new mask in
  let tq := if use_target then q_old else q_new in
  if is_double then mapM (fun x => match nth_error (fst x) (snd x) with Some v => Ok v | None => Err IndexError end)
                         (combine tq act)
  else mapM tmax tq.

(** dqn.py:85-94, 117-119, 212-234: the target network.  [W]: weights; [opt]: what one gradient
    step does with the online weights given the target weights and the batch. *)
Section Target.
Context {W Ba : Type}.
Variable opt : W -> option W -> Ba -> W.
Record dqn : Type := mkD { d_model : W; d_old : option W; d_freq : nat; d_iter : nat }.
Definition dqn_init (w : W) (freq : nat) : dqn :=
  mkD w (if 0 <? freq then Some w else None) freq 0.
Definition dqn_learn (d : dqn) (b : Ba) : dqn :=
  let old := if (0 <? d_freq d) && (d_iter d mod d_freq d =? 0) then Some (d_model d) else d_old d in
  mkD (opt (d_model d) old b) old (d_freq d) (d_iter d + 1).
Definition dqn_run (d : dqn) (l : list Ba) : dqn := fold_left dqn_learn l d.
End Target.
Arguments dqn : clear implicits.

(** ** C51 (c51.py:60-118) *)
Definition qn (n : nat) : Qc := Q2Qc (inject_Z (Z.of_nat n)).
Definition delta_z (v_min v_max : Qc) (num_atoms : nat) : Qc := ((v_max - v_min) / qn (num_atoms - 1))%Qc.
(** [torch.linspace]. *)
Definition support (v_min v_max : Qc) (num_atoms : nat) : list Qc :=
  map (fun i => (v_min + qn i * delta_z v_min v_max num_atoms)%Qc) (seq 0 num_atoms).
Definition clampq (lo hi x : Qc) : Qc := Qcminb hi (Qcmaxb lo x).
Definition qabs (x : Qc) : Qc := if Qcleb 0 x then x else (- x)%Qc.

(** One row of [_target_dist]: [returns] has one entry per atom. *)
Definition target_dist (v_min v_max : Qc) (num_atoms : nat) (returns next_dist : list Qc) : list Qc :=
  let target_support := map (clampq v_min v_max) returns in
  map (fun z => qsum (map (fun tp => (clampq 0 1 (1 - qabs (fst tp - z) / delta_z v_min v_max num_atoms) * snd tp)%Qc)
                          (combine target_support next_dist)))
      (support v_min v_max num_atoms).

(** c51.py:88-117 as a whole, for a buffer with stored next observations: the returns come from
    [compute_nstep_return] with the support as target, the distribution from the networks at
    [batch.obs_next], [batch] being the rows at [indices]. *)
Section C51.
Context {Ob A Inf : Type}.
Variable dist : Ob -> list Qc. (* the chosen row of the network's output *)
Definition c51_target (b : ibuf Ob A Inf) (indices : list Z)
    (v_min v_max : Qc) (num_atoms : nat) (gamma : Qc) (n_step : nat) : res (list (list Qc)) :=
  let* returns := compute_nstep_return b (length indices) indices
                    (fun ix => map (fun _ => support v_min v_max num_atoms) ix) gamma n_step false in
  let* col := column s_obs_next None b in
  let* obs_next := mapM (zget col) indices in
  let* next_dist := mapM (fun o => match o with Some o => Ok (dist o) | None => Err AttributeError end) obs_next in
  Ok (map (fun x => target_dist v_min v_max num_atoms (fst x) (snd x)) (combine returns next_dist)).
End C51.
