(** * Model of the forward passes of the distributional learners and of discrete BCQ:
      [ImplicitQuantileNetwork], [FullQuantileFunction] of utils/net/discrete.py,
      policy/modelfree/{iqn, fqf}.py, policy/imitation/discrete_bcq.py

    Networks are arbitrary functions, floats are exact rationals; a tensor is a list of rows. *)
From Verif Require Export Py Num DqnModel StatModel QuantModel.
Open Scope nat_scope.

(** ** Networks *)
(** [view(b, n, -1)] of a tensor with b * n rows. *)
Fixpoint chunks (b n : nat) (l : list (list Qc)) : list (list (list Qc)) :=
  match b with 0 => [] | S b => firstn n l :: chunks b n (skipn n l) end.
(** [transpose(0, 1)] of a matrix with [a] columns. *)
Definition transpose (a : nat) (m : list (list Qc)) : list (list Qc) := map (fun i => map (fun r => nth i r 0%Qc) m) (seq 0 a).
Section Net.
Context {F : Type}.
(** [last (features * embed_model(tau))]: one value per action; [a] actions. *)
Variables (last : F -> Qc -> list Qc) (a : nat).
(** discrete.py:292-295 [_compute_quantiles], also discrete.py:207-214; the [sample_size] fractions of an observation are a row of [taus]. *)
Definition compute_quantiles (sample_size : nat) (feats : list F) (taus : list (list Qc)) : list (list (list Qc)) :=
  let embedding := concat (map (fun x : F * list Qc => map (fun t => (fst x, t)) (snd x)) (combine feats taus)) in
  let out := map (fun e : F * Qc => last (fst e) (snd e)) embedding in
  map (transpose a) (chunks (length feats) sample_size out).
End Net.

Section Policy.
Context {Ob F : Type}.
(** The two networks of a policy: [preprocess], and [last] as above. *)
Variables (pre : netname -> Ob -> F) (last : netname -> F -> Qc -> list Qc) (a : nat).

(** ** IQN *)
(** [torch.rand(batch_size, sample_size)]. *)
Definition draw (rnd : nat -> nat -> Qc) (b n : nat) : list (list Qc) := map (fun i => map (rnd i) (seq 0 n)) (seq 0 b).
(** discrete.py:199-215 [ImplicitQuantileNetwork.forward]. *)
Definition iqn_net (m : netname) (rnd : nat -> nat -> Qc) (sample_size : nat) (obs : list Ob) : list (list (list Qc)) * list (list Qc) :=
  let taus := draw rnd (length obs) sample_size in
  (compute_quantiles (last m) a sample_size (map (pre m) obs) taus, taus).
(** iqn.py:102-131 [forward]: (logits, taus, act); the number of fractions is [iqn_samples]. *)
Definition iqn_forward (ss online target : nat) (training : bool) (rnd : nat -> nat -> Qc) (m : netname) (obs : list Ob) (mask : option (list (list bool)))
  : res (list (list (list Qc)) * list (list Qc) * list nat) :=
  let '(logits, taus) := iqn_net m rnd (iqn_samples ss online target training m) obs in
  let* act := greedy (map (map np_mean) logits) mask in
  Ok (logits, taus, act).
(** [next_dist[np.arange(len(act)), act, :]]. *)
Definition select (dist : list (list (list Qc))) (act : list nat) : res (list (list Qc)) :=
  mapM (fun x : list (list Qc) * nat => match nth_error (fst x) (snd x) with Some z => Ok z | None => Err IndexError end) (combine dist act).
(** qrdqn.py:90-102 [_target_q] as inherited by IQN; every forward pass draws fractions of its own. *)
Definition iqn_target (use_target : bool) (ss online target : nat) (training : bool) (rnd rnd' : nat -> nat -> Qc) (obs : list Ob) (mask : option (list (list bool))) : res (list (list Qc)) :=
  let* r := iqn_forward ss online target training rnd Online obs mask in
  let '(logits, _, act) := r in
  if use_target
  then let* r' := iqn_forward ss online target training rnd' Old obs mask in let '(logits', _, _) := r' in select logits' act
  else select logits act.

(** ** FQF *)
(** [FractionProposalNetwork] (discrete.py:238-251): the probabilities for the features of an observation. *)
Variable probs : F -> list Qc.
(** Rows of fractions and of their midpoints. *)
Definition fractions : Type := list (list Qc) * list (list Qc).
Definition propose (feats : list F) : fractions := (map (fun f => taus_of (probs f)) feats, map (fun f => tau_hats_of (probs f)) feats).
(** discrete.py:297-318 [FullQuantileFunction.forward] with [n] fractions: (quantiles, fractions, quantiles_tau). *)
Definition fqf_net (n : nat) (m : netname) (net_training : bool) (obs : list Ob) (given : option fractions)
  : list (list (list Qc)) * fractions * option (list (list (list Qc))) :=
  let feats := map (pre m) obs in
  let fr := match given with None => propose feats | Some fr => fr end in
  (compute_quantiles (last m) a n feats (snd fr), fr,
   if net_training then Some (compute_quantiles (last m) a (n - 1) feats (map (fun t => removelast (tl t)) (fst fr))) else None).
(** fqf.py:113-153 [forward]. *)
Definition fqf_forward (n : nat) (m : netname) (net_training : bool) (obs : list Ob) (mask : option (list (list bool))) (given : option fractions)
  : res (list (list (list Qc)) * fractions * option (list (list (list Qc))) * list nat) :=
  let '(logits, fr, qt) := fqf_net n m net_training obs given in
  let* act := greedy (map (fun x : list Qc * list (list Qc) => map (fqf_q (fst x)) (snd x)) (combine (fst fr) logits)) mask in
  Ok (logits, fr, qt, act).
(** fqf.py:97-110 [_target_q]. *)
Definition fqf_target (use_target : bool) (n : nat) (net_training old_training : bool) (obs : list Ob) (mask : option (list (list bool))) : res (list (list Qc)) :=
  let* r := fqf_forward n Online net_training obs mask None in
  let '(logits, fr, _, act) := r in
  if use_target
  then let* r' := fqf_forward n Old old_training obs mask (Some fr) in let '(logits', _, _, _) := r' in select logits' act
  else select logits act.
(** fqf.py:158-203: the gradients of the fractions computed in [learn]; [acts] are the actions of the batch.  Indexing [None] is a TypeError. *)
Definition fqf_gradients (n : nat) (net_training : bool) (obs : list Ob) (acts : list nat) : res (list (list Qc)) :=
  let* r := fqf_forward n Online net_training obs None None in
  let '(logits, fr, qt, _) := r in
  let* hats := select logits acts in
  match qt with
  | None => Err TypeError
  | Some qt => let* qs := select qt acts in Ok (map (fun x : list Qc * list Qc => fraction_gradient (fst x) (snd x)) (combine hats qs))
  end.
End Policy.

(** ** Discrete BCQ *)
Section Dbcq.
Context {Ob H : Type}.
(** Networks with a hidden state. *)
Variables (q_net imitator : Ob -> option H -> list Qc * H).
(** discrete_bcq.py:128-142, one observation: [state] is overwritten by the state of the Q-network before the imitator is called. *)
Definition dbcq_outputs (o : Ob) (state : option H) : list Qc * list Qc * H :=
  let '(q, state) := q_net o state in
  let '(logits, _) := imitator o (Some state) in
  (q, logits, state).
End Dbcq.
(** discrete_bcq.py:158-170: the losses; a row is (q values, logits, action, target), [lsm] is [log_softmax]. *)
Record dbcq_row := mkD { d_q : list Qc; d_logits : list Qc; d_act : nat; d_target : Qc }.
Definition dbcq_q_loss (rows : list dbcq_row) : Qc := np_mean (map (fun r => huber (nth (d_act r) (d_q r) 0 - d_target r)%Qc) rows).
Definition dbcq_i_loss (lsm : list Qc -> list Qc) (rows : list dbcq_row) : Qc := np_mean (map (fun r => (- nth (d_act r) (lsm (d_logits r)) 0)%Qc) rows).
Definition dbcq_reg (rows : list dbcq_row) : Qc := np_mean (map (fun x => (x * x)%Qc) (concat (map d_logits rows))).
Definition dbcq_loss (lsm : list Qc -> list Qc) (penalty : Qc) (rows : list dbcq_row) : Qc := (dbcq_q_loss rows + dbcq_i_loss lsm rows + penalty * dbcq_reg rows)%Qc.

(** ** Branching DQN *)
(** bdq.py:149-163 [forward]: the greedy action of every branch; a mask in the observation is not looked at. *)
Definition bdq_greedy (q : list (list (list Qc))) (mask : option (list (list bool))) : list (list nat) := map (map argmax) q.

(** ** Recurrent critic *)
Section RecCritic.
Context {X H : Type}.
(** One time step of the LSTM for one row, its first state and [fc2]. *)
Variables (cell : X -> H -> list Qc * H) (zero : H) (fc2 : list Qc -> Qc).
(** continuous.py:379-407 [RecurrentCritic.forward]; the observations are [bsz, dim] ([inl]) or [bsz, len, dim].  No state goes in, none comes out. *)
Fixpoint rc_run (xs : list X) (s : H) : list (list Qc) := match xs with [] => [] | x :: xs => let '(o, s) := cell x s in o :: rc_run xs s end.
Definition rec_critic (obs : list X + list (list X)) (act : option (list (list Qc))) : res (list Qc) :=
  match obs with
  | inl _ => Err AssertionError
  | inr rows =>
      guard (forallb (fun r => negb (length r =? 0)) rows) RuntimeError
        (let outs := map (fun r => last (rc_run r zero) []) rows in
         match act with
         | None => Ok (map fc2 outs)
         | Some act => guard (length act =? length rows) RuntimeError (Ok (map (fun x : list Qc * list Qc => fc2 (fst x ++ snd x)) (combine outs act)))
         end)
  end.
End RecCritic.
