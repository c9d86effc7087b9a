(** * Model of the return computations of [tianshou/policy/base.py].

    Floats are exact rationals ([Qc]).  The buffer is used through three operations, given by
    [ibuf]: the stored rows (for [rew], [done], [terminated]), [next], [unfinished_index];
    [buf_view]/[mgr_view] are the two instances. *)
From Verif Require Export Py Num BufferModel ManagerModel.
Open Scope nat_scope.

Definition b2q (b : bool) : Qc := if b then 1%Qc else 0%Qc.

(** base.py:760-806 [_gae_return]: [delta], [discount] are arrays, the loop runs from the last
    index down. *)
Fixpoint gae_loop (delta discount : list Qc) : list Qc :=
  match delta, discount with
  | d :: delta, c :: discount =>
      let rest := gae_loop delta discount in
      (d + c * hd 0 rest)%Qc :: rest
  | _, _ => []
  end.
Definition gae_return (v_s v_s_ rew : list Qc) (end_flag : list bool) (gamma lam : Qc) : list Qc :=
  gae_loop
    (map (fun x => let '(r, v', v) := x in (r + v' * gamma - v)%Qc) (combine (combine rew v_s_) v_s))
    (map (fun e => ((1 - b2q e) * (gamma * lam))%Qc) end_flag).

(** base.py:809-823 [episode_mc_return_to_go]: [ret2go[-1]] on an empty array raises (in the
    un-jitted code). *)
Fixpoint mc_loop (rewards : list Qc) (gamma : Qc) : list Qc :=
  match rewards with
  | [] => []
  | [r] => [r]
  | r :: rest => let l := mc_loop rest gamma in (r + gamma * hd 0 l)%Qc :: l
  end.
Definition episode_mc_return_to_go (rewards : list Qc) (gamma : Qc) : res (list Qc) :=
  match rewards with [] => Err IndexError | _ => Ok (mc_loop rewards gamma) end.

(** [np.roll(l, 1)]. *)
Definition roll1 {T} (l : list T) : list T :=
  match l with
  | [] => []
  | x :: t => last l x :: removelast l
  end.

(** [np.isclose(x, 1.0)] with the default tolerances. *)
Definition isclose1 (x : Qc) : bool :=
  Qcleb (x - 1) (Q2Qc (1001 # 100000000)) && Qcleb (1 - x) (Q2Qc (1001 # 100000000)).

Section Returns.
Context {Ob A Inf : Type}.
Notation slot := (slot Ob A Inf Qc).

Record ibuf : Type := mkI {
  ib_meta : option (list (option slot));
  ib_next : list Z -> res (list Z);
  ib_unfinished : res (list nat)
}.
Definition buf_view (b : buf Ob A Inf Qc) : ibuf := mkI (b_meta b) (next b) (unfinished_index b).
Definition mgr_view (m : mgr Ob A Inf Qc) : ibuf := mkI (m_meta m) (m_next m) (m_unfinished_index m).

(** [buffer.<key>[indices]]. *)
Definition column {T} (f : slot -> T) (zero : T) (b : ibuf) : res (list T) :=
  match ib_meta b with
  | None => Err AttributeError
  | Some l => Ok (map (fun s => match s with Some s => f s | None => zero end) l)
  end.

(** base.py:555-573 [value_mask]. *)
Definition value_mask (b : ibuf) (indices : list Z) : res (list bool) :=
  let* t := column s_term false b in
  let* l := mapM (zget t) indices in Ok (map negb l).

(** base.py:575-626 [compute_episodic_return]; [batch] is given by its [rew], [terminated],
    [truncated].  The shapes must agree (broadcasting of length-1 arrays is left out). *)
Definition compute_episodic_return (b : ibuf) (batch : list (Qc * bool * bool)) (indices : list Z)
    (v_s_ v_s : option (list Qc)) (gamma lam : Qc) : res (list Qc * list Qc) :=
  let rew := map (fun x => fst (fst x)) batch in
  let* v_s_ := match v_s_ with
               | None => guard (isclose1 lam) AssertionError (Ok (map (fun _ => 0%Qc) rew))
               | Some v =>
                   let* mask := value_mask b indices in
                   guard (length v =? length mask) ValueError
                   (Ok (map (fun x => (fst x * b2q (snd x))%Qc) (combine v mask)))
               end in
  let v_s := match v_s with None => roll1 v_s_ | Some v => v end in
  let* unf := ib_unfinished b in
  guard ((length v_s_ =? length rew) && (length v_s =? length rew)) ValueError
  (guard (length indices =? length rew) IndexError
   (let end_flag := map (fun x => let '((_, term, trunc), i) := x in
                                  term || trunc || existsb (fun u => (Z.of_nat u =? i)%Z) unf)
                      (combine batch indices) in
    let advantage := gae_return v_s v_s_ rew end_flag gamma lam in
    Ok (map (fun x => (fst x + snd x)%Qc) (combine advantage v_s), advantage))).

(** base.py:676-679: [_indices_to_stack] after [n] turns. *)
Fixpoint stack_indices (b : ibuf) (n : nat) (indices : list Z) : res (list (list Z)) :=
  match n with
  | O => Ok [indices]
  | S n => let* nx := ib_next b indices in
           let* l := stack_indices b n nx in Ok (indices :: l)
  end.

(** base.py:869-871: [gamma_buffer_N]. *)
Fixpoint gamma_buffer (acc gamma : Qc) (n : nat) : list Qc :=
  match n with
  | O => [acc]
  | S n => acc :: gamma_buffer (acc * gamma)%Qc gamma n
  end.

(** base.py:879-884: one turn of the loop, for row [n] of the stacked indices; the state is, per
    index, (gammas_IN, n_step_mc_returns_IA). *)
Definition nstep_turn (rew_B : list Qc) (end_B : list bool) (gamma : Qc)
    (st : list (nat * list Qc)) (x : nat * list Z) : res (list (nat * list Qc)) :=
  let '(n, now) := x in
  let* ends := mapM (zget end_B) now in
  let* rews := mapM (zget rew_B) now in
  Ok (map (fun y : nat * list Qc * (bool * Qc) => let '((g, mc), (e, r)) := y in
             (if e then n + 1 else g,
              map (fun v => (r + gamma * v)%Qc) (if e then map (fun _ => 0%Qc) mc else mc)))
          (combine st (combine ends rews))).

(** base.py:826-888 [_nstep_return]. *)
Definition nstep_return (rew_B : list Qc) (end_B : list bool) (target_q : list (list Qc))
    (stacked : list (list Z)) (gamma : Qc) (N : nat) : res (list (list Qc)) :=
  let* st := foldM (nstep_turn rew_B end_B gamma) (rev (combine (seq 0 N) stacked))
                   (map (fun q => (N, map (fun _ => 0%Qc) q)) target_q) in
  let gb := gamma_buffer 1%Qc gamma N in
  Ok (map (fun y : list Qc * (nat * list Qc) => let '(q, (g, mc)) := y in
             map (fun z => (fst z * nth g gb 0 + snd z)%Qc) (combine q mc))
          (combine target_q st)).

(** base.py:628-721 [compute_nstep_return]; returns [batch.returns]. *)
Definition compute_nstep_return (b : ibuf) (batch_len : nat) (indices : list Z)
    (target_q_fn : list Z -> list (list Qc)) (gamma : Qc) (N : nat) (rew_norm : bool)
  : res (list (list Qc)) :=
  guard (negb rew_norm) AssertionError
  (guard (length indices =? batch_len) ValueError
   (let* stacked := stack_indices b (N - 1) indices in
    let after := last stacked indices in
    let q := target_q_fn after in
    let* mask := value_mask b after in
    let q := map (fun x => map (fun v => (v * b2q (snd x))%Qc) (fst x)) (combine q mask) in
    let* done := column s_done false b in
    let* unf := ib_unfinished b in
    let end_B := fold_left (fun l i => upd l i true) unf done in
    let* rew_B := column s_rew 0%Qc b in
    nstep_return rew_B end_B q stacked gamma N)).

End Returns.
Arguments ibuf : clear implicits.
