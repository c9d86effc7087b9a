(** * Properties C301-C306: laws of returns *)
From Verif Require Import Py PyLemmas Num BufferModel BufferSpec BufferMainProofs ManagerModel ManagerSpec.
From Verif Require Import ReturnsModel ReturnsSpec ReturnsMainProofs LawsSpec LawsProofs.
Open Scope nat_scope.

(** C301.  The targets of [compute_episodic_return] are the lambda-weighted averages of the n-step
    returns that [compute_nstep_return] computes from the same values. *)
Theorem C301_mixture_buffer : forall (Ob A Inf : Type) (r0 : Qc) radd (last_frame : Ob -> Ob) o n
    (b : buf Ob A Inf Qc) q rnd idx ps (vi : Z -> Qc) v_s gamma lam,
  0 < n -> reach r0 radd last_frame o n b q -> q <> [] ->
  sample_indices plain b rnd (Some 0%Z) = Ok idx ->
  (forall p, In p ps -> p < length q) -> ps <> [] -> whole_episodes (fun _ => q) (map (pair 0) ps) ->
  let at_ p := Z.of_nat (nth p idx 0) in
  (v_s = None \/ exists w, v_s = Some (map w ps) /\ forall p, last_of q p <> p -> w (S p) = next_value q (fun j => vi (at_ j)) p) ->
  exists G adv,
    (forall N, 0 < N -> compute_nstep_return (buf_view b) (length ps) (map at_ ps) (map (fun i => [vi i])) gamma N false
       = Ok (map (fun p => [G N p]) ps))
    /\ compute_episodic_return (buf_view b) (rows_of q ps) (map at_ ps) (Some (map (fun p => vi (at_ p)) ps)) v_s gamma lam
       = Ok (map (fun p => mixture lam (steps_from q p) (fun N => G N p)) ps, adv).
Proof. exact C301_mixture_buffer_lemma. Qed.
Print Assumptions C301_mixture_buffer.

(** C301.  The same for a buffer manager. *)
Theorem C301_mixture_manager : forall (Ob A Inf : Type) (r0 : Qc) radd (last_frame : Ob -> Ob) o ns
    (ops : list (mop Ob A Inf Qc)) m outs xs (vi : Z -> Qc) v_s gamma lam,
  (forall n, In n ns -> 0 < n) ->
  m_run r0 radd last_frame o (m_init r0 ns) ops = Ok (m, outs) -> (exists ids ts, In (MAdd ids ts) ops) ->
  let q k := mqueue last_frame o ns ops k in
  let at_ x := Z.of_nat (maddress ns ops x) in
  (forall x, In x xs -> snd x < length (q (fst x))) -> xs <> [] -> whole_episodes q xs ->
  (v_s = None \/ exists w, v_s = Some (map w xs) /\ forall k p, last_of (q k) p <> p ->
     w (k, S p) = next_value (q k) (fun j => vi (at_ (k, j))) p) ->
  exists G adv,
    (forall N, 0 < N -> compute_nstep_return (mgr_view m) (length xs) (map at_ xs) (map (fun i => [vi i])) gamma N false
       = Ok (map (fun x => [G N x]) xs))
    /\ compute_episodic_return (mgr_view m) (mrows_of q xs) (map at_ xs) (Some (map (fun x => vi (at_ x)) xs)) v_s gamma lam
       = Ok (map (fun x => mixture lam (steps_from (q (fst x)) (snd x)) (fun N => G N x)) xs, adv).
Proof. exact C301_mixture_manager_lemma. Qed.
Print Assumptions C301_mixture_manager.

(** C301.  With lambda = 0 the targets are the 1-step returns, with lambda = 1 the N-step returns for
    any N that no episode exceeds. *)
Theorem C301_extremes_buffer : forall (Ob A Inf : Type) (r0 : Qc) radd (last_frame : Ob -> Ob) o n
    (b : buf Ob A Inf Qc) q rnd idx ps (vi : Z -> Qc) v_s gamma,
  0 < n -> reach r0 radd last_frame o n b q -> q <> [] ->
  sample_indices plain b rnd (Some 0%Z) = Ok idx ->
  (forall p, In p ps -> p < length q) -> ps <> [] -> whole_episodes (fun _ => q) (map (pair 0) ps) ->
  let at_ p := Z.of_nat (nth p idx 0) in
  (v_s = None \/ exists w, v_s = Some (map w ps) /\ forall p, last_of q p <> p -> w (S p) = next_value q (fun j => vi (at_ j)) p) ->
  exists short long adv0 adv1,
    compute_episodic_return (buf_view b) (rows_of q ps) (map at_ ps) (Some (map (fun p => vi (at_ p)) ps)) v_s gamma 0 = Ok (short, adv0)
    /\ compute_nstep_return (buf_view b) (length ps) (map at_ ps) (map (fun i => [vi i])) gamma 1 false = Ok (map (fun x => [x]) short)
    /\ compute_episodic_return (buf_view b) (rows_of q ps) (map at_ ps) (Some (map (fun p => vi (at_ p)) ps)) v_s gamma 1 = Ok (long, adv1)
    /\ (forall N, length q <= N ->
          compute_nstep_return (buf_view b) (length ps) (map at_ ps) (map (fun i => [vi i])) gamma N false = Ok (map (fun x => [x]) long)).
Proof. exact C301_extremes_buffer_lemma. Qed.
Print Assumptions C301_extremes_buffer.

(** C302.  Returns contract: if two value functions are at most [e] apart, n-step returns are at most
    gamma^m e apart, with m the number of steps used, and equal after a terminal step; the targets of
    [compute_episodic_return] are at most gamma e apart. *)
Theorem C302_contraction_buffer : forall (Ob A Inf : Type) (r0 : Qc) radd (last_frame : Ob -> Ob) o n
    (b : buf Ob A Inf Qc) q rnd idx ps (vi vi' : Z -> Qc) v_s v_s' gamma lam e N,
  0 < n -> reach r0 radd last_frame o n b q -> q <> [] ->
  sample_indices plain b rnd (Some 0%Z) = Ok idx ->
  (forall p, In p ps -> p < length q) -> ps <> [] -> whole_episodes (fun _ => q) (map (pair 0) ps) ->
  let at_ p := Z.of_nat (nth p idx 0) in
  (v_s = None \/ exists w, v_s = Some (map w ps) /\ forall p, last_of q p <> p -> w (S p) = next_value q (fun j => vi (at_ j)) p) ->
  (v_s' = None \/ exists w, v_s' = Some (map w ps) /\ forall p, last_of q p <> p -> w (S p) = next_value q (fun j => vi' (at_ j)) p) ->
  (0 <= gamma <= 1)%Qc -> (0 <= lam <= 1)%Qc -> (0 <= e)%Qc -> 0 < N ->
  (forall i, within e (vi i) (vi' i)) ->
  (exists G G',
     compute_nstep_return (buf_view b) (length ps) (map at_ ps) (map (fun i => [vi i])) gamma N false = Ok (map (fun p => [G p]) ps)
     /\ compute_nstep_return (buf_view b) (length ps) (map at_ ps) (map (fun i => [vi' i])) gamma N false = Ok (map (fun p => [G' p]) ps)
     /\ forall p, In p ps -> within (gamma ^ Nat.min N (steps_from q p) * e)%Qc (G p) (G' p)
          /\ (term_at q (nstep_reached q N p) = true -> G p = G' p))
  /\ exists ret ret' adv adv',
     compute_episodic_return (buf_view b) (rows_of q ps) (map at_ ps) (Some (map (fun p => vi (at_ p)) ps)) v_s gamma lam = Ok (ret, adv)
     /\ compute_episodic_return (buf_view b) (rows_of q ps) (map at_ ps) (Some (map (fun p => vi' (at_ p)) ps)) v_s' gamma lam = Ok (ret', adv')
     /\ Forall2 (within (gamma * e)%Qc) ret ret'.
Proof. exact C302_contraction_buffer_lemma. Qed.
Print Assumptions C302_contraction_buffer.

(** C302.  The same for a buffer manager. *)
Theorem C302_contraction_manager : forall (Ob A Inf : Type) (r0 : Qc) radd (last_frame : Ob -> Ob) o ns
    (ops : list (mop Ob A Inf Qc)) m outs xs (vi vi' : Z -> Qc) v_s v_s' gamma lam e N,
  (forall n, In n ns -> 0 < n) ->
  m_run r0 radd last_frame o (m_init r0 ns) ops = Ok (m, outs) -> (exists ids ts, In (MAdd ids ts) ops) ->
  let q k := mqueue last_frame o ns ops k in
  let at_ x := Z.of_nat (maddress ns ops x) in
  (forall x, In x xs -> snd x < length (q (fst x))) -> xs <> [] -> whole_episodes q xs ->
  (v_s = None \/ exists w, v_s = Some (map w xs) /\ forall k p, last_of (q k) p <> p ->
     w (k, S p) = next_value (q k) (fun j => vi (at_ (k, j))) p) ->
  (v_s' = None \/ exists w, v_s' = Some (map w xs) /\ forall k p, last_of (q k) p <> p ->
     w (k, S p) = next_value (q k) (fun j => vi' (at_ (k, j))) p) ->
  (0 <= gamma <= 1)%Qc -> (0 <= lam <= 1)%Qc -> (0 <= e)%Qc -> 0 < N ->
  (forall i, within e (vi i) (vi' i)) ->
  (exists G G',
     compute_nstep_return (mgr_view m) (length xs) (map at_ xs) (map (fun i => [vi i])) gamma N false = Ok (map (fun x => [G x]) xs)
     /\ compute_nstep_return (mgr_view m) (length xs) (map at_ xs) (map (fun i => [vi' i])) gamma N false = Ok (map (fun x => [G' x]) xs)
     /\ forall x, In x xs -> within (gamma ^ Nat.min N (steps_from (q (fst x)) (snd x)) * e)%Qc (G x) (G' x)
          /\ (term_at (q (fst x)) (nstep_reached (q (fst x)) N (snd x)) = true -> G x = G' x))
  /\ exists ret ret' adv adv',
     compute_episodic_return (mgr_view m) (mrows_of q xs) (map at_ xs) (Some (map (fun x => vi (at_ x)) xs)) v_s gamma lam = Ok (ret, adv)
     /\ compute_episodic_return (mgr_view m) (mrows_of q xs) (map at_ xs) (Some (map (fun x => vi' (at_ x)) xs)) v_s' gamma lam = Ok (ret', adv')
     /\ Forall2 (within (gamma * e)%Qc) ret ret'.
Proof. exact C302_contraction_manager_lemma. Qed.
Print Assumptions C302_contraction_manager.

(** C303.  Values that satisfy the Bellman equation along the stored steps are reproduced: all targets
    and all n-step returns are the values, and all advantages are 0. *)
Theorem C303_consistent_buffer : forall (Ob A Inf : Type) (r0 : Qc) radd (last_frame : Ob -> Ob) o n
    (b : buf Ob A Inf Qc) q rnd idx ps (vi : Z -> Qc) (u : nat -> Qc) gamma lam,
  0 < n -> reach r0 radd last_frame o n b q -> q <> [] ->
  sample_indices plain b rnd (Some 0%Z) = Ok idx ->
  (forall p, In p ps -> p < length q) -> ps <> [] -> whole_episodes (fun _ => q) (map (pair 0) ps) ->
  let at_ p := Z.of_nat (nth p idx 0) in
  (forall p, p < length q -> u p = (rew_at q p + gamma * next_value q (fun j => vi (at_ j)) p)%Qc) ->
  (forall p, last_of q p <> p -> u (S p) = next_value q (fun j => vi (at_ j)) p) ->
  compute_episodic_return (buf_view b) (rows_of q ps) (map at_ ps) (Some (map (fun p => vi (at_ p)) ps)) (Some (map u ps)) gamma lam
  = Ok (map u ps, map (fun _ => 0%Qc) ps)
  /\ (forall N, 0 < N -> compute_nstep_return (buf_view b) (length ps) (map at_ ps) (map (fun i => [vi i])) gamma N false
       = Ok (map (fun p => [u p]) ps)).
Proof. exact C303_consistent_buffer_lemma. Qed.
Print Assumptions C303_consistent_buffer.

(** C303.  The same for a buffer manager. *)
Theorem C303_consistent_manager : forall (Ob A Inf : Type) (r0 : Qc) radd (last_frame : Ob -> Ob) o ns
    (ops : list (mop Ob A Inf Qc)) m outs xs (vi : Z -> Qc) (u : nat * nat -> Qc) gamma lam,
  (forall n, In n ns -> 0 < n) ->
  m_run r0 radd last_frame o (m_init r0 ns) ops = Ok (m, outs) -> (exists ids ts, In (MAdd ids ts) ops) ->
  let q k := mqueue last_frame o ns ops k in
  let at_ x := Z.of_nat (maddress ns ops x) in
  (forall x, In x xs -> snd x < length (q (fst x))) -> xs <> [] -> whole_episodes q xs ->
  (forall k p, p < length (q k) -> u (k, p) = (rew_at (q k) p + gamma * next_value (q k) (fun j => vi (at_ (k, j))) p)%Qc) ->
  (forall k p, last_of (q k) p <> p -> u (k, S p) = next_value (q k) (fun j => vi (at_ (k, j))) p) ->
  compute_episodic_return (mgr_view m) (mrows_of q xs) (map at_ xs) (Some (map (fun x => vi (at_ x)) xs)) (Some (map u xs)) gamma lam
  = Ok (map u xs, map (fun _ => 0%Qc) xs)
  /\ (forall N, 0 < N -> compute_nstep_return (mgr_view m) (length xs) (map at_ xs) (map (fun i => [vi i])) gamma N false
       = Ok (map (fun x => [u x]) xs)).
Proof. exact C303_consistent_manager_lemma. Qed.
Print Assumptions C303_consistent_manager.

(** C304.  Returns stay in the range of the values: with rewards between (1 - gamma) lo and
    (1 - gamma) hi and values between lo and hi (lo <= 0 <= hi) so are all targets and all n-step returns. *)
Theorem C304_range_buffer : forall (Ob A Inf : Type) (r0 : Qc) radd (last_frame : Ob -> Ob) o n
    (b : buf Ob A Inf Qc) q rnd idx ps (vi : Z -> Qc) v_s gamma lam lo hi,
  0 < n -> reach r0 radd last_frame o n b q -> q <> [] ->
  sample_indices plain b rnd (Some 0%Z) = Ok idx ->
  (forall p, In p ps -> p < length q) -> ps <> [] -> whole_episodes (fun _ => q) (map (pair 0) ps) ->
  let at_ p := Z.of_nat (nth p idx 0) in
  (v_s = None \/ exists w, v_s = Some (map w ps) /\ forall p, last_of q p <> p -> w (S p) = next_value q (fun j => vi (at_ j)) p) ->
  (0 <= gamma <= 1)%Qc -> (0 <= lam <= 1)%Qc -> (lo <= 0 <= hi)%Qc ->
  (forall i, (lo <= vi i <= hi)%Qc) ->
  (forall p, ((1 - gamma) * lo <= rew_at q p <= (1 - gamma) * hi)%Qc) ->
  (exists ret adv, compute_episodic_return (buf_view b) (rows_of q ps) (map at_ ps) (Some (map (fun p => vi (at_ p)) ps)) v_s gamma lam = Ok (ret, adv)
     /\ length ret = length ps /\ Forall (fun x => (lo <= x <= hi)%Qc) ret)
  /\ (forall N, 0 < N -> exists ret, compute_nstep_return (buf_view b) (length ps) (map at_ ps) (map (fun i => [vi i])) gamma N false
       = Ok (map (fun x => [x]) ret) /\ length ret = length ps /\ Forall (fun x => (lo <= x <= hi)%Qc) ret).
Proof. exact C304_range_buffer_lemma. Qed.
Print Assumptions C304_range_buffer.

(** C301.  [episode_mc_return_to_go] is the advantage of a single episode with values 0 and lambda = 1. *)
Theorem C301_monte_carlo : forall rewards gamma ends, rewards <> [] -> length ends = length rewards ->
  (forall i, S i < length rewards -> nth i ends false = false) ->
  episode_mc_return_to_go rewards gamma
  = Ok (gae_return (map (fun _ => 0%Qc) rewards) (map (fun _ => 0%Qc) rewards) rewards ends gamma 1).
Proof. exact C301_monte_carlo_lemma. Qed.
Print Assumptions C301_monte_carlo.

(** C305.  Advantages are linear in rewards and values together. *)
Theorem C305_linear_gae : forall a b v w v_ w_ r s ends gamma lam,
  length w = length v -> length v_ = length v -> length w_ = length v -> length r = length v -> length s = length v ->
  gae_return (lin a b v w) (lin a b v_ w_) (lin a b r s) ends gamma lam
  = lin a b (gae_return v v_ r ends gamma lam) (gae_return w w_ s ends gamma lam).
Proof. exact C305_linear_gae_lemma. Qed.
Print Assumptions C305_linear_gae.

(** C305.  n-step returns are linear in rewards and target values together. *)
Theorem C305_linear_nstep : forall a b rew rew' ends q q' stacked gamma N out out',
  length rew' = length rew -> Forall2 (fun x y => length x = length y) q' q ->
  nstep_return rew ends q stacked gamma N = Ok out -> nstep_return rew' ends q' stacked gamma N = Ok out' ->
  nstep_return (lin a b rew rew') ends (lin2 a b q q') stacked gamma N = Ok (lin2 a b out out').
Proof. exact C305_linear_nstep_lemma. Qed.
Print Assumptions C305_linear_nstep.

(** C306.  Raising rewards or target values never lowers an n-step return. *)
Theorem C306_monotone_nstep : forall rew rew' ends q q' stacked gamma N out, (0 <= gamma)%Qc ->
  Forall2 Qcle rew rew' -> Forall2 (Forall2 Qcle) q q' ->
  nstep_return rew ends q stacked gamma N = Ok out ->
  exists out', nstep_return rew' ends q' stacked gamma N = Ok out' /\ Forall2 (Forall2 Qcle) out out'.
Proof. exact C306_monotone_nstep_lemma. Qed.
Print Assumptions C306_monotone_nstep.

(** C306.  Raising rewards or next values, or lowering values, never lowers an advantage. *)
Theorem C306_monotone_gae : forall v w v_ w_ r s ends gamma lam, (0 <= gamma)%Qc -> (0 <= lam)%Qc ->
  Forall2 Qcle w v -> Forall2 Qcle v_ w_ -> Forall2 Qcle r s -> length v_ = length v -> length r = length v ->
  Forall2 Qcle (gae_return v v_ r ends gamma lam) (gae_return w w_ s ends gamma lam).
Proof. exact C306_monotone_gae_lemma. Qed.
Print Assumptions C306_monotone_gae.

(** ** Non-vacuity: a wrapped buffer of 4 with the end of an episode, a whole one and an unfinished one. *)
Definition law_ts := [qt 1 false false; qt 2 false false; qt 3 true false; qt 4 false true; qt 5 false false].
Definition law_b := qbuf 4 law_ts.
Definition law_q := qqueue 4 law_ts.
(** The value of the next state of the step at each index. *)
Definition law_v (i : Z) : Qc := if (i =? 0)%Z then qz 20 else if (i =? 1)%Z then qz 3 else if (i =? 2)%Z then qz 7 else qz 10.
Definition law_idx : list Z := [1; 2; 3; 0]%Z.
Definition law_pos : list nat := [1; 2; 3; 0].
Definition law_half : Qc := Q2Qc (1 # 2).
Example law_reach : reach 0%Qc Qcplus (fun x => x) plain 4 law_b law_q /\ law_q <> []
  /\ sample_indices plain law_b (fun _ => 0) (Some 0%Z) = Ok [1; 2; 3; 0].
Proof. split; [apply qbuf_reach; lia|split; [discriminate|vm_compute; reflexivity]]. Qed.
Example law_whole : whole_episodes (fun _ => law_q) (map (pair 0) [0; 1; 2; 3]).
Proof. cbn. unfold is_end. cbn. repeat split; auto. Qed.
Definition qs_of (r : res (list (list Qc))) : list (list Q) := match r with Ok l => map (map this) l | Err _ => [] end.
Definition ret_of (r : res (list Qc * list Qc)) : list Q := match r with Ok (l, _) => map this l | Err _ => [] end.
(** gamma = 1/2, lambda = 1/2, other values than the rewards: 1-step 2 + 3/2, 2-step 2 + 3/2 - the mixture. *)
Definition law_w (i : Z) : Qc := if (i =? 1)%Z then qz 9 else law_v i.
Example C301_ex : qs_of (compute_nstep_return (buf_view law_b) 4 law_idx (map (fun i => [law_w i])) law_half 1 false)
    = [[13 # 2]; [3 # 1]; [9 # 1]; [15 # 1]]%Q
  /\ qs_of (compute_nstep_return (buf_view law_b) 4 law_idx (map (fun i => [law_w i])) law_half 2 false)
    = [[7 # 2]; [3 # 1]; [9 # 1]; [15 # 1]]%Q
  /\ ret_of (compute_episodic_return (buf_view law_b) (rows_of law_q [0; 1; 2; 3]) law_idx (Some (map law_w law_idx)) None law_half law_half)
    = [5 # 1; 3 # 1; 9 # 1; 15 # 1]%Q
  /\ map (steps_from law_q) [0; 1; 2; 3] = [2; 1; 1; 1].
Proof. vm_compute. auto. Qed.
Example C301_ex_mc : match episode_mc_return_to_go [qz 1; qz 2; qz 4] law_half with Ok l => map this l = [3 # 1; 4 # 1; 4 # 1]%Q | Err _ => False end.
Proof. vm_compute. reflexivity. Qed.
(** The values [law_w] and [law_v] are 6 apart at one index: the 1-step return of its step moves by 3. *)
Example C302_ex : (forall i, within (qz 6) (law_w i) (law_v i))
  /\ qs_of (compute_nstep_return (buf_view law_b) 4 law_idx (map (fun i => [law_v i])) law_half 1 false)
    = [[7 # 2]; [3 # 1]; [9 # 1]; [15 # 1]]%Q.
Proof.
  split; [|vm_compute; reflexivity]. intros i. unfold law_w, law_v, within.
  destruct (i =? 1)%Z eqn:E1; [apply Z.eqb_eq in E1; subst i|]; [split; vm_compute; discriminate|].
  destruct (i =? 0)%Z, (i =? 2)%Z; split; vm_compute; discriminate.
Qed.
(** Consistent values for gamma = 1. *)
Definition law_nv (j : nat) : Qc := law_v (Z.of_nat (nth j law_pos 0)).
Definition law_u (p : nat) : Qc := nth p [qz 5; qz 3; qz 14; qz 25] 0%Qc.
Example C303_ex : (forall p, p < length law_q ->
    law_u p = (rew_at law_q p + 1 * next_value law_q law_nv p)%Qc)
  /\ (forall p, last_of law_q p <> p -> law_u (S p) = next_value law_q law_nv p).
Proof.
  assert (L : length law_q = 4) by reflexivity. split.
  - intros p Hp. rewrite L in Hp. destruct p as [|[|[|[|p]]]]; [| | | |lia]; apply Qc_is_canon; vm_compute; reflexivity.
  - intros p Hp. destruct p as [|[|[|[|p]]]]; try (exfalso; apply Hp; reflexivity).
    apply Qc_is_canon. vm_compute. reflexivity.
Qed.
Example law_in : forall p, In p [0; 1; 2; 3] -> p < length law_q.
Proof. intros p H. change (length law_q) with 4. cbn in H. lia. Qed.
Example C303_ex_value : compute_episodic_return (buf_view law_b) (rows_of law_q [0; 1; 2; 3]) law_idx (Some (map law_v law_idx))
    (Some (map law_u [0; 1; 2; 3])) 1 law_half = Ok (map law_u [0; 1; 2; 3], [0%Qc; 0%Qc; 0%Qc; 0%Qc]).
Proof.
  exact (proj1 (C303_consistent_buffer nat nat unit 0%Qc Qcplus (fun x => x) plain 4 law_b law_q (fun _ => 0) [1; 2; 3; 0] [0; 1; 2; 3]
    law_v law_u 1%Qc law_half (le_S _ _ (le_S _ _ (le_S _ _ (le_n 1)))) (proj1 law_reach) (proj1 (proj2 law_reach)) (proj2 (proj2 law_reach))
    law_in ltac:(discriminate) law_whole (proj1 C303_ex) (proj2 C303_ex))).
Qed.
(** Rewards at most 5 = (1 - 1/2) * 10 and values up to 20. *)
Example C304_ex : (forall i, (0 <= law_v i <= qz 20)%Qc)
  /\ (forall p, ((1 - law_half) * 0 <= rew_at law_q p <= (1 - law_half) * qz 20)%Qc).
Proof.
  split.
  - intros i. unfold law_v. destruct (i =? 0)%Z, (i =? 1)%Z, (i =? 2)%Z; split; vm_compute; discriminate.
  - intros p. destruct p as [|[|[|[|p]]]]; [split; vm_compute; discriminate ..|].
    unfold rew_at. rewrite (proj2 (nth_error_None law_q _)) by (change (length law_q) with 4; lia). split; vm_compute; discriminate.
Qed.
Example C305_ex : map this (gae_return [qz 1; qz 2] [qz 3; qz 4] [qz 5; qz 6] [false; true] law_half 1) = [17 # 2; 6 # 1]%Q
  /\ map this (gae_return (lin (qz 2) (qz 1) [qz 1; qz 2] [qz 1; qz 1]) (lin (qz 2) (qz 1) [qz 3; qz 4] [qz 0; qz 2])
        (lin (qz 2) (qz 1) [qz 5; qz 6] [qz 0; qz 1]) [false; true] law_half 1) = [33 # 2; 13 # 1]%Q
  /\ map this (gae_return [qz 1; qz 1] [qz 0; qz 2] [qz 0; qz 1] [false; true] law_half 1) = [-(1 # 2); 1 # 1]%Q.
Proof. vm_compute. auto. Qed.
Example C305_ex_nstep : qs_of (nstep_return [qz 1; qz 2] [false; true] [[qz 8; qz 4]] [[0]; [1]]%Z law_half 2) = [[4 # 1; 3 # 1]]%Q
  /\ qs_of (nstep_return [qz 1; qz 4] [false; true] [[qz 8; qz 8]] [[0]; [1]]%Z law_half 2) = [[5 # 1; 5 # 1]]%Q.
Proof. vm_compute. auto. Qed.
Example C306_ex : Forall2 Qcle [qz 1; qz 2] [qz 1; qz 4] /\ Forall2 (Forall2 Qcle) [[qz 8; qz 4]] [[qz 8; qz 8]].
Proof. split; repeat constructor; vm_compute; discriminate. Qed.
