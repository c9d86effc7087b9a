(** * Property C368: restacking recovers the observations of a frame-stacking environment *)
From Verif Require Import Py BufferModel BufferSpec BufferMainProofs ManagerModel ManagerSpec FrameSpec FrameProofs.
Open Scope nat_scope.
Open Scope list_scope.

(** C368. Read with the number of frames the environment stacks, a buffer that keeps only the newest frame shows an observation as it was added:
    as long as the beginning of its episode, or the rows of its frames, are stored. *)
Theorem C368_obs_partial : forall (F A Inf R : Type) (r0 : R) radd o n (ts : list (trans (list F) A Inf R)) f0 (b0 b : buf (list F) A Inf R) outs rnd idx p t,
  0 < n -> save_only_last_obs o = true -> 0 < stack_num o -> framed (stack_num o) [f0] ts ->
  reach r0 radd (lastn 1) o n b0 [] -> buf_run r0 radd (lastn 1) o b0 (map OpAdd ts) = Ok (b, outs) ->
  sample_indices plain b rnd (Some 0%Z) = Ok idx ->
  let old := length ts - n in
  nth_error ts (old + p) = Some t ->
  old <= begun ts (old + p) \/ old + stack_num o <= S (old + p) ->
  exists out, getitem o b [Z.of_nat (nth p idx 0)] = Ok [out] /\ o_obs out = map (fun f => Some [f]) (t_obs t).
Proof. exact C368_obs_partial_lemma. Qed.
Print Assumptions C368_obs_partial.

(** C368. The same holds of the next observation that is kept, when the episode has stored as many transitions as there are frames. *)
Theorem C368_next_kept_partial : forall (F A Inf R : Type) (r0 : R) radd o n (ts : list (trans (list F) A Inf R)) f0 (b0 b : buf (list F) A Inf R) outs rnd idx p t,
  0 < n -> save_only_last_obs o = true -> 0 < stack_num o -> framed (stack_num o) [f0] ts ->
  reach r0 radd (lastn 1) o n b0 [] -> buf_run r0 radd (lastn 1) o b0 (map OpAdd ts) = Ok (b, outs) ->
  sample_indices plain b rnd (Some 0%Z) = Ok idx ->
  let old := length ts - n in
  nth_error ts (old + p) = Some t -> save_obs_next o = true ->
  Nat.max old (begun ts (old + p)) + stack_num o <= S (old + p) ->
  exists out, getitem o b [Z.of_nat (nth p idx 0)] = Ok [out] /\ o_obs_next out = map (fun f => Some [f]) (t_obs_next t).
Proof. exact C368_next_kept_partial_lemma. Qed.
Print Assumptions C368_next_kept_partial.

(** C368. When next observations are not kept it holds of those read from the transition that follows in the episode. *)
Theorem C368_next_read_partial : forall (F A Inf R : Type) (r0 : R) radd o n (ts : list (trans (list F) A Inf R)) f0 (b0 b : buf (list F) A Inf R) outs rnd idx p t,
  0 < n -> save_only_last_obs o = true -> 0 < stack_num o -> framed (stack_num o) [f0] ts ->
  reach r0 radd (lastn 1) o n b0 [] -> buf_run r0 radd (lastn 1) o b0 (map OpAdd ts) = Ok (b, outs) ->
  sample_indices plain b rnd (Some 0%Z) = Ok idx ->
  let old := length ts - n in
  nth_error ts (old + p) = Some t -> save_obs_next o = false ->
  t_term t || t_trunc t = false -> S (old + p) < length ts ->
  old <= begun ts (old + p) \/ old + stack_num o <= S (S (old + p)) ->
  exists out, getitem o b [Z.of_nat (nth p idx 0)] = Ok [out] /\ o_obs_next out = map (fun f => Some [f]) (t_obs_next t).
Proof. exact C368_next_read_partial_lemma. Qed.
Print Assumptions C368_next_read_partial.

(** C368. But the kept next observation of an episode's first transition is read as the newest frame alone, so it is not the one that was added
    whenever two or more frames are stacked and the first two frames differ. *)
Theorem C368_next_kept_refuted : forall (F A Inf R : Type) (r0 : R) radd o n (ts : list (trans (list F) A Inf R)) f0 (b0 b : buf (list F) A Inf R) outs rnd idx p t f f',
  0 < n -> save_only_last_obs o = true -> 2 <= stack_num o -> framed (stack_num o) [f0] ts ->
  reach r0 radd (lastn 1) o n b0 [] -> buf_run r0 radd (lastn 1) o b0 (map OpAdd ts) = Ok (b, outs) ->
  sample_indices plain b rnd (Some 0%Z) = Ok idx ->
  let old := length ts - n in
  nth_error ts (old + p) = Some t -> save_obs_next o = true ->
  begun ts (old + p) = old + p -> t_obs_next t = shown (stack_num o) [f; f'] -> f <> f' ->
  exists out, getitem o b [Z.of_nat (nth p idx 0)] = Ok [out] /\ o_obs_next out = repeat (Some [f']) (stack_num o)
  /\ o_obs_next out <> map (fun x => Some [x]) (t_obs_next t).
Proof. exact C368_next_kept_refuted_lemma. Qed.
Print Assumptions C368_next_kept_refuted.

(** C368. Observations read from a vector buffer: the same, for each sub-buffer. *)
Theorem C368_vector_obs_partial : forall (F A Inf R : Type) (r0 : R) radd o ns (ops : list (mop (list F) A Inf R)) m outs e n (ts : list (trans (list F) A Inf R)) f0 p t,
  (forall x, In x ns -> 0 < x) -> nth_error ns e = Some n -> save_only_last_obs o = true -> 0 < stack_num o -> framed (stack_num o) [f0] ts ->
  m_run r0 radd (lastn 1) o (m_init r0 ns) ops = Ok (m, outs) -> received ns ops e ts ->
  let old := length ts - n in
  nth_error ts (old + p) = Some t ->
  old <= begun ts (old + p) \/ old + stack_num o <= S (old + p) ->
  exists out, m_getitem o m [Z.of_nat (maddress ns ops (e, p))] = Ok [out] /\ o_obs out = map (fun f => Some [f]) (t_obs t).
Proof. exact C368_vector_obs_partial_lemma. Qed.
Print Assumptions C368_vector_obs_partial.

(** C368. Kept next observations of a vector buffer. *)
Theorem C368_vector_next_kept_partial : forall (F A Inf R : Type) (r0 : R) radd o ns (ops : list (mop (list F) A Inf R)) m outs e n (ts : list (trans (list F) A Inf R)) f0 p t,
  (forall x, In x ns -> 0 < x) -> nth_error ns e = Some n -> save_only_last_obs o = true -> 0 < stack_num o -> framed (stack_num o) [f0] ts ->
  m_run r0 radd (lastn 1) o (m_init r0 ns) ops = Ok (m, outs) -> received ns ops e ts ->
  let old := length ts - n in
  nth_error ts (old + p) = Some t -> save_obs_next o = true ->
  Nat.max old (begun ts (old + p)) + stack_num o <= S (old + p) ->
  exists out, m_getitem o m [Z.of_nat (maddress ns ops (e, p))] = Ok [out] /\ o_obs_next out = map (fun f => Some [f]) (t_obs_next t).
Proof. exact C368_vector_next_kept_partial_lemma. Qed.
Print Assumptions C368_vector_next_kept_partial.

(** C368. Next observations of a vector buffer that does not keep them. *)
Theorem C368_vector_next_read_partial : forall (F A Inf R : Type) (r0 : R) radd o ns (ops : list (mop (list F) A Inf R)) m outs e n (ts : list (trans (list F) A Inf R)) f0 p t,
  (forall x, In x ns -> 0 < x) -> nth_error ns e = Some n -> save_only_last_obs o = true -> 0 < stack_num o -> framed (stack_num o) [f0] ts ->
  m_run r0 radd (lastn 1) o (m_init r0 ns) ops = Ok (m, outs) -> received ns ops e ts ->
  let old := length ts - n in
  nth_error ts (old + p) = Some t -> save_obs_next o = false ->
  t_term t || t_trunc t = false -> S (old + p) < length ts ->
  old <= begun ts (old + p) \/ old + stack_num o <= S (S (old + p)) ->
  exists out, m_getitem o m [Z.of_nat (maddress ns ops (e, p))] = Ok [out] /\ o_obs_next out = map (fun f => Some [f]) (t_obs_next t).
Proof. exact C368_vector_next_read_partial_lemma. Qed.
Print Assumptions C368_vector_next_read_partial.

(** C368. The next observation of an episode's first transition is read wrongly from a vector buffer too. *)
Theorem C368_vector_next_kept_refuted : forall (F A Inf R : Type) (r0 : R) radd o ns (ops : list (mop (list F) A Inf R)) m outs e n (ts : list (trans (list F) A Inf R)) f0 p t f f',
  (forall x, In x ns -> 0 < x) -> nth_error ns e = Some n -> save_only_last_obs o = true -> 2 <= stack_num o -> framed (stack_num o) [f0] ts ->
  m_run r0 radd (lastn 1) o (m_init r0 ns) ops = Ok (m, outs) -> received ns ops e ts ->
  let old := length ts - n in
  nth_error ts (old + p) = Some t -> save_obs_next o = true ->
  begun ts (old + p) = old + p -> t_obs_next t = shown (stack_num o) [f; f'] -> f <> f' ->
  exists out, m_getitem o m [Z.of_nat (maddress ns ops (e, p))] = Ok [out] /\ o_obs_next out = repeat (Some [f']) (stack_num o)
  /\ o_obs_next out <> map (fun x => Some [x]) (t_obs_next t).
Proof. exact C368_vector_next_kept_refuted_lemma. Qed.
Print Assumptions C368_vector_next_kept_refuted.

(** ** Non-vacuity *)
(** Three frames are stacked: an episode with the frames 1, 2, 3, 4, then one with 10, 11, 12. *)
Definition fm_t (a b : list nat) (d : bool) : trans (list nat) nat unit nat := mkTrans a 0 1 d false b tt.
Definition fm_ts : list (trans (list nat) nat unit nat) :=
  [fm_t [1; 1; 1] [1; 1; 2] false; fm_t [1; 1; 2] [1; 2; 3] false; fm_t [1; 2; 3] [2; 3; 4] true; fm_t [10; 10; 10] [10; 10; 11] false;
   fm_t [10; 10; 11] [10; 11; 12] false].
Example C368_ex_framed : framed 3 [1] fm_ts.
Proof.
  apply framed_go with (f := 2); try reflexivity. apply framed_go with (f := 3); try reflexivity.
  apply framed_end with (f := 4) (f0 := 10); try reflexivity. apply framed_go with (f := 11); try reflexivity.
  apply framed_go with (f := 12); try reflexivity. apply framed_nil.
Qed.
Definition fm_read (o : opts) (n : nat) (i : Z) : res (list (row_out (list nat) nat unit nat)) :=
  let* x := buf_run 0 Nat.add (lastn 1) o (buf_init 0 n) (map OpAdd fm_ts) in getitem o (fst x) [i].
Definition fm_shown (r : res (list (row_out (list nat) nat unit nat))) : res (list (list (option (list nat)) * list (option (list nat)))) :=
  let* l := r in Ok (map (fun x => (o_obs x, o_obs_next x)) l).
Definition fm_s (l : list nat) : list (option (list nat)) := map (fun f => Some [f]) l.
(** Of five transitions all are stored: observations are recovered, kept next observations from the third transition of an episode on. *)
Example C368_ex : fm_shown (fm_read (mkOpts 3 true true false) 5 1) = Ok [(fm_s [1; 1; 2], fm_s [2; 2; 3])]
  /\ fm_shown (fm_read (mkOpts 3 true true false) 5 2) = Ok [(fm_s [1; 2; 3], fm_s [2; 3; 4])]
  /\ fm_shown (fm_read (mkOpts 3 true true false) 5 3) = Ok [(fm_s [10; 10; 10], fm_s [11; 11; 11])]
  /\ fm_shown (fm_read (mkOpts 3 false true false) 5 3) = Ok [(fm_s [10; 10; 10], fm_s [10; 10; 11])]
  /\ fm_shown (fm_read (mkOpts 3 false true false) 5 0) = Ok [(fm_s [1; 1; 1], fm_s [1; 1; 2])].
Proof. repeat split; vm_compute; reflexivity. Qed.
(** With three places the beginning of the first episode is gone; that of the second is not. *)
Example C368_ex_old : begun fm_ts 2 = 0 /\ begun fm_ts 4 = 3 /\ fm_shown (fm_read (mkOpts 3 false true false) 3 2) = Ok [(fm_s [3; 3; 3], fm_s [3; 3; 3])]
  /\ fm_shown (fm_read (mkOpts 3 false true false) 3 1) = Ok [(fm_s [10; 10; 11], fm_s [10; 10; 11])]
  /\ reach 0 Nat.add (lastn 1) (mkOpts 3 false true false) 3 (buf_init (Ob := list nat) (A := nat) (Inf := unit) 0 3) [].
Proof. repeat split; try (vm_compute; reflexivity). apply reach_init. Qed.
(** Two environments; the second one's transitions come between those of the first. *)
Definition fm_ops : list (mop (list nat) nat unit nat) :=
  [MAdd None [fm_t [1; 1; 1] [1; 1; 2] false; fm_t [7; 7; 7] [7; 7; 8] false]; MReset false;
   MAdd None [fm_t [1; 1; 1] [1; 1; 2] false; fm_t [7; 7; 7] [7; 7; 8] false]; MAdd (Some [0%Z]) [fm_t [1; 1; 2] [1; 2; 3] false];
   MAdd None [fm_t [1; 2; 3] [2; 3; 4] true; fm_t [7; 7; 8] [7; 8; 9] false]; MAdd (Some [0%Z]) [fm_t [10; 10; 10] [10; 10; 11] false];
   MAdd (Some [0%Z]) [fm_t [10; 10; 11] [10; 11; 12] false]].
Definition fm_mread (o : opts) (i : Z) :=
  let* x := m_run 0 Nat.add (lastn 1) o (m_init 0 [4; 4]) fm_ops in let* l := m_getitem o (fst x) [i] in Ok (map (fun x => (o_obs x, o_obs_next x)) l).
Example C368_ex_vector : received [4; 4] fm_ops 0 fm_ts /\ maddress [4; 4] fm_ops (0, 3) = 0 /\ maddress [4; 4] fm_ops (0, 2) = 3 /\ maddress [4; 4] fm_ops (1, 0) = 4
  /\ fm_mread (mkOpts 3 false true false) 0 = Ok [(fm_s [10; 10; 11], fm_s [10; 10; 11])]
  /\ fm_mread (mkOpts 3 false true false) 3 = Ok [(fm_s [10; 10; 10], fm_s [10; 10; 11])]
  /\ fm_mread (mkOpts 3 true true false) 3 = Ok [(fm_s [10; 10; 10], fm_s [11; 11; 11])]
  /\ fm_mread (mkOpts 3 false true false) 4 = Ok [(fm_s [7; 7; 7], fm_s [7; 7; 8])].
Proof. split; [right; exists [OpAdd (fm_t [1; 1; 1] [1; 1; 2] false)], false; reflexivity|]. repeat split; vm_compute; reflexivity. Qed.
