(** * Properties C323-C326: laws of n-step returns, statistics and the C51 projection *)
From Coq Require Import Permutation.
From Verif Require Import Py Num BufferModel BufferSpec BufferMainProofs ManagerModel ManagerSpec ReturnsModel ReturnsSpec ReturnsMainProofs StatModel DqnModel AlgProofs.
Open Scope nat_scope.

(** C323.  Returns of n + k steps are returns of n steps that bootstrap from the returns of k steps: with values that are, for
    every stored step after which its episode goes on, the k-step return of the following step, n steps give what n + k
    steps give with the original values. *)
Theorem C323_compose_buffer : forall (Ob A Inf : Type) (r0 : Qc) radd (last_frame : Ob -> Ob) o size
    (b : buf Ob A Inf Qc) q rnd idx ps (v v2 : Z -> Qc) gamma n k,
  0 < size -> reach r0 radd last_frame o size b q -> q <> [] ->
  sample_indices plain b rnd (Some 0%Z) = Ok idx ->
  (forall p, In p ps -> p < length q) -> ps <> [] -> 0 < n -> 0 < k ->
  let at_ p := Z.of_nat (nth p idx 0) in
  (forall r, r < length q -> last_of q r = r -> v2 (at_ r) = v (at_ r)) ->
  (forall r, r < length q -> last_of q r <> r ->
     compute_nstep_return (buf_view b) 1 [at_ (S r)] (map (fun i => [v i])) gamma k false = Ok [[v2 (at_ r)]]) ->
  compute_nstep_return (buf_view b) (length ps) (map at_ ps) (map (fun i => [v2 i])) gamma n false
  = compute_nstep_return (buf_view b) (length ps) (map at_ ps) (map (fun i => [v i])) gamma (n + k) false.
Proof. exact C323_compose_buffer_lemma. Qed.
Print Assumptions C323_compose_buffer.

(** C323.  The same for a buffer manager. *)
Theorem C323_compose_manager : forall (Ob A Inf : Type) (r0 : Qc) radd (last_frame : Ob -> Ob) o ns
    (ops : list (mop Ob A Inf Qc)) m outs xs (v v2 : Z -> Qc) gamma n k,
  (forall size, In size ns -> 0 < size) -> m_run r0 radd last_frame o (m_init r0 ns) ops = Ok (m, outs) ->
  let q j := mqueue last_frame o ns ops j in
  let at_ x := Z.of_nat (maddress ns ops x) in
  (forall x, In x xs -> snd x < length (q (fst x))) -> xs <> [] -> 0 < n -> 0 < k ->
  (forall j r, r < length (q j) -> last_of (q j) r = r -> v2 (at_ (j, r)) = v (at_ (j, r))) ->
  (forall j r, r < length (q j) -> last_of (q j) r <> r ->
     compute_nstep_return (mgr_view m) 1 [at_ (j, S r)] (map (fun i => [v i])) gamma k false = Ok [[v2 (at_ (j, r))]]) ->
  compute_nstep_return (mgr_view m) (length xs) (map at_ xs) (map (fun i => [v2 i])) gamma n false
  = compute_nstep_return (mgr_view m) (length xs) (map at_ xs) (map (fun i => [v i])) gamma (n + k) false.
Proof. exact C323_compose_manager_lemma. Qed.
Print Assumptions C323_compose_manager.

(** C324.  It does not matter in which order samples arrive and how they are split into batches: the running mean, variance
    and count are the same. *)
Theorem C324_order : forall mean std mean' std' (bs bs' : list (list Qc)),
  (forall b, In b bs -> b <> []) -> (forall b, In b bs' -> b <> []) -> bs <> [] -> Permutation (concat bs) (concat bs') ->
  exists r, foldM rms_update bs (rms_init mean std) = Ok r /\ foldM rms_update bs' (rms_init mean' std') = Ok r.
Proof. exact C324_order_lemma. Qed.
Print Assumptions C324_order.

(** C324.  Samples in another unit: scaling and shifting all samples scales and shifts the mean and scales the variance. *)
Theorem C324_units : forall mean std a b (bs : list (list Qc)), (forall x, In x bs -> x <> []) -> bs <> [] ->
  exists r r', foldM rms_update bs (rms_init mean std) = Ok r
    /\ foldM rms_update (map (map (fun x => (a * x + b)%Qc)) bs) (rms_init mean std) = Ok r'
    /\ r_mean r' = (a * r_mean r + b)%Qc /\ r_var r' = (a * a * r_var r)%Qc /\ r_count r' = r_count r.
Proof. exact C324_units_lemma. Qed.
Print Assumptions C324_units.

(** C324.  The variance is never negative, and the mean lies between bounds of the samples. *)
Theorem C324_range : forall mean std lo hi (bs : list (list Qc)), (forall x, In x bs -> x <> []) -> bs <> [] ->
  (forall x, In x (concat bs) -> (lo <= x <= hi)%Qc) ->
  exists r, foldM rms_update bs (rms_init mean std) = Ok r /\ (0 <= r_var r)%Qc /\ (lo <= r_mean r <= hi)%Qc.
Proof. exact C324_range_lemma. Qed.
Print Assumptions C324_range.

(** C325.  Numbers that are added to a moving average in one call could as well be added in two. *)
Theorem C325_chunks : forall m xs ys, ma_add (ma_add m xs) ys = ma_add m (xs ++ ys).
Proof. exact C325_chunks_lemma. Qed.
Print Assumptions C325_chunks.

(** C325.  An average over a window of [size] numbers forgets everything before the last [size] of them. *)
Theorem C325_forgets : forall size ys c c', (0 < size)%Z -> (size <= Z.of_nat (length (filter (fun v => negb (banned v)) ys)))%Z ->
  ma_add (mkMA size c) ys = ma_add (mkMA size c') ys.
Proof. exact C325_forgets_lemma. Qed.
Print Assumptions C325_forgets.

(** C326.  A distribution on the support is its own projection; so projecting twice is projecting once. *)
Theorem C326_identity : forall v_min v_max n p, (v_min < v_max)%Qc -> 1 < n -> length p = n ->
  target_dist v_min v_max n (support v_min v_max n) p = p.
Proof. exact C326_identity_lemma. Qed.
Print Assumptions C326_identity.

Theorem C326_idempotent : forall v_min v_max n returns p, (v_min < v_max)%Qc -> 1 < n ->
  target_dist v_min v_max n (support v_min v_max n) (target_dist v_min v_max n returns p) = target_dist v_min v_max n returns p.
Proof. exact C326_idempotent_lemma. Qed.
Print Assumptions C326_idempotent.

(** C326.  The projection is linear in the probabilities. *)
Theorem C326_linear : forall v_min v_max n returns a b p p', length returns = length p -> length returns = length p' ->
  target_dist v_min v_max n returns (map (fun x => (a * fst x + b * snd x)%Qc) (combine p p'))
  = map (fun x => (a * fst x + b * snd x)%Qc) (combine (target_dist v_min v_max n returns p) (target_dist v_min v_max n returns p')).
Proof. exact C326_linear_lemma. Qed.
Print Assumptions C326_linear.

(** C326.  The order of the atoms does not matter as long as each keeps its probability. *)
Theorem C326_order : forall v_min v_max n (xs ys : list (Qc * Qc)), Permutation xs ys ->
  target_dist v_min v_max n (map fst xs) (map snd xs) = target_dist v_min v_max n (map fst ys) (map snd ys).
Proof. exact C326_order_lemma. Qed.
Print Assumptions C326_order.

(** C326.  Values in another unit: scaling and shifting the support and the returns does not change the probabilities. *)
Theorem C326_units : forall v_min v_max n returns p a b, (v_min < v_max)%Qc -> 1 < n -> (0 < a)%Qc ->
  target_dist (a * v_min + b) (a * v_max + b) n (map (fun r => (a * r + b)%Qc) returns) p = target_dist v_min v_max n returns p.
Proof. exact C326_units_lemma. Qed.
Print Assumptions C326_units.

(** C326.  A return between two neighbouring atoms is split between them, the nearer one getting more; one outside of the
    support goes to the nearest end. *)
Theorem C326_local : forall v_min v_max n i t x, (v_min < v_max)%Qc -> S i < n -> (0 <= t)%Qc -> (t <= 1)%Qc ->
  target_dist v_min v_max n [(v_min + (qn i + t) * delta_z v_min v_max n)%Qc] [x]
  = map (fun j => if j =? i then ((1 - t) * x)%Qc else if j =? S i then (t * x)%Qc else 0%Qc) (seq 0 n).
Proof. exact C326_local_lemma. Qed.
Print Assumptions C326_local.

Theorem C326_ends : forall v_min v_max n r x, (v_min < v_max)%Qc -> 1 < n ->
  ((r <= v_min)%Qc -> target_dist v_min v_max n [r] [x] = map (fun j => if j =? 0 then x else 0%Qc) (seq 0 n))
  /\ ((v_max <= r)%Qc -> target_dist v_min v_max n [r] [x] = map (fun j => if j =? n - 1 then x else 0%Qc) (seq 0 n)).
Proof. exact C326_ends_lemma. Qed.
Print Assumptions C326_ends.

(** A buffer of 5 slots with an episode of three steps (terminated) and an unfinished one of two; half of the value of the
    next state; returns of 1 + 2 and of 3 steps. *)
Definition ex_b := qbuf 5 [qt 1 false false; qt 2 false false; qt 3 true false; qt 4 false false; qt 5 false false].
Definition ex_v (i : Z) : Qc := Q2Qc (inject_Z (10 + i)).
Definition ex_g : Qc := Q2Qc (1 # 2).
Definition ex_v2 (i : Z) : Qc :=
  if (i =? 2)%Z || (i =? 4)%Z then ex_v i
  else match compute_nstep_return (buf_view ex_b) 1 [(i + 1)%Z] (map (fun i => [ex_v i])) ex_g 2 false with Ok [[x]] => x | _ => 0%Qc end.
Example C323_ex : match compute_nstep_return (buf_view ex_b) 5 [0; 1; 2; 3; 4]%Z (map (fun i => [ex_v2 i])) ex_g 1 false,
    compute_nstep_return (buf_view ex_b) 5 [0; 1; 2; 3; 4]%Z (map (fun i => [ex_v i])) ex_g 3 false with
  | Ok l, Ok l' => map (map this) l = map (map this) l' /\ map (map this) l = [[11 # 4]; [7 # 2]; [3]; [10]; [12]]%Q
  | _, _ => False end.
Proof. vm_compute. split; reflexivity. Qed.
Definition qi (z : Z) : Qc := Q2Qc (inject_Z z).
Example C324_ex : match foldM rms_update [[qi 1; qi 2]; [qi 6]] (rms_init 0%Qc 1%Qc), foldM rms_update [[qi 6]; [qi 2]; [qi 1]] (rms_init (qi 7) 1%Qc) with
  | Ok r, Ok r' => this (r_mean r) = 3%Q /\ this (r_var r) = (14 # 3)%Q /\ r_count r = 3 /\ this (r_mean r') = 3%Q /\ this (r_var r') = (14 # 3)%Q
  | _, _ => False end.
Proof. vm_compute. repeat split. Qed.
Example C325_ex : length (ma_cache (ma_add (ma_add (ma_init 3) [VFin (qi 1); VInf; VFin (qi 2)]) [VFin (qi 3); VFin (qi 4)])) = 3
  /\ option_map this (ma_get (ma_add (ma_add (ma_init 3) [VFin (qi 1); VInf; VFin (qi 2)]) [VFin (qi 3); VFin (qi 4)])) = Some 3%Q.
Proof. vm_compute. split; reflexivity. Qed.
Example C326_ex : map this (target_dist 0%Qc (qi 4) 5 [Q2Qc (5 # 2); qi 9; qi (-1)] [Q2Qc (1 # 2); Q2Qc (1 # 4); Q2Qc (1 # 4)])
  = [1 # 4; 0; 1 # 4; 1 # 4; 1 # 4]%Q.
Proof. vm_compute. reflexivity. Qed.
Example C326_ex_local : map this (target_dist 0%Qc (qi 4) 5 [Q2Qc (9 # 4)] [1%Qc]) = [0; 0; 3 # 4; 1 # 4; 0]%Q.
Proof. vm_compute. reflexivity. Qed.
