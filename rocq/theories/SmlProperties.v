(** * Properties C360-C363: HER's share of altered episodes, uniform action distributions, optimizer factories, ICM's learning step *)
From Coq Require Import String Permutation.
From Verif Require Import Py Num DqnModel SmlModel SmlSpec SmlProofs.
Open Scope nat_scope.
Open Scope list_scope.

(** C360.  For future_k at least one, HER alters distinct episodes of those sampled, at most future_k - 1 for each one left unaltered
    (so at most future_k, as promised), and one more would be too many. *)
Theorem C360_ratio : forall (k : Qc) (perm : list nat), (1 <= k)%Qc -> Permutation perm (seq 0 (length perm)) ->
  exists p l, future_p k = Ok p /\ her_episodes p perm = Ok l /\ NoDup l /\ (forall i, In i l -> i < length perm) /\
    (qn (length l) <= (k - 1) * qn (length perm - length l))%Qc /\
    (length perm <= length l \/ ~ (qn (S (length l)) <= (k - 1) * qn (length perm - S (length l)))%Qc).
Proof. exact C360_ratio_lemma. Qed.
Print Assumptions C360_ratio.

(** C360.  So some sampled episode always stays unaltered; a single one is never altered; with future_k = 1 none is, and future_k = 0
    raises. *)
Theorem C360_some_stay : forall (k p : Qc) (perm l : list nat), (1 <= k)%Qc -> perm <> [] ->
  future_p k = Ok p -> her_episodes p perm = Ok l ->
  length l < length perm /\ (length perm = 1 -> l = []) /\ (k = 1%Qc -> l = []).
Proof. exact C360_some_stay_lemma. Qed.
Print Assumptions C360_some_stay.

(** C360.  Without episodes per unaltered one there is no share. *)
Theorem C360_zero : future_p 0%Qc = Err ZeroDivisionError.
Proof. exact C360_zero_lemma. Qed.
Print Assumptions C360_zero.

(** C361.  Refuted: for a discrete space which does not start at zero the distribution gives positive probability to a number which is
    no action. *)
Theorem C361_start_refuted : forall (n batch_size : nat) (start : Z), 0 < n -> 0 < batch_size -> start <> 0%Z ->
  exists ws, create_uniform_action_dist (ADiscrete n start) batch_size = Ok (DCategorical ws) /\
    exists w i, In w ws /\ i < length w /\ (0 < cat_prob w i)%Qc /\ ~ in_discrete n start (Z.of_nat i).
Proof. exact C361_start_refuted_lemma. Qed.
Print Assumptions C361_start_refuted.

(** C361.  Refuted: a box of two or more axes raises, whatever its bounds. *)
Theorem C361_axes_refuted : forall (a b : nat) (shape : list nat) (low high : list (option Qc)) (batch_size : nat),
  create_uniform_action_dist (ABox (a :: b :: shape) low high) batch_size = Err RuntimeError.
Proof. exact C361_axes_refuted_lemma. Qed.
Print Assumptions C361_axes_refuted.

(** C361.  Refuted: with an unbounded coordinate no sample is a number in it, and with a coordinate of one value there is no distribution. *)
Theorem C361_bounds_refuted :   (forall (h : option Qc) (u : Qc), uniform_sample None h u = None) /\ (forall (l : option Qc) (u : Qc), uniform_sample l None u = None) /\
  (forall (n batch_size i : nat) (low high : list (option Qc)) (c : Qc), 0 < batch_size -> nth_error low i = Some (Some c) -> nth_error high i = Some (Some c) ->
     create_uniform_action_dist (ABox [n] low high) batch_size = Err ValueError).
Proof. exact C361_bounds_refuted_lemma. Qed.
Print Assumptions C361_bounds_refuted.

(** C361.  A discrete space which starts at zero: in each of the batch_size rows every action, and nothing else, has probability 1/n. *)
Theorem C361_discrete_partial : forall (n batch_size : nat), 0 < n -> exists ws,
  create_uniform_action_dist (ADiscrete n 0) batch_size = Ok (DCategorical ws) /\ length ws = batch_size /\
  forall w, In w ws -> (forall i, i < length w <-> in_discrete n 0 (Z.of_nat i)) /\ forall i, i < length w -> cat_prob w i = (1 / qn n)%Qc.
Proof. exact C361_discrete_partial_lemma. Qed.
Print Assumptions C361_discrete_partial.

(** C361.  Spaces of other kinds are refused. *)
Theorem C361_other_partial : forall batch_size : nat, create_uniform_action_dist AOther batch_size = Err ValueError.
Proof. exact C361_other_partial_lemma. Qed.
Print Assumptions C361_other_partial.

(** C361.  A bounded box of one axis: each row of a sample is the sample of the space for the same random numbers, hence an action. *)
Theorem C361_box_partial : forall (n batch_size : nat) (low high : list Qc), length low = n -> length high = n ->
  (forall i l h, nth_error low i = Some l -> nth_error high i = Some h -> (l < h)%Qc) ->
  exists lo hi, create_uniform_action_dist (ABox [n] (map Some low) (map Some high)) batch_size = Ok (DUniform lo hi) /\
    forall us : list (list Qc), length us = batch_size -> (forall r, In r us -> length r = n /\ forall u, In u r -> (0 <= u)%Qc /\ (u <= 1)%Qc) ->
      sample_rows lo hi us = map (fun r => map Some (space_row low high r)) us /\
      forall r, In r us -> in_box low high (space_row low high r).
Proof. exact C361_box_partial_lemma. Qed.
Print Assumptions C361_box_partial.

(** C361.  And every action below the upper bounds is reached by random numbers in [0, 1). *)
Theorem C361_reached_partial : forall (low high row : list Qc), length low = length row -> length high = length row ->
  (forall i l h x, nth_error low i = Some l -> nth_error high i = Some h -> nth_error row i = Some x -> (l <= x)%Qc /\ (x < h)%Qc) ->
  exists us, length us = length row /\ (forall u, In u us -> (0 <= u)%Qc /\ (u < 1)%Qc) /\ space_row low high us = row.
Proof. exact C361_reached_partial_lemma. Qed.
Print Assumptions C361_reached_partial.

(** C362.  The optimizer gets all parameters of the module and the learning rate asked for, and the Adam and RMSprop factories make what
    the general factory makes of the class with the same options. *)
Theorem C362_passed : forall (P : Type) (f : ofactory) (params : list P) (lr : Qc) (c : ocall P), create_optimizer f params lr = Ok c ->
  oc_params c = params /\ (forall v, In ("lr", v) (oc_kwargs c) <-> v = ONum lr) /\
  (forall cl kw, f = FTorch cl kw -> oc_class c = cl /\ forall k v, k <> "lr" -> (In (k, v) (oc_kwargs c) <-> In (k, v) kw)).
Proof. exact C362_passed_lemma. Qed.
Print Assumptions C362_passed.

(** C362.  The two special factories are instances of the general one. *)
Theorem C362_instances : forall (P : Type) (params : list P) (lr : Qc),
  (forall b1 b2 eps wd : Qc, create_optimizer (FAdam (b1, b2) eps wd) params lr =
     create_optimizer (FTorch CAdam [("betas", OPair b1 b2); ("eps", ONum eps); ("weight_decay", ONum wd)]) params lr) /\
  (forall (alpha eps wd mom : Qc) (cent : bool), create_optimizer (FRMSprop alpha eps wd mom cent) params lr =
     create_optimizer (FTorch CRMSprop [("alpha", ONum alpha); ("eps", ONum eps); ("weight_decay", ONum wd); ("momentum", ONum mom); ("centered", OBool cent)]) params lr).
Proof. exact C362_instances_lemma. Qed.
Print Assumptions C362_instances.

(** C362.  A learning rate among the options of the general factory makes every creation raise TypeError. *)
Theorem C362_lr_option : forall (P : Type) (cl : oclass) (kw : list (string * oval)) (v : oval) (params : list P) (lr : Qc),
  In ("lr", v) kw -> create_optimizer (FTorch cl kw) params lr = Err TypeError.
Proof. exact C362_lr_option_lemma. Qed.
Print Assumptions C362_lr_option.

(** C362.  The builder uses the last optimizer set; with none set, or with the default set without arguments, Adam with its defaults. *)
Theorem C362_builder :   get_optim_factory [] = adam_default /\
  (forall l, get_optim_factory (l ++ [WDefault None None None]) = adam_default) /\
  (forall l f, get_optim_factory (l ++ [WFactory f]) = f) /\
  (forall l b e w, get_optim_factory (l ++ [WDefault (Some b) (Some e) (Some w)]) = FAdam b e w).
Proof. exact C362_builder_lemma. Qed.
Print Assumptions C362_builder.

(** C363.  Refuted: positional arguments of learn never reach the inner policy. *)
Theorem C363_positional_refuted : forall (Logits Batch Arg Stats : Type) (ce : Logits -> nat -> Qc) (inner : Batch -> list (string * Arg) -> res Stats)
  (w s : Qc) (b : Batch) (args args' : list Arg) (kw : list (string * Arg)) (ah : list Logits) (act : list nat) (mse : list Qc),
  icm_learn ce inner w s b args kw ah act mse = icm_learn ce inner w s b args' kw ah act mse.
Proof. exact C363_positional_refuted_lemma. Qed.
Print Assumptions C363_positional_refuted.

(** C363.  With keyword arguments the inner policy learns as on its own, its statistics are reported unchanged, and the loss is the mix of
    the two losses: the inverse loss for weight 0, the forward loss for weight 1 and between them otherwise. *)
Theorem C363_learn_partial : forall (Logits Batch Arg Stats : Type) (ce : Logits -> nat -> Qc) (inner : Batch -> list (string * Arg) -> res Stats)
  (w s : Qc) (b : Batch) (kw : list (string * Arg)) (ah : list Logits) (act : list nat) (mse : list Qc),
  (forall e, inner b kw = Err e -> icm_learn ce inner w s b [] kw ah act mse = Err e) /\
  forall st, inner b kw = Ok st -> exists loss fwd inv, icm_learn ce inner w s b [] kw ah act mse = Ok (st, (loss, fwd, inv)) /\
    (w = 0%Qc -> loss = (s * inv)%Qc) /\ (w = 1%Qc -> loss = (s * fwd)%Qc) /\
    ((0 <= w)%Qc -> (w <= 1)%Qc -> (0 <= s)%Qc ->
      (fwd <= inv -> s * fwd <= loss /\ loss <= s * inv)%Qc /\ (inv <= fwd -> s * inv <= loss /\ loss <= s * fwd)%Qc).
Proof. exact C363_learn_partial_lemma. Qed.
Print Assumptions C363_learn_partial.

(** ** Non-vacuity *)
(** Eight episodes and the default future_k = 8: seven are altered; of eleven nine, with two unaltered. *)
Example C360_ex_default : option_map this (match future_p (Q2Qc 8) with Ok p => Some p | Err _ => None end) = Some (7 # 8)%Q
  /\ her_episodes (Q2Qc (7 # 8)) [3; 1; 0; 2; 7; 5; 6; 4] = Ok [3; 1; 0; 2; 7; 5; 6]
  /\ her_episodes (Q2Qc (7 # 8)) [3; 1; 0; 2; 7; 5; 6; 4; 10; 8; 9] = Ok [3; 1; 0; 2; 7; 5; 6; 4; 10].
Proof. split; [vm_compute; reflexivity|]. split; vm_compute; reflexivity. Qed.
Example C360_ex_one : her_episodes (Q2Qc (7 # 8)) [0] = Ok [] /\ Permutation [1; 0] (seq 0 (List.length [1; 0])) /\ (1 <= Q2Qc 8)%Qc.
Proof. split; [vm_compute; reflexivity|]. split; [cbn; apply perm_swap|]. intro H. discriminate H. Qed.
(** Three actions -1, 0 and 1: the distribution has 0, 1 and 2. *)
Example C361_ex_discrete : create_uniform_action_dist (ADiscrete 3 (-1)) 2 = Ok (DCategorical [[1; 1; 1]; [1; 1; 1]]%Qc)
  /\ in_discrete 3 (-1) (-1) /\ ~ in_discrete 3 (-1) 2.
Proof. split; [reflexivity|]. unfold in_discrete. split; lia. Qed.
Example C361_ex_box : create_uniform_action_dist (ABox [2] [Some 0; Some 1]%Qc [Some 1; Some (Q2Qc 3)]%Qc) 1
    = Ok (DUniform [[Some 0; Some 1]%Qc] [[Some 1; Some (Q2Qc 3)]%Qc])
  /\ map this (space_row [0; 1]%Qc [1%Qc; Q2Qc 3] [Q2Qc (1 # 2); Q2Qc (1 # 4)]) = [1 # 2; 3 # 2]%Q.
Proof. split; vm_compute; reflexivity. Qed.
Open Scope string_scope.
Example C362_ex_torch : exists c, create_optimizer (FTorch (COther "SGD") [("momentum", ONum 0%Qc)]) ["w"; "b"] 1%Qc = Ok c
  /\ oc_params c = ["w"; "b"] /\ oc_kwargs c = [("lr", ONum 1%Qc); ("momentum", ONum 0%Qc)].
Proof. eexists. repeat split. Qed.
Example C362_ex_lr : create_optimizer (FTorch CAdam [("eps", ONum 1%Qc); ("lr", ONum 1%Qc)]) ["w"] 1%Qc = Err TypeError.
Proof. reflexivity. Qed.
(** An inner policy which requires batch_size as a keyword, like PPO's learn. *)
Definition needs_size (b : nat) (kw : list (string * nat)) : res nat := if existsb (fun x => String.eqb (fst x) "batch_size") kw then Ok b else Err TypeError.
Example C363_ex : icm_learn (fun (l : Qc) (a : nat) => (l + qn a)%Qc) needs_size 1%Qc 1%Qc 5 [64] [] [0%Qc] [1] [1%Qc] = Err TypeError
  /\ match icm_learn (fun (l : Qc) (a : nat) => (l + qn a)%Qc) needs_size (Q2Qc (1 # 4)) (Q2Qc 2) 5 [] [("batch_size", 64)] [1%Qc; 0%Qc] [1; 0] [Q2Qc 3; Q2Qc 5] with
     | Ok (st, (l, f, i)) => st = 5 /\ map this [l; f; i] = [7 # 2; 4 # 1; 1 # 1]%Q | Err _ => False end.
Proof. split; [reflexivity|]. vm_compute. split; reflexivity. Qed.
