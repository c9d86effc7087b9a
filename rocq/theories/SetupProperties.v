(** * What surrounds the collection loop: properties *)
From Verif Require Import Py PyLemmas Num BatchModel BatchSpec BufferModel BufferSpec ManagerModel CachedModel PolicyModel ReturnsModel ReturnsSpec SetupModel SetupSpec SetupProofs.
Open Scope nat_scope.
Open Scope list_scope.

(** C249.  The batch of infos stacks all infos: row i holds what info number i contains and padding
    where it has nothing, in particular everywhere if it is empty. *)
Theorem C249_info : forall (ty : list string -> akind * list nat) (infos : list bval),
  (forall b, In b infos -> exists l, b = Node l) ->
  stack_typed ty (nonempty infos) -> uniform_partial (nonempty infos) ->
  (nonempty infos = [] -> info_batch true infos = Ok (Node [])) /\
  (nonempty infos <> [] -> exists r, info_batch true infos = Ok r /\ merged ty (fun p => stack_rows ty p infos) (nonempty infos) r).
Proof. exact C249_info_lemma. Qed.
Print Assumptions C249_info.

(** C249.  An array of infos that has no object dtype is rejected. *)
Theorem C249_dtype : forall (infos : list bval), info_batch false infos = Err ValueError.
Proof. exact C249_dtype_lemma. Qed.
Print Assumptions C249_dtype.

(** C250.  For a Categorical over the actions 0, 1, ... the square of the reported standard deviation
    is the variance of the action; it is at most ((K - 1) / 2)^2 for K actions. *)
Theorem C250_variance : forall (p : list Qc), is_dist p ->
  cat_var p = (expect (fun a => (a * a)%Qc) p - expect (fun a => a) p * expect (fun a => a) p)%Qc /\
  (0 <= cat_var p)%Qc /\
  ((1 + 1) * (1 + 1) * cat_var p <= Q2Qc (inject_Z (Z.of_nat (length p) - 1)) * Q2Qc (inject_Z (Z.of_nat (length p) - 1)))%Qc.
Proof. exact C250_variance_lemma. Qed.
Print Assumptions C250_variance.

(** C250.  It is zero exactly if one action has probability one. *)
Theorem C250_zero : forall (p : list Qc), is_dist p ->
  (cat_var p = 0%Qc <-> exists j, nth_error p j = Some 1%Qc /\ forall i x, nth_error p i = Some x -> i <> j -> x = 0%Qc).
Proof. exact C250_zero_lemma. Qed.
Print Assumptions C250_zero.

(** C250.  A batch of B distributions gives a column of B values, one for each distribution; a single
    one gives one value and the absence of a distribution none. *)
Theorem C250_shape : forall (d : cat_dist),
  match d with
  | Unbatched p => stddev_from_dist d = ([1], [cat_var p])
  | Batched ps => fst (stddev_from_dist d) = [length ps; 1] /\ length (snd (stddev_from_dist d)) = length ps /\
      forall i p, nth_error ps i = Some p -> nth_error (snd (stddev_from_dist d)) i = Some (cat_var p)
  | NoDist => snd (stddev_from_dist d) = []
  end.
Proof. exact C250_shape_lemma. Qed.
Print Assumptions C250_shape.

(** C251.  The hook can be made for discount factors in [0, 1] only; for every episode it returns the
    discounted returns to go and, at every step, the return of the episode. *)
Theorem C251_hook : forall (gamma : Qc) (rew : list Qc),
  (mc_hook_new gamma = Ok gamma <-> (0 <= gamma)%Qc /\ (gamma <= 1)%Qc) /\
  (~ ((0 <= gamma)%Qc /\ (gamma <= 1)%Qc) -> mc_hook_new gamma = Err ValueError) /\
  (rew <> [] -> exists l full, mc_hook_call gamma rew = Ok (l, full) /\ length l = length rew /\ length full = length rew /\
     (forall t, t < length rew -> nth_error l t = Some (sum_n (length rew - t) (fun k => (gamma ^ k * nth (t + k)%nat rew 0)%Qc))) /\
     (forall t, t < length rew -> nth_error full t = Some (sum_n (length rew) (fun k => (gamma ^ k * nth k rew 0)%Qc)))).
Proof. exact C251_hook_lemma. Qed.
Print Assumptions C251_hook.

(** C252.  For buffers whose sub-buffers have room: the check at construction accepts a buffer exactly
    if it can take whatever the environments hand over in any number of steps. *)
Theorem C252_validate : forall (Ob A Inf R : Type) (r0 : R) radd (last_frame : Ob -> Ob) o (t : trans Ob A Inf R) (env_num : nat) (b : cbuf),
  0 < env_num -> roomy b ->
  (validate_buffer env_num b = Ok tt <-> forall l : list (list Z * list (trans Ob A Inf R)), Forall (step_ok env_num) l -> run_adds r0 radd last_frame o b l = Ok tt).
Proof. exact C252_validate_lemma. Qed.
Print Assumptions C252_validate.

(** C252.  Sub-buffers of size zero pass the check although nothing can be added: a plain buffer of
    size zero is rejected, VectorReplayBuffer(0, n) is not. *)
Theorem C252_zero_refuted : forall (Ob A Inf R : Type) (r0 : R) radd (last_frame : Ob -> Ob) o (env_num : nat), 0 < env_num ->
  validate_buffer env_num (Plain 0) = Err ValueError /\
  exists ns, vec_sizes 0 env_num = Ok ns /\ validate_buffer env_num (Managed ns) = Ok tt /\
    forall x : list Z * list (trans Ob A Inf R), step_ok env_num x -> run_adds r0 radd last_frame o (Managed ns) [x] = Err ZeroDivisionError.
Proof. exact C252_zero_refuted_lemma. Qed.
Print Assumptions C252_zero_refuted.

(** C253.  With a buffer size greater than zero the collectors of an experiment can be created; the
    training collector adds noise, has the configured settings and room for buffer_size transitions
    (less than one more for every environment), the test collector adds no noise and has the default
    room for every environment; both buffers take whatever their environments hand over. *)
Theorem C253_collectors : forall (Ob A Inf R : Type) (r0 : R) radd (last_frame : Ob -> Ob) o (t : trans Ob A Inf R)
    (dflt buffer_size n_train n_test : nat) (cfg : bset_) (reset : bool),
  0 < dflt -> 0 < buffer_size -> 0 < n_train -> 0 < n_test ->
  exists train test, create_collectors dflt buffer_size n_train n_test cfg reset = Ok (train, test) /\
    co_noise train = true /\ co_noise test = false /\ co_opts train = cfg /\ co_reset train = reset /\ co_reset test = reset /\
    buffer_size <= capacity (co_buffer train) < buffer_size + n_train /\ capacity (co_buffer test) = dflt * n_test /\
    (forall l : list (list Z * list (trans Ob A Inf R)), Forall (step_ok n_train) l -> run_adds r0 radd last_frame o (co_buffer train) l = Ok tt) /\
    (forall l : list (list Z * list (trans Ob A Inf R)), Forall (step_ok n_test) l -> run_adds r0 radd last_frame o (co_buffer test) l = Ok tt).
Proof. exact C253_collectors_lemma. Qed.
Print Assumptions C253_collectors.

(** C253.  A buffer size of zero is rejected for one training environment, but not for several. *)
Theorem C253_zero_refuted : forall (dflt n_train n_test : nat) (cfg : bset_) (reset : bool), 0 < n_test ->
  create_collectors dflt 0 1 n_test cfg reset = Err ValueError /\
  (1 < n_train -> exists train test, create_collectors dflt 0 n_train n_test cfg reset = Ok (train, test) /\ capacity (co_buffer train) = 0).
Proof. exact C253_zero_refuted_lemma. Qed.
Print Assumptions C253_zero_refuted.

(** C254.  Actions of the policy: what is executed is the image of what is stored, the noise is added
    to what is stored, the hidden state is returned and saved with the transition. *)
Theorem C254_policy : forall (Ob P H D S : Type) tanh atanh eps is_box m scaling low high (policy : Ob -> bval -> option H -> res (pout P H D)) noise (sample : S -> nat -> list Qc)
    explore sp ids obs obj infos hidden c,
  compute_action tanh atanh eps is_box m scaling low high policy noise sample explore false sp ids obs obj infos hidden = Ok c ->
  exists info r, info_batch obj infos = Ok info /\ policy obs info hidden = Ok r /\
    c_act c = (if explore then noise (po_act r) obs info else po_act r) /\
    map_action tanh is_box m scaling low high (c_act c) = Ok (c_norm c) /\
    c_hidden c = po_state r /\ snd (c_policy c) = po_state r /\ c_dist c = po_dist r /\
    po_policy r = match po_policy r with None => None | Some _ => Some (fst (c_policy c)) end /\ (po_policy r = None -> fst (c_policy c) = None).
Proof. exact C254_policy_lemma. Qed.
Print Assumptions C254_policy.

(** C254 (restricted: the actions can be mapped back, in particular no clipping without scaling).
    Random actions: what is executed are samples from the action spaces of the environments in
    question and what is stored is mapped to it; policy, observations, infos and hidden states are
    not used. *)
Theorem C254_random_partial : forall (Ob P H D S : Type) tanh atanh eps is_box m scaling low high (policy : Ob -> bval -> option H -> res (pout P H D)) noise (sample : S -> nat -> list Qc)
    explore sp ids obs obj infos hidden c,
  compute_action tanh atanh eps is_box m scaling low high policy noise sample explore true sp ids obs obj infos hidden = Ok c ->
  length (c_norm c) = length ids /\
  (forall j i, nth_error ids j = Some i -> exists s, (match sp with Each ss => nth_error ss i = Some s | Single s' => s = s' end) /\ nth_error (c_norm c) j = Some (sample s j)) /\
  (reachable_actions eps is_box m scaling low high (c_norm c) ->
   (m = BTanh -> forall x, (-(1) < x)%Qc -> (x < 1)%Qc -> tanh (atanh x) = x) ->
   map_action tanh is_box m scaling low high (c_act c) = Ok (c_norm c)) /\
  c_hidden c = None /\ c_dist c = None /\ c_policy c = (None, None) /\
  forall (policy' : Ob -> bval -> option H -> res (pout P H D)) noise' explore' obs' obj' infos' hidden',
    compute_action tanh atanh eps is_box m scaling low high policy' noise' sample explore' true sp ids obs' obj' infos' hidden' = Ok c.
Proof. exact C254_random_partial_lemma. Qed.
Print Assumptions C254_random_partial.

(** C254.  With clipping and without scaling, a random action outside [-1, 1] is stored as it is
    although the policy's own actions are clipped: mapping the stored action gives another one. *)
Theorem C254_clip_refuted : forall (Ob P H D : Type) tanh atanh eps low high (policy : Ob -> bval -> option H -> res (pout P H D)) noise explore obs obj infos hidden (a : Qc),
  (1 < a)%Qc ->
  exists c, compute_action tanh atanh eps true BClip false low high policy noise (fun (_ : unit) _ => [a]) explore true (Each [tt]) [0] obs obj infos hidden = Ok c /\
    c_norm c = [[a]] /\ map_action tanh true BClip false low high (c_act c) = Ok [[1%Qc]] /\ [[1%Qc]] <> c_norm c.
Proof. exact C254_clip_refuted_lemma. Qed.
Print Assumptions C254_clip_refuted.

(** C254.  A policy whose entry "policy" is not a Batch is refused: RuntimeError, if its actions can be mapped at all. *)
Theorem C254_entry : forall (Ob P H D S : Type) tanh atanh eps is_box m scaling low high (policy : Ob -> bval -> option H -> res (pout P H D)) (noise : list (list Qc) -> Ob -> bval -> list (list Qc)) (sample : S -> nat -> list Qc)
    (explore : bool) sp ids obs obj infos hidden info r norm,
  info_batch obj infos = Ok info -> policy obs info hidden = Ok r -> po_policy r = Some None ->
  map_action tanh is_box m scaling low high (if explore then noise (po_act r) obs info else po_act r) = Ok norm ->
  compute_action tanh atanh eps is_box m scaling low high policy noise sample explore false sp ids obs obj infos hidden = Err RuntimeError.
Proof. exact C254_entry_lemma. Qed.
Print Assumptions C254_entry.

(** ** Examples *)
From Coq Require Import String.
Import List BatchModel.
Local Open Scope string_scope.
Local Open Scope list_scope.
Local Open Scope nat_scope.
Definition n_ (z : Z) : nd := Sc (CN (Q2Qc (inject_Z z))).
Definition ex_i1 : bval := Node [("a", Leaf KInt (n_ 1)); ("b", Leaf KInt (Ar [] [n_ 3; n_ 4]))].
Definition ex_i2 : bval := Node [("b", Leaf KInt (Ar [] [n_ 5; n_ 6]))].
Definition ex_ty (p : list string) : akind * list nat := match p with ["a"] => (KInt, []) | _ => (KInt, [2]) end.
Definition ex_infos : list bval := [Node []; ex_i1; ex_i2; Node []].
Lemma ex_leaf b p k a : b = ex_i1 \/ b = ex_i2 -> at_path p b = Some (Leaf k a) ->
  (p = ["a"] /\ k = KInt /\ typed KInt [] a) \/ (p = ["b"] /\ k = KInt /\ typed KInt [2] a).
Proof.
  intros Hb H. destruct p as [|s p]; [destruct Hb as [-> | ->]; discriminate|].
  destruct Hb as [-> | ->]; cbn in H.
  - destruct (String.eqb s "a") eqn:E; cbn in H.
    + apply String.eqb_eq in E. subst. left. destruct p; [|discriminate]. cbn in H. injection H as <- <-. repeat split.
    + destruct (String.eqb s "b") eqn:E'; cbn in H; [|discriminate]. apply String.eqb_eq in E'. subst. right. destruct p; [|discriminate]. cbn in H. injection H as <- <-.
      split; [reflexivity|]. split; [reflexivity|]. cbn. repeat constructor.
  - destruct (String.eqb s "b") eqn:E'; cbn in H; [|discriminate]. apply String.eqb_eq in E'. subst. right. destruct p; [|discriminate]. cbn in H. injection H as <- <-.
    split; [reflexivity|]. split; [reflexivity|]. cbn. repeat constructor.
Qed.
Lemma ex_node b p l : b = ex_i1 \/ b = ex_i2 -> at_path p b = Some (Node l) -> p = [].
Proof.
  intros Hb H. destruct p as [|s p]; [reflexivity|]. exfalso. destruct Hb as [-> | ->]; cbn in H;
  repeat match type of H with context [String.eqb ?x ?y] => destruct (String.eqb x y); cbn in H end; try discriminate; destruct p; discriminate.
Qed.
Lemma ex_none b p : b = ex_i1 \/ b = ex_i2 -> at_path p b <> Some NoneV.
Proof.
  intros Hb H. destruct p as [|s p]; [destruct Hb as [-> | ->]; discriminate|]. destruct Hb as [-> | ->]; cbn in H;
  repeat match type of H with context [String.eqb ?x ?y] => destruct (String.eqb x y); cbn in H end; try discriminate; destruct p; discriminate.
Qed.
(** Two empty infos, and one that lacks a key. *)
Example C249_ex : nonempty ex_infos <> [] /\ stack_typed ex_ty (nonempty ex_infos) /\ uniform_partial (nonempty ex_infos) /\
  (let* r := info_batch true ex_infos in Ok (at_path ["a"] r, at_path ["b"] r))
  = Ok (Some (Leaf KInt (Ar [] [n_ 0; n_ 1; n_ 0; n_ 0])), Some (Leaf KInt (Ar [2] [Ar [] [n_ 0; n_ 0]; Ar [] [n_ 3; n_ 4]; Ar [] [n_ 5; n_ 6]; Ar [] [n_ 0; n_ 0]]))).
Proof.
  assert (HI : forall b, In b (nonempty ex_infos) -> b = ex_i1 \/ b = ex_i2) by (intros b [<-|[<-|[]]]; auto).
  split; [discriminate|]. split; [|split; [|vm_compute; reflexivity]].
  - intros b Hb. apply HI in Hb. split; [|split; [|split]].
    + intros p l H. pose proof (ex_node b p l Hb H) as ->. destruct Hb as [-> | ->]; cbn in H; injection H as <-; repeat constructor; cbn; intuition discriminate.
    + intro p. now apply ex_none.
    + intros p k a H. destruct (ex_leaf b p k a Hb H) as [(-> & -> & H')|(-> & -> & H')]; auto.
    + intros p k a b' l Hb' H H'. apply HI in Hb'. pose proof (ex_node b' p l Hb' H') as ->. destruct Hb as [-> | ->]; discriminate.
  - intros p b0 b b' q H0 H1 H2 E0 E1 E2. apply HI in H0, H1, H2.
    assert (Hp : p = ["a"]).
    { destruct p as [|s p]; [destruct E0 as [E0|E0]; destruct H0 as [-> | ->]; discriminate|].
      destruct (String.eqb s "a") eqn:Ea; [apply String.eqb_eq in Ea; subst; destruct p as [|s' p]; [reflexivity|]; exfalso; apply E1; left; destruct H1 as [-> | ->]; reflexivity|].
      exfalso. destruct (String.eqb s "b") eqn:Eb.
      - apply String.eqb_eq in Eb. subst. destruct p as [|s' p].
        + destruct E0 as [E0|E0]; destruct H0 as [-> | ->]; discriminate.
        + apply E1. left. destruct H1 as [-> | ->]; reflexivity.
      - apply E1. left. destruct H1 as [-> | ->]; cbn; rewrite ?Ea, ?Eb; reflexivity. }
    subst p. assert (Hb : forall x, x = ex_i1 \/ x = ex_i2 -> ~ empty_or_missing (at_path ["a"] x) -> x = ex_i1).
    { intros x [-> | ->] Hx; [reflexivity|]. exfalso. apply Hx. left. reflexivity. }
    rewrite (Hb b H1 E1), (Hb b' H2 E2). unfold layout. destruct (at_path (["a"] ++ q) ex_i1) as [[|l|]|] eqn:E; auto.
    + split; auto.
    + apply (ex_none ex_i1 (["a"] ++ q)); auto.
Qed.
(** Stacking the infos directly loses the empty ones. *)
Example C249_ex_direct : (let* r := bstack ex_infos in blen r) = Ok 2 /\ (let* r := info_batch true ex_infos in blen r) = Ok 4.
Proof. vm_compute. auto. Qed.
Definition ex_p : list Qc := [Q2Qc (1 # 4); Q2Qc (1 # 2); Q2Qc (1 # 4)].
Example C250_ex : is_dist ex_p /\ this (cat_var ex_p) = (1 # 2)%Q /\ is_dist [0%Qc; 1%Qc] /\ this (cat_var [0%Qc; 1%Qc]) = 0%Q
  /\ map this (snd (stddev_from_dist (Batched [ex_p; [Q2Qc (1 # 2); 0%Qc; Q2Qc (1 # 2)]]))) = [(1 # 2)%Q; 1%Q].
Proof.
  split; [split; [intros x [<-|[<-|[<-|[]]]]; vm_compute; discriminate|apply Qc_is_canon; vm_compute; reflexivity]|]. split; [vm_compute; reflexivity|].
  split; [split; [intros x [<-|[<-|[]]]; vm_compute; discriminate|apply Qc_is_canon; vm_compute; reflexivity]|]. split; vm_compute; reflexivity.
Qed.
Example C251_ex : exists l f, mc_hook_call (Q2Qc (1 # 2)) [1%Qc; (1 + 1)%Qc; Q2Qc 4] = Ok (l, f) /\ map this l = [3%Q; 4%Q; 4%Q] /\ map this f = [3%Q; 3%Q; 3%Q]
  /\ mc_hook_new (Q2Qc (3 # 2)) = Err ValueError.
Proof. do 2 eexists. split; [reflexivity|]. repeat split; vm_compute; reflexivity. Qed.
Definition ex_t (d : bool) : trans nat nat unit Z := mkTrans 1 2 3%Z d false 4 tt.
Definition ex_steps : list (list Z * list (trans nat nat unit Z)) := [([1; 0]%Z, [ex_t false; ex_t true]); ([1%Z], [ex_t true])].
Example C252_ex : Forall (step_ok 2) ex_steps /\ roomy (Managed [1; 2]) /\ roomy (CachedB 2 2 1) /\ validate_buffer 2 (Managed [1; 2]) = Ok tt /\ validate_buffer 2 (CachedB 2 2 1) = Ok tt
  /\ run_adds 0%Z Z.add (fun x => x) (mkOpts 1 true false false) (CachedB 2 2 3) ex_steps = Ok tt /\ validate_buffer 2 (CachedB 2 1 1) = Err ValueError /\ validate_buffer 2 (Plain 5) = Err ValueError
  /\ run_adds 0%Z Z.add (fun x => x) (mkOpts 1 true false false) (CachedB 2 1 3) ex_steps = Err IndexError /\ step_ok 2 ([1%Z], [ex_t true]).
Proof.
  assert (H1 : step_ok 2 ([1%Z], [ex_t true])).
  { split; [reflexivity|]. split; [discriminate|]. split; [repeat constructor; cbn; tauto|]. intros i [<-|[]]. lia. }
  split.
  { apply Forall_cons; [|apply Forall_cons; [exact H1|apply Forall_nil]]. split; [reflexivity|]. split; [discriminate|]. split; [|intros i [<-|[<-|[]]]; lia].
    apply NoDup_cons; [intros [E|[]]; discriminate E|]. apply NoDup_cons; [intros []|apply NoDup_nil]. }
  split; [intros n [<-|[<-|[]]]; lia|]. split; [cbn; lia|]. do 6 (split; [vm_compute; reflexivity|]). exact H1.
Qed.
Example C253_ex : exists a b, create_collectors 3 5 2 2 (mkBset 4 true false) true = Ok (a, b) /\ co_buffer a = Managed [3; 3] /\ co_buffer b = Managed [3; 3] /\ co_opts a = mkBset 4 true false.
Proof. do 2 eexists. split; [reflexivity|]. repeat split; reflexivity. Qed.
Definition ex_policy (obs : list (list Qc)) (info : bval) (h : option nat) : res (pout nat nat unit) := Ok (mkPout obs (Some (Some 7)) (option_map S h) None).
Example C254_ex : exists c, compute_action (fun x => x) (fun x => x) (Q2Qc (1 # 8388608)) true BClip true [Q2Qc (-2)] [Q2Qc 2] ex_policy (fun a _ _ => a) (fun (s : Qc) _ => [s]) true false
    (Each [0%Qc; 1%Qc]) [0; 1] [[0%Qc]; [Q2Qc 3]] true [Node []; Node []] (Some 4) = Ok c
  /\ map (map this) (c_norm c) = [[0%Q]; [2%Q]] /\ map (map this) (c_act c) = [[0%Q]; [3%Q]] /\ c_policy c = (Some 7, Some 5) /\ c_hidden c = Some 5.
Proof. eexists. split; [reflexivity|]. repeat split; vm_compute; reflexivity. Qed.
Example C254_ex_random : exists c, compute_action (fun x => x) (fun x => x) (Q2Qc (1 # 8388608)) true BClip true [Q2Qc (-2)] [Q2Qc 2] ex_policy (fun a _ _ => a) (fun (s : Qc) _ => [s]) true true
    (Each [0%Qc; 1%Qc]) [1; 0] [] true [] None = Ok c
  /\ map (map this) (c_norm c) = [[1%Q]; [0%Q]] /\ map (map this) (c_act c) = [[(1 # 2)%Q]; [0%Q]] /\ reachable_actions (Q2Qc (1 # 8388608)) true BClip true [Q2Qc (-2)] [Q2Qc 2] (c_norm c).
Proof.
  eexists. split; [reflexivity|]. split; [vm_compute; reflexivity|]. split; [vm_compute; reflexivity|]. intros _. split; [vm_compute; reflexivity|]. split; [reflexivity|]. split; [discriminate|]. split; [discriminate|].
  split; [|split].
  - intros [|[|j]] lo hi Hl Hh; cbn in Hl, Hh; try discriminate. injection Hl as <-. injection Hh as <-. vm_compute. discriminate.
  - intros row [<-|[<-|[]]]; reflexivity.
  - intros [|[|[|i]]] [|[|j]] a lo hi Ha Hl Hh; cbn in Ha, Hl, Hh; try discriminate; injection Ha as <-; injection Hl as <-; injection Hh as <-; (split; [vm_compute; discriminate|split; [vm_compute; discriminate|discriminate]]).
Qed.
(** A policy that answers a plain dict as its entry "policy". *)
Example C254_entry_ex : compute_action (Ob := unit) (P := unit) (H := unit) (D := unit) (S := unit) (fun x => x) (fun x => x) 1%Qc true BClip false [] []
  (fun _ _ _ => Ok (mkPout [[1%Qc]] (Some None) None None)) (fun a _ _ => a) (fun _ _ => []) false false (Each [tt]) [0] tt true ex_infos None = Err RuntimeError.
Proof. vm_compute. reflexivity. Qed.
