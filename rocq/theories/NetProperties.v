(** * Properties C176-C192: the networks of utils/net *)
From Verif Require Import Py PyLemmas Num DqnModel StatModel NetModel NetSpec NetProofs.
Open Scope nat_scope.

(** C176. Every MLP that can be built takes rows of [input_dim] to rows of its [output_dim], and its linear layers are the
    steps of the chain input, hidden sizes, output. *)
Theorem C176_sizes : forall (Md A L : Type) (k : L) (i o : nat) (hidden : list nat) (norm : lay Md) (nargs : args A)
    (act : lay Md) (aargs : args A) (fl : bool) (m : mlp Md A L),
  mlp_init k i o hidden norm nargs act aargs fl = Ok m ->
  layers_size i (m_layers m) = Ok (m_out m) /\
  linears (m_layers m) = map (pair k) (steps (i :: hidden ++ (if o =? 0 then [] else [o]))) /\
  m_out m = last (hidden ++ (if o =? 0 then [] else [o])) i /\ m_flat m = fl.
Proof. exact C176_sizes_lemma. Qed.
Print Assumptions C176_sizes.

(** C176. An MLP can be built exactly from arguments whose lists have one entry per hidden layer; a tuple of classes is not a list. *)
Theorem C176_accepted : forall (Md A L : Type) (k : L) (i o : nat) (hidden : list nat) (norm : lay Md) (nargs : args A)
    (act : lay Md) (aargs : args A) (fl : bool),
  is_ok (mlp_init k i o hidden norm nargs act aargs fl) = true <->
  accepted norm nargs (length hidden) /\ accepted act aargs (length hidden).
Proof. exact C176_accepted_lemma. Qed.
Print Assumptions C176_accepted.

(** C177. Lists of classes with lists of arguments: layer [j] is built from the entries [j]. *)
Theorem C177_lists : forall (Md A L : Type) (k : L) (d : Md) (i o : nat) (hidden : list nat) (ms xs : list Md) (gs hs : list (option (arg1 A))) (fl : bool),
  hidden <> [] -> length ms = length hidden -> length gs = length hidden -> length xs = length hidden -> length hs = length hidden ->
  exists m, mlp_init k i o hidden (LList ms) (GList gs) (LList xs) (GList hs) fl = Ok m /\
    m_layers m = flat_map (fun j => [Linear k (nth j (i :: hidden) 0) (nth j hidden 0); Norm (nth j ms d) (nth j hidden 0) (nth j gs None);
                                     Act (nth j xs d) (nth j hs None)]) (seq 0 (length hidden))
                 ++ (if o =? 0 then [] else [Linear k (last hidden i) o]).
Proof. exact C177_lists_lemma. Qed.
Print Assumptions C177_lists.

(** C177. A single class with its arguments (or none): every hidden layer has it, with these arguments. *)
Theorem C177_single : forall (Md A L : Type) (k : L) (i o : nat) (hidden : list nat) (m x : Md) (g h : option (arg1 A)) (fl : bool),
  let given g := match g with Some a => GOne a | None => GNone end in
  exists r, mlp_init k i o hidden (LOne m) (given g) (LOne x) (given h) fl = Ok r /\
    m_layers r = flat_map (fun j => [Linear k (nth j (i :: hidden) 0) (nth j hidden 0); Norm m (nth j hidden 0) g; Act x h]) (seq 0 (length hidden))
                 ++ (if o =? 0 then [] else [Linear k (last hidden i) o]).
Proof. exact C177_single_lemma. Qed.
Print Assumptions C177_single.

(** C177. A list of arguments next to a single class is dropped without an error: the module is the one built without arguments. *)
Theorem C177_dropped_refuted : forall (Md A L : Type) (k : L) (i o : nat) (hidden : list nat) (m m' : Md) (gs hs : list (option (arg1 A))) (fl : bool),
  mlp_init k i o hidden (LOne m) (GList gs) (LOne m') (GList hs) fl = mlp_init k i o hidden (LOne m) GNone (LOne m') GNone fl /\
  is_ok (mlp_init k i o hidden (LOne m) (GList gs) (LOne m') (GList hs) fl) = true.
Proof. exact C177_dropped_refuted_lemma. Qed.
Print Assumptions C177_dropped_refuted.

(** C177. A tuple of classes, of whatever length, raises a TypeError if there is a hidden layer. *)
Theorem C177_tuple_refuted : forall (Md A L : Type) (k : L) (i o : nat) (h : nat) (hidden : list nat) (m : Md) (ms : list Md) (g g' : args A) (fl : bool),
  mlp_init k i o (h :: hidden) (LTuple (m :: ms)) g LNone g' fl = Err TypeError /\
  mlp_init k i o (h :: hidden) LNone g (LTuple (m :: ms)) g' fl = Err TypeError.
Proof. exact C177_tuple_refuted_lemma. Qed.
Print Assumptions C177_tuple_refuted.

(** C178. Dueling without atoms: the values differ as the advantages do, their mean is the state value and adding a constant to all
    advantages changes nothing; the greedy action is that of the advantages. *)
Theorem C178_dueling : forall (q : row) (v : Qc), q <> [] ->
  exists r, duel q [v] = Ok r /\ length r = length q /\ np_mean r = v /\
    (forall i j, i < length q -> j < length q -> (nth i r 0 - nth j r 0 = nth i q 0 - nth j q 0)%Qc) /\
    argmax r = argmax q /\
    (forall c, duel (map (fun x => (x + c)%Qc) q) [v] = Ok r).
Proof. exact C178_dueling_lemma. Qed.
Print Assumptions C178_dueling.

(** C178. With atoms: the mean over the actions of every atom is the value of that atom, and differences between actions are kept. *)
Theorem C178_atoms : forall (n : nat) (q : list row) (v : row), q <> [] -> wide n q -> length v = n ->
  exists r, duel_atoms n q [v] = Ok r /\ length r = length q /\ wide n r /\
    forall k, k < n -> np_mean (col k r) = nth k v 0%Qc /\
      forall i j, i < length q -> j < length q -> (nth i (col k r) 0 - nth j (col k r) 0 = nth i (col k q) 0 - nth j (col k q) 0)%Qc.
Proof. exact C178_atoms_lemma. Qed.
Print Assumptions C178_atoms.

(** C179. A [Net] that is no critic maps a batch of observations to [batch, actions] or [batch, actions, atoms], with or without dueling
    heads, whatever the arguments of its layers. *)
Theorem C179_shape : forall (Md A L : Type) (dflt k : L) (state action hidden : list nat) (norm : lay Md) (nargs : args A) (act : lay Md)
    (aargs : args A) (N : nat) (dueling : option (head Md A L * head Md A L)) (n : net Md A L)
    (e : Qc -> Qc) (sm : bool) (f : row -> row) (qv : option ((row -> row) * (row -> row))) (obs : list row),
  net_init dflt k state action hidden norm nargs act aargs false N dueling = Ok n ->
  0 < prod action -> 0 < N -> obs <> [] -> wide (n_in n) obs ->
  (forall x, length x = n_in n -> length (f x) = m_out (n_model n)) ->
  match n_qv n, qv with
  | Some (q, v), Some (fq, fv) => forall x, length x = m_out (n_model n) -> length (fq x) = m_out q /\ length (fv x) = m_out v
  | None, None => True
  | _, _ => False end ->
  n_in n = prod state /\ n_out n = prod action * N /\
  exists out, net_forward e sm N f qv obs = Ok out /\ has_shape out (length obs) (prod action) N.
Proof. exact C179_shape_lemma. Qed.
Print Assumptions C179_shape.

(** C179. With [concat] the input is the state and the action; there is no output layer, so the width is the last hidden size. *)
Theorem C179_concat : forall (Md A L : Type) (dflt k : L) (state action hidden : list nat) (norm : lay Md) (nargs : args A) (act : lay Md)
    (aargs : args A) (N : nat) (n : net Md A L),
  net_init dflt k state action hidden norm nargs act aargs true N None = Ok n ->
  n_in n = prod state + prod action * N /\ n_out n = last hidden (n_in n) /\
  linears (m_layers (n_model n)) = map (pair k) (steps (n_in n :: hidden)).
Proof. exact C179_concat_lemma. Qed.
Print Assumptions C179_concat.

(** C180. Without dueling heads every linear layer is made by [linear_layer]; so are those of a head whose dict names it. *)
Theorem C180_plain : forall (Md A L : Type) (dflt k : L) (state action hidden : list nat) (norm : lay Md) (nargs : args A) (act : lay Md)
    (aargs : args A) (c : bool) (N : nat) (dueling : option (head Md A L * head Md A L)) (n : net Md A L),
  net_init dflt k state action hidden norm nargs act aargs c N dueling = Ok n ->
  (forall x, In x (linears (m_layers (n_model n))) -> fst x = k) /\
  (n_qv n = None <-> dueling = None) /\
  (forall qh vh q v, dueling = Some (qh, vh) -> n_qv n = Some (q, v) -> h_linear qh = Some k -> h_linear vh = Some k ->
     (forall x, In x (linears (m_layers q) ++ linears (m_layers v)) -> fst x = k)).
Proof. exact C180_plain_lemma. Qed.
Print Assumptions C180_plain.

(** C180. [linear_layer] is not used in the dueling heads: all their linear layers, at least one in each, are [nn.Linear]. *)
Theorem C180_heads_refuted : forall (Md A L : Type) (dflt k : L) (state action hidden : list nat) (norm : lay Md) (nargs : args A) (act : lay Md)
    (aargs : args A) (N : nat) (qh vh : head Md A L) (n : net Md A L),
  h_linear qh = None -> h_linear vh = None -> 0 < prod action -> 0 < N ->
  net_init dflt k state action hidden norm nargs act aargs false N (Some (qh, vh)) = Ok n ->
  exists q v, n_qv n = Some (q, v) /\ linears (m_layers q) <> [] /\ linears (m_layers v) <> [] /\
    forall x, In x (linears (m_layers q) ++ linears (m_layers v)) -> fst x = dflt.
Proof. exact C180_heads_refuted_lemma. Qed.
Print Assumptions C180_heads_refuted.

(** C181. Every branch's values have the state value as their mean and differ as the branch's scores do. *)
Theorem C181_values : forall (value : row -> Qc) (branches : list (row -> row)) (common : row -> row) (obs : list row) (P : nat),
  branches <> [] -> 0 < P -> (forall b x, In b branches -> length (b x) = P) ->
  exists r, branching_forward value branches common obs = Ok r /\ length r = length obs /\
  forall i j, i < length obs -> j < length branches ->
    let o := common (nth i obs []) in let z := nth j (nth i r []) [] in let s := nth j branches (fun _ => []) o in
    length (nth i r []) = length branches /\ length z = P /\ np_mean z = value o /\
    forall a b, a < P -> b < P -> (nth a z 0 - nth b z 0 = nth a s 0 - nth b s 0)%Qc.
Proof. exact C181_values_lemma. Qed.
Print Assumptions C181_values.

(** C181. A branching network that can be built: the common part maps the flattened state to its last hidden size, the value part maps
    that to one number and each branch to the number of actions. *)
Theorem C181_sizes : forall (Md A L : Type) (dflt : L) (state common : list nat) (nb per : nat) (value action : option (list nat)) (norm act : lay Md)
    (nargs aargs : args A) (c v : mlp Md A L) (bs : list (mlp Md A L)),
  branching_init dflt state nb per (Some common) value action norm nargs act aargs = Ok (c, v, bs) ->
  let sizes := fun o : option (list nat) => match o with Some l => l | None => [] end in
  let h := last common 0 in
  common <> [] /\ length bs = nb /\
  layers_size (prod state) (m_layers c) = Ok h /\ linears (m_layers c) = map (pair dflt) (steps (prod state :: common)) /\
  layers_size h (m_layers v) = Ok 1 /\ linears (m_layers v) = map (pair dflt) (steps (h :: sizes value ++ [1])) /\
  (0 < per -> forall b, In b bs -> layers_size h (m_layers b) = Ok per /\ linears (m_layers b) = map (pair dflt) (steps (h :: sizes action ++ [per]))).
Proof. exact C181_sizes_lemma. Qed.
Print Assumptions C181_sizes.

(** C181. With its default arguments (no common hidden sizes) the constructor raises an IndexError for every state shape, also when all
    other sizes are given; and without branches (the default) the forward pass raises. *)
Theorem C181_default_refuted : forall (Md A L : Type) (dflt : L) (state : list nat) (nb per : nat) (value action : option (list nat)) (norm act : lay Md)
    (nargs aargs : args A) (common : option (list nat)),
  (common = None \/ common = Some []) ->
  is_ok (branching_init dflt state nb per common value action norm nargs act aargs) = false /\
  (norm = LNone -> act = LNone -> branching_init dflt state nb per common value action norm nargs act aargs = Err IndexError).
Proof. exact C181_default_refuted_lemma. Qed.
Print Assumptions C181_default_refuted.

(** C182. The outputs of a discrete actor with softmax are a probability distribution, ordered as the logits. *)
Theorem C182_probs : forall (Ob S F : Type) (pre : Ob -> option S -> F * option S) (e : Qc -> Qc) (lst : F -> row) (o : Ob) (s : option S),
  (forall x, 0 < e x)%Qc -> (forall x y, x < y -> e x < e y)%Qc ->
  let z := lst (fst (pre o s)) in let p := fst (disc_forward pre e lst true o s) in
  z <> [] -> length p = length z /\ qsum p = 1%Qc /\ (forall x, In x p -> (0 < x)%Qc /\ (x <= 1)%Qc) /\
  forall i j, i < length z -> j < length z -> ((nth i z 0 < nth j z 0)%Qc <-> (nth i p 0 < nth j p 0)%Qc).
Proof. exact C182_probs_lemma. Qed.
Print Assumptions C182_probs.

(** C182. The probabilities of [RandomActor] are uniform. *)
Theorem C182_uniform : forall (n batch : nat), 0 < n ->
  length (random_probs n batch) = batch /\ forall r, In r (random_probs n batch) -> length r = n /\ qsum r = 1%Qc /\ forall x y, In x r -> In y r -> x = y.
Proof. exact C182_uniform_lemma. Qed.
Print Assumptions C182_uniform.

(** C183. A network of ensemble layers computes for member [e] what the plain network with the weights [e] computes; so the members do
    not influence each other. *)
Theorem C183_members : forall (act : Qc -> Qc) (E : nat) (layers : list (list (list row * row))) (x : list row),
  layers <> [] -> (forall ws, In ws layers -> length ws = E) ->
  ens_net act layers (E2 x) = Ok (map (fun e => map (plain_net act (map (fun ws => nth e ws ([], [])) layers)) x) (seq 0 E)).
Proof. exact C183_members_lemma. Qed.
Print Assumptions C183_members.

(** C184. A batch of dict observations becomes one row per observation: the flattened entries in the order of [keys]. *)
Theorem C184_batched : forall (K : Type) (keq : K -> K -> bool) (shapes : list (K * sshape)) (keys : list K) (obs : list (K * arr))
    (sg : K -> sshape) (og : K -> arr) (B : nat),
  keys <> [] -> 0 < B ->
  (forall k, In k keys -> look keq shapes k = Ok (sg k) /\ look keq obs k = Ok (og k) /\ a_shape (og k) = B :: sdims (sg k) /\
     length (a_data (og k)) = B * prod (sdims (sg k))) ->
  exists m W, preprocess_obs keq shapes keys obs = Ok (FMat m) /\ new_state_shape keq shapes keys = Ok W /\ length m = B /\ wide W m /\
    forall b, b < B -> nth b m [] = flat_map (fun k => let w := prod (sdims (sg k)) in firstn w (skipn (b * w) (a_data (og k)))) keys.
Proof. exact C184_batched_lemma. Qed.
Print Assumptions C184_batched.

(** C184. One dict observation without a batch axis, all shapes the same tuple: the concatenation. *)
Theorem C184_single_partial : forall (K : Type) (keq : K -> K -> bool) (shapes : list (K * sshape)) (keys : list K) (obs : list (K * arr))
    (og : K -> arr) (sh : list nat),
  keys <> [] ->
  (forall k, In k keys -> look keq shapes k = Ok (STuple sh) /\ look keq obs k = Ok (og k) /\ a_shape (og k) = sh /\ length (a_data (og k)) = prod sh) ->
  exists v, preprocess_obs keq shapes keys obs = Ok (FVec v) /\ new_state_shape keq shapes keys = Ok (length v) /\ v = flat_map (fun k => a_data (og k)) keys.
Proof. exact C184_single_partial_lemma. Qed.
Print Assumptions C184_single_partial.

(** C184. One dict observation whose entries have different shapes raises a ValueError. *)
Theorem C184_ragged_refuted : forall (K : Type) (keq : K -> K -> bool) (shapes : list (K * sshape)) (k0 : K) (keys : list K) (obs : list (K * arr))
    (og : K -> arr) (k : K),
  look keq shapes k0 = Ok (STuple (a_shape (og k0))) -> (forall k, In k (k0 :: keys) -> look keq obs k = Ok (og k)) ->
  In k keys -> a_shape (og k) <> a_shape (og k0) -> preprocess_obs keq shapes (k0 :: keys) obs = Err ValueError.
Proof. exact C184_ragged_refuted_lemma. Qed.
Print Assumptions C184_ragged_refuted.

(** C184. If the shape is written as an int or a list, one observation of [n] numbers is taken for a batch of [n] observations. *)
Theorem C184_listshape_refuted : forall (K : Type) (keq : K -> K -> bool) (shapes : list (K * sshape)) (k : K) (obs : list (K * arr)) (n : nat) (a : arr),
  (look keq shapes k = Ok (SInt n) \/ look keq shapes k = Ok (SList [n])) -> look keq obs k = Ok a -> a_shape a = [n] -> length (a_data a) = n -> 0 < n ->
  exists m, preprocess_obs keq shapes [k] obs = Ok (FMat m) /\ length m = n /\ wide 1 m.
Proof. exact C184_listshape_refuted_lemma. Qed.
Print Assumptions C184_listshape_refuted.

(** C185. If the attribute is present the alternative value must agree; the attribute wins. *)
Theorem C185_present_partial : forall (a : attr) (alt : option nat) (n : nat),
  get_output_dim a alt = Ok n <-> (a = Has n /\ (alt = None \/ alt = Some n)) \/ (a = IsNone /\ alt = Some n).
Proof. exact C185_present_partial_lemma. Qed.
Print Assumptions C185_present_partial.

(** C185. The documented use of the alternative value fails: without the attribute an AttributeError is raised whatever is passed. *)
Theorem C185_missing_refuted : forall (alt : option nat), get_output_dim Missing alt = Err AttributeError.
Proof. exact C185_missing_refuted_lemma. Qed.
Print Assumptions C185_missing_refuted.

(** C186. Passing a batch of sequences in one call gives the outputs and the state that feeding the observations one by one with the
    returned states gives, from no state or from any state. *)
Theorem C186_sequences : forall (X H O Y : Type) (cell : X -> list H -> O * list H) (zero : H) (layers : nat) (out : O -> Y) (dX : X)
    (T : nat) (seqs : list (list X)) (st : rstate),
  (forall x s, length s = layers -> length (snd (cell x s)) = layers) ->
  0 < T -> wide T seqs -> match st with NoState => True | BadKeys => False | St s => length s = length seqs /\ wide layers s end ->
  exists ys s, rec_forward cell zero layers out (Seq seqs) st = Ok (ys, s) /\ length ys = length seqs /\ length s = length seqs /\ wide layers s /\
    feed cell zero layers out (map (fun t => map (fun r => nth t r dX) seqs) (seq 0 T)) st None = Ok (Some ys, St s).
Proof. exact C186_sequences_lemma. Qed.
Print Assumptions C186_sequences.

(** C186. A state without its keys is rejected. *)
Theorem C186_keys : forall (X H O Y : Type) (cell : X -> list H -> O * list H) (zero : H) (layers : nat) (out : O -> Y) (obs : robs),
  rec_forward cell zero layers out obs BadKeys = Err ValueError.
Proof. exact C186_keys_lemma. Qed.
Print Assumptions C186_keys.

(** C187. The deterministic and the discrete actor pass on the state of the preprocessing network: in a rollout the network sees in every
    step the state it returned in the step before. *)
Theorem C187_threads : forall (Ob S F : Type) (pre : Ob -> option S -> F * option S) (tanh e : Qc -> Qc) (lst : F -> row) (ma : Qc) (sm : bool)
    (os : list Ob) (s : option S),
  let states := fun k => fold_left (fun s o => snd (pre o s)) (firstn k os) s in
  snd (rollout (actor_forward pre tanh lst ma) os s) = states (length os) /\
  snd (rollout (disc_forward pre e lst sm) os s) = states (length os) /\
  (forall k o, nth_error os k = Some o ->
     nth_error (fst (rollout (actor_forward pre tanh lst ma) os s)) k = Some (map (fun y => (ma * tanh y)%Qc) (lst (fst (pre o (states k))))) /\
     nth_error (fst (rollout (disc_forward pre e lst sm) os s)) k = Some (if sm then softmax e (lst (fst (pre o (states k)))) else lst (fst (pre o (states k))))).
Proof. exact C187_threads_lemma. Qed.
Print Assumptions C187_threads.

(** C187. [ActorProb] returns the state it was given: in a rollout every action is computed from the first state, and the state after it
    is the first state. *)
Theorem C187_prob_refuted : forall (Ob S F : Type) (pre : Ob -> option S -> F * option S) (tanh e : Qc -> Qc) (mu : F -> row) (sg : sig) (ub : bool) (ma : Qc)
    (os : list Ob) (s : option S),
  rollout (prob_forward pre tanh e mu sg ub ma) os s = (map (fun o => fst (prob_forward pre tanh e mu sg ub ma o s)) os, s).
Proof. exact C187_prob_refuted_lemma. Qed.
Print Assumptions C187_prob_refuted.

(** C188. The actions of [Actor], of a bounded [ActorProb] and of the decoder lie in the range; a conditioned sigma lies between its
    limits; an unbounded [ActorProb] ignores [max_action]. *)
Theorem C188_bounded : forall (Ob S F : Type) (pre : Ob -> option S -> F * option S) (tanh e : Qc -> Qc) (lst : F -> row) (f : F -> row) (ma : Qc) (o : Ob) (s : option S),
  (0 <= ma)%Qc -> (forall x, - (1) <= tanh x /\ tanh x <= 1)%Qc -> (forall x y, x <= y -> e x <= e y)%Qc ->
  (forall a, In a (fst (actor_forward pre tanh lst ma o s)) -> (- ma <= a)%Qc /\ (a <= ma)%Qc) /\
  (forall sg a, In a (fst (fst (prob_forward pre tanh e lst sg false ma o s))) -> (- ma <= a)%Qc /\ (a <= ma)%Qc) /\
  (forall ub a, In a (snd (fst (prob_forward pre tanh e lst (SNet f) ub ma o s))) -> (e (Q2Qc (-20 # 1)) <= a)%Qc /\ (a <= e (Q2Qc (2 # 1)))%Qc) /\
  (forall sg ma', prob_forward pre tanh e lst sg true ma o s = prob_forward pre tanh e lst sg true ma' o s /\
     fst (fst (prob_forward pre tanh e lst sg true ma o s)) = lst (fst (pre o s))) /\
  (forall dec st z noise a, In a (vae_decode dec tanh ma st z noise) -> (- ma <= a)%Qc /\ (a <= ma)%Qc).
Proof. exact C188_bounded_lemma. Qed.
Print Assumptions C188_bounded.

(** C188. The perturbed action lies in the range and, if the action does, within [phi * max_action] of it. *)
Theorem C188_perturb : forall (net : row -> row) (tanh : Qc -> Qc) (phi ma : Qc) (state action : row),
  (0 <= ma)%Qc -> (0 <= phi)%Qc -> (forall x, - (1) <= tanh x /\ tanh x <= 1)%Qc -> length (net (state ++ action)) = length action ->
  exists r, perturb net tanh phi ma state action = Ok r /\ length r = length action /\
    forall i, i < length action -> (- ma <= nth i r 0)%Qc /\ (nth i r 0 <= ma)%Qc /\
      ((- ma <= nth i action 0)%Qc -> (nth i action 0 <= ma)%Qc ->
       (nth i action 0 - phi * ma <= nth i r 0)%Qc /\ (nth i r 0 <= nth i action 0 + phi * ma)%Qc).
Proof. exact C188_perturb_lemma. Qed.
Print Assumptions C188_perturb.

(** C189. A critic whose preprocessing network takes observation and action, or observation only when no action is passed, works whenever
    the sizes fit. *)
Theorem C189_fits : forall (pre lst : row -> row) (pin lin_ : nat) (obs : row) (act : option row),
  (forall x, length x = pin -> length (pre x) = lin_) ->
  (length obs + length (match act with Some a => a | None => [] end) = pin ->
     critic_forward pre lst pin lin_ false obs act = Ok (lst (pre (obs ++ match act with Some a => a | None => [] end)))) /\
  (act = None -> length obs = pin -> critic_forward pre lst pin lin_ true obs act = Ok (lst (pre obs))).
Proof. exact C189_fits_lemma. Qed.
Print Assumptions C189_fits.

(** C189. With [apply_preprocess_net_to_obs_only] a critic of observation and action cannot be evaluated: its last network is built for
    the width of the preprocessing network alone. *)
Theorem C189_obs_only_refuted : forall (pre lst : row -> row) (pin lin_ : nat) (obs act : row),
  (forall x, length x = pin -> length (pre x) = lin_) -> act <> [] ->
  critic_forward pre lst pin lin_ true obs (Some act) = Err RuntimeError.
Proof. exact C189_obs_only_refuted_lemma. Qed.
Print Assumptions C189_obs_only_refuted.

(** C190. In training a noisy layer is the plain layer plus the noise of the output times (the weighted noise of the inputs plus the bias'
    deviation); in evaluation, or with noise zero, it is the plain layer. *)
Theorem C190_noisy : forall (n : noisy) (I O : nat) (x : row),
  length (nl_mu n) = O -> length (nl_sigma n) = O -> length (nl_mub n) = O -> length (nl_sigb n) = O -> length (nl_q n) = O -> length (nl_p n) = I ->
  wide I (nl_mu n) -> wide I (nl_sigma n) -> length x = I ->
  length (noisy_forward true n x) = O /\ noisy_forward false n x = lin (nl_mu n) (nl_mub n) x /\
  forall j, j < O ->
    (nth j (noisy_forward true n x) 0 = nth j (noisy_forward false n x) 0 +
       nth j (nl_q n) 0 * (dotp (map (fun y : Qc * Qc => (fst y * snd y)%Qc) (combine (nth j (nl_sigma n) []) (nl_p n))) x + nth j (nl_sigb n) 0))%Qc.
Proof. exact C190_noisy_lemma. Qed.
Print Assumptions C190_noisy.

(** C191. Entry [b, a, n] of an implicit quantile network is the output for action [a] at fraction [n] of observation [b], and depends on
    nothing else. *)
Theorem C191_entries : forall (embed : Qc -> row) (lst : row -> row) (actions sample_size : nat) (logits taus : list row),
  length taus = length logits -> wide sample_size taus ->
  let r := iqn_forward embed lst actions sample_size logits taus in
  length r = length logits /\
  forall b a n, b < length logits -> a < actions -> n < sample_size ->
    length (nth b r []) = actions /\ length (nth a (nth b r []) []) = sample_size /\
    nth n (nth a (nth b r []) []) 0%Qc =
      nth a (lst (map (fun y : Qc * Qc => (fst y * snd y)%Qc) (combine (nth b logits []) (embed (nth n (nth b taus []) 0%Qc))))) 0%Qc.
Proof. exact C191_entries_lemma. Qed.
Print Assumptions C191_entries.

(** C192. The curiosity of a transition is non-negative, zero exactly if the forward model predicts the next features, and an action out
    of range raises. *)
Theorem C192_curiosity : forall (feat fwd inv : row -> row) (n : nat) (s1 s2 : row) (a : nat) (h : row),
  h = map (fun i => if i =? a then 1%Qc else 0%Qc) (seq 0 n) -> length (fwd (feat s1 ++ h)) = length (feat s2) ->
  (a < n -> exists l r, icm_module feat fwd inv n s1 a s2 = Ok (l, r) /\ r = inv (feat s1 ++ feat s2) /\ (0 <= l)%Qc /\ (l = 0%Qc <-> fwd (feat s1 ++ h) = feat s2)) /\
  (n <= a -> icm_module feat fwd inv n s1 a s2 = Err RuntimeError).
Proof. exact C192_curiosity_lemma. Qed.
Print Assumptions C192_curiosity.

(** C188. Without a given latent vector the VAE decodes one within [-1/2, 1/2]: the noise, as far as it is in that range. *)
Theorem C188_latent : forall (dec : row -> row) (tanh : Qc -> Qc) (ma : Qc) (state noise : row),
  exists z, vae_decode dec tanh ma state None noise = vae_decode dec tanh ma state (Some z) noise /\ length z = length noise /\
    (forall x, In x z -> (- half <= x)%Qc /\ (x <= half)%Qc) /\
    ((forall x, In x noise -> (- half <= x)%Qc /\ (x <= half)%Qc) -> z = noise).
Proof. exact C188_latent_lemma. Qed.
Print Assumptions C188_latent.

(** C192. The loss of the forward model is half the squared distance between the predicted and the actual features. *)
Theorem C192_loss : forall (feat fwd inv : row -> row) (k : nat) (s1 s2 : row) (a : nat) (l : Qc) (p : row) (h : row),
  one_hot k a = Ok h -> length (fwd (feat s1 ++ h)) = length (feat s2) ->
  icm_module feat fwd inv k s1 a s2 = Ok (l, p) ->
  (l + l = sqdist (fwd (feat s1 ++ h)) (feat s2))%Qc /\ p = inv (feat s1 ++ feat s2).
Proof. exact C192_loss_lemma. Qed.
Print Assumptions C192_loss.

Definition nz (z : Z) : Qc := Q2Qc (inject_Z z).
(** Module classes 10 (a normalisation) and 20 (an activation); linear layers of kind 0. *)
Example C176_ex : exists m, mlp_init (A := nat) 0 4 2 [8; 6] (LOne 10) GNone (LOne 20) GNone true = Ok m
  /\ m_layers m = [Linear 0 4 8; Norm 10 8 None; Act 20 None; Linear 0 8 6; Norm 10 6 None; Act 20 None; Linear 0 6 2]
  /\ layers_size 4 (m_layers m) = Ok 2 /\ layers_size 5 (m_layers m) = Err RuntimeError
  /\ mlp_init (A := nat) 0 4 2 [8; 6] (LList [10]) GNone (LOne 20) GNone true = Err AssertionError.
Proof. eexists. repeat split; vm_compute; reflexivity. Qed.
Example C177_ex : exists m, mlp_init 0 4 2 [8; 6] (LList [10; 11]) (GList [Some (AKw 1); None]) (LList [20; 21]) (GList [None; Some (APos 2)]) true = Ok m
  /\ m_layers m = [Linear 0 4 8; Norm 10 8 (Some (AKw 1)); Act 20 None; Linear 0 8 6; Norm 11 6 None; Act 21 (Some (APos 2)); Linear 0 6 2].
Proof. eexists. split; vm_compute; reflexivity. Qed.
Example C177_single_ex : exists m, mlp_init 0 4 2 [8; 6] (LOne 10) (GOne (AKw 1)) (LOne 20) GNone true = Ok m
  /\ m_layers m = [Linear 0 4 8; Norm 10 8 (Some (AKw 1)); Act 20 None; Linear 0 8 6; Norm 10 6 (Some (AKw 1)); Act 20 None; Linear 0 6 2].
Proof. eexists. split; vm_compute; reflexivity. Qed.
Example C177_dropped_ex : exists m, mlp_init 0 4 2 [8; 6] (LOne 10) (GList [Some (AKw 1); Some (AKw 2)]) LNone GNone true = Ok m
  /\ m_layers m = [Linear 0 4 8; Norm 10 8 None; Linear 0 8 6; Norm 10 6 None; Linear 0 6 2].
Proof. eexists. split; vm_compute; reflexivity. Qed.
Example C178_ex : match duel [nz 1; nz 5; nz 3] [nz 10] with Ok r => map this r = [8; 12; 10]%Q | Err _ => False end
  /\ match duel_atoms 2 [[nz 1; nz 0]; [nz 3; nz 4]] [[nz 10; nz 20]] with Ok r => map (map this) r = [[9; 18]; [11; 22]]%Q | Err _ => False end.
Proof. split; vm_compute; reflexivity. Qed.
(** Three actions, two atoms, dueling heads: input 4, features 8. *)
Definition hd0 : head nat nat nat := mkHead [] LNone GNone LNone GNone None.
Example C179_ex : exists n, net_init 0 7 [2; 2] [3] [8] LNone GNone (LOne 20) GNone false 2 (Some (hd0, hd0)) = Ok n /\ n_in n = 4 /\ n_out n = 6
  /\ m_out (n_model n) = 8
  /\ exists out, net_forward (fun _ => 1%Qc) true 2 (fun _ => repeat (nz 1) 8) (Some (fun _ => map nz [1; 2; 3; 4; 5; 6]%Z, fun _ => map nz [1; 2]%Z)) [repeat (nz 0) 4; repeat (nz 1) 4] = Ok out
     /\ has_shape out 2 3 2.
Proof.
  eexists. split; [vm_compute; reflexivity|]. split; [reflexivity|]. split; [reflexivity|]. split; [reflexivity|]. eexists. split; [vm_compute; reflexivity|].
  split; [vm_compute; lia|]. split; [reflexivity|]. intros r HI. destruct HI as [<-|[<-|[]]]; (split; [reflexivity|]); intros r HI; cbn in HI; destruct HI as [<-|[<-|[<-|[]]]]; reflexivity.
Qed.
(** The features come from layers of kind 7, the heads from kind 0. *)
Example C180_ex : exists n q v, net_init 0 7 [4] [3] [8] LNone GNone (LOne 20) GNone false 1 (Some (hd0, hd0)) = Ok n /\ n_qv n = Some (q, v)
  /\ linears (m_layers (n_model n)) = [(7, (4, 8))] /\ linears (m_layers q) = [(0, (8, 3))] /\ linears (m_layers v) = [(0, (8, 1))].
Proof. do 3 eexists. split; [vm_compute; reflexivity|]. repeat split. Qed.
Example C181_ex : match branching_forward (fun c => nth 0 c 0%Qc) [fun c => c; fun c => rev c] (fun o => o) [[nz 1; nz 5]] with
    Ok r => map (map (map this)) r = [[[-1; 3]; [3; -1]]]%Q | Err _ => False end
  /\ is_ok (branching_init (Md := nat) (A := nat) 0 [4] 2 3 (Some [8]) None None LNone GNone (LOne 20) GNone) = true.
Proof. split; vm_compute; reflexivity. Qed.
Example C181_sizes_ex : exists c v bs, branching_init (Md := nat) (A := nat) 0 [2; 2] 2 3 (Some [8; 5]) (Some [7]) None LNone GNone (LOne 20) GNone = Ok (c, v, bs)
  /\ linears (m_layers c) = [(0, (4, 8)); (0, (8, 5))] /\ linears (m_layers v) = [(0, (5, 7)); (0, (7, 1))] /\ map (fun b => linears (m_layers b)) bs = [[(0, (5, 3))]; [(0, (5, 3))]].
Proof. eexists _, _, _. repeat split; vm_compute; reflexivity. Qed.
(** A strictly increasing positive function. *)
Definition ex_exp (x : Qc) : Qc := if Qcleb 0 x then (1 + x)%Qc else (1 / (1 - x))%Qc.
Example C182_ex : (forall x, 0 < ex_exp x)%Qc /\ (forall x y, x < y -> ex_exp x < ex_exp y)%Qc
  /\ map this (fst (disc_forward (fun (o : list Qc) (s : option nat) => (o, s)) ex_exp (fun x => x) true [nz 1; nz 3; nz (-1)] None)) = [4 # 13; 8 # 13; 1 # 13]%Q.
Proof.
  assert (D : forall x, (x < 0)%Qc -> (1 / (1 - x) * (1 - x) = 1)%Qc) by (intros x H; unfold Qcdiv; rewrite <- Qcmult_assoc, (Qcmult_comm (/ (1 - x))), Qcmult_inv_r; [ring | intros E; qclra]).
  assert (P : forall x, (x < 0)%Qc -> (0 < 1 / (1 - x))%Qc) by (intros x H; apply div_pos; qclra).
  split; [|split; [|vm_compute; reflexivity]].
  - intros x. unfold ex_exp. destruct (Qcleb_spec 0 x) as [H|H]; [qclra | apply P; exact H].
  - intros x y H. unfold ex_exp. destruct (Qcleb_spec 0 x) as [H1|H1], (Qcleb_spec 0 y) as [H2|H2]; try qclra.
    + assert (A := D x H1). assert (B := P x H1). set (u := (1 / (1 - x))%Qc) in *. clearbody u. qcnra.
    + assert (A := D x H1). assert (B := P x H1). assert (A' := D y H2). assert (B' := P y H2). set (u := (1 / (1 - x))%Qc) in *. set (w := (1 / (1 - y))%Qc) in *. clearbody u w.
      apply Qcnot_le_lt. intros L. assert (C : (0 < u * w * (y - x))%Qc).
      { assert (Z : (0 < y - x)%Qc) by qclra. assert (U : (0 < u * w)%Qc) by (assert (T := Qcmult_lt_compat_r 0 u w B' B); replace (0 * w)%Qc with 0%Qc in T by ring; exact T).
        assert (T := Qcmult_lt_compat_r 0 (u * w)%Qc (y - x)%Qc Z U). replace (0 * (y - x))%Qc with 0%Qc in T by ring. exact T. }
      assert (E : (u * w * (y - x) = w * (u * (1 - x)) - u * (w * (1 - y)))%Qc) by ring. rewrite A, A' in E. qclra.
Qed.
Example C183_ex : match ens_net (fun x => if Qcleb 0 x then x else 0%Qc) [[([[nz 1]; [nz (-1)]], [nz 0; nz 0]); ([[nz 2]; [nz 0]], [nz 1; nz 1])]; [([[nz 1; nz 1]], [nz 0]); ([[nz 1; nz 2]], [nz 0])]] (E2 [[nz 3]; [nz (-4)]]) with
  Ok r => map (map (map this)) r = [[[3]; [4]]; [[9]; [2]]]%Q | Err _ => False end.
Proof. vm_compute. reflexivity. Qed.
(** Keys 0 and 1; a batch of two. *)
Example C184_ex : preprocess_obs Nat.eqb [(0, STuple [2]); (1, SInt 1)] [1; 0] [(0, mkA [2; 2] [nz 1; nz 2; nz 3; nz 4]); (1, mkA [2; 1] [nz 5; nz 6])]
    = Ok (FMat [[nz 5; nz 1; nz 2]; [nz 6; nz 3; nz 4]])
  /\ new_state_shape Nat.eqb [(0, STuple [2]); (1, SInt 1)] [1; 0] = Ok 3
  /\ preprocess_obs Nat.eqb [(0, STuple [2]); (1, STuple [2])] [1; 0] [(0, mkA [2] [nz 1; nz 2]); (1, mkA [2] [nz 5; nz 6])] = Ok (FVec [nz 5; nz 6; nz 1; nz 2])
  /\ preprocess_obs Nat.eqb [(0, STuple [2]); (1, STuple [1])] [0; 1] [(0, mkA [2] [nz 1; nz 2]); (1, mkA [1] [nz 5])] = Err ValueError
  /\ preprocess_obs Nat.eqb [(0, SInt 2)] [0] [(0, mkA [2] [nz 1; nz 2])] = Ok (FMat [[nz 1]; [nz 2]]).
Proof. repeat split; vm_compute; reflexivity. Qed.
Example C185_ex : get_output_dim (Has 3) (Some 3) = Ok 3 /\ get_output_dim (Has 3) (Some 4) = Err ValueError /\ get_output_dim IsNone (Some 4) = Ok 4.
Proof. repeat split. Qed.
(** Two layers that count and sum. *)
Definition ex_cell (x : nat) (s : list nat) : nat * list nat := match s with [a; b] => (a + b + x, [a + x; S b]) | _ => (0, s) end.
Example C186_ex : rec_forward ex_cell 0 2 (fun y => y) (Seq [[1; 2; 3]; [4; 5; 6]]) NoState = Ok ([8; 17], [[6; 3]; [15; 3]])
  /\ feed ex_cell 0 2 (fun y => y) [[1; 4]; [2; 5]; [3; 6]] NoState None = Ok (Some [8; 17], St [[6; 3]; [15; 3]])
  /\ forall x s, length s = 2 -> length (snd (ex_cell x s)) = 2.
Proof. split; [vm_compute; reflexivity|]. split; [vm_compute; reflexivity|]. intros x [|a [|b [|]]] H; try discriminate. reflexivity. Qed.
(** A preprocessing network that counts its steps: the deterministic actor sees the count, the other one does not. *)
Definition ex_pre (o : Qc) (s : option nat) : list Qc * option nat := ([o; nz (Z.of_nat (match s with Some k => k | None => 0 end))], Some (S (match s with Some k => k | None => 0 end))).
Example C187_ex : map (map this) (fst (rollout (actor_forward ex_pre (fun x => x) (fun x => x) 1%Qc) [nz 5; nz 5; nz 5] None)) = [[5; 0]; [5; 1]; [5; 2]]%Q
  /\ map (fun r => map this (fst r)) (fst (rollout (prob_forward ex_pre (fun x => x) (fun x => x) (fun x => x) (SParam [0%Qc; 0%Qc]) false 1%Qc) [nz 5; nz 5; nz 5] None)) = [[5; 0]; [5; 0]; [5; 0]]%Q
  /\ snd (rollout (prob_forward ex_pre (fun x => x) (fun x => x) (fun x => x) (SParam [0%Qc; 0%Qc]) false 1%Qc) [nz 5; nz 5; nz 5] None) = None.
Proof. repeat split; vm_compute; reflexivity. Qed.
(** The clamp to [-1, 1] stands for tanh. *)
Example C188_ex : (forall x, - (1) <= clampq (- (1)) 1 x /\ clampq (- (1)) 1 x <= 1)%Qc
  /\ match perturb (fun x => firstn 2 x) (clampq (- (1))%Qc 1%Qc) (Q2Qc (1 # 10)) (nz 2) [nz 7; nz (-7)] [nz 2; nz 1] with Ok r => map this r = [2; 4 # 5]%Q | Err _ => False end
  /\ map this (vae_decode (fun x => x) (clampq (- (1))%Qc 1%Qc) (nz 2) [nz 7] None [nz (-7)]) = [2; -1]%Q.
Proof. split; [intros x; apply clampq_in; discriminate|]. split; vm_compute; reflexivity. Qed.
(** Observations of width 2, features of width 3, actions of width 1. *)
Example C189_ex : critic_forward (fun x => firstn 3 (x ++ repeat (nz 1) 3)) (fun x => [qsum x]) 3 3 false [nz 1; nz 2] (Some [nz 4]) = Ok [nz 7]
  /\ critic_forward (fun x => firstn 3 (x ++ repeat (nz 1) 3)) (fun x => [qsum x]) 2 3 true [nz 1; nz 2] None = Ok [nz 4]
  /\ critic_forward (fun x => firstn 3 (x ++ repeat (nz 1) 3)) (fun x => [qsum x]) 2 3 true [nz 1; nz 2] (Some [nz 4]) = Err RuntimeError.
Proof. repeat split; vm_compute; reflexivity. Qed.
Example C190_ex : let n := mkNL [[nz 1; nz 2]] [[nz 1; nz 1]] [nz 3] [nz 1] [nz 1; nz (-2)] [nz 5] in
  map this (noisy_forward true n [nz 4; nz 1]) = [24]%Q /\ map this (noisy_forward false n [nz 4; nz 1]) = [9]%Q.
Proof. split; vm_compute; reflexivity. Qed.
Example C191_ex : map (map (map this)) (iqn_forward (fun t => [t; t]) (fun x => x) 2 3 [[nz 1; nz 2]; [nz 3; nz 4]] [[nz 1; nz 2; nz 3]; [nz 4; nz 5; nz 6]])
  = [[[1; 2; 3]; [2; 4; 6]]; [[12; 15; 18]; [16; 20; 24]]]%Q.
Proof. vm_compute. reflexivity. Qed.
Example C192_ex : match icm_module (fun s => s) (fun x => firstn 2 x) (fun x => x) 3 [nz 1; nz 2] 1 [nz 1; nz 4] with Ok (l, r) => this l = 2%Q /\ length r = 4 | Err _ => False end
  /\ icm_module (fun s => s) (fun x => firstn 2 x) (fun x => x) 3 [nz 1; nz 2] 3 [nz 1; nz 4] = Err RuntimeError.
Proof. split; [split|]; vm_compute; reflexivity. Qed.
