(** * Model of the networks of utils/net/{common, continuous, discrete}.py

    The layers of [nn] are names with their sizes where the construction is modelled, and arbitrary functions of one row
    where values are modelled (so batch normalisation is outside the model). Devices and dtypes are left out; floats are
    exact rationals and dimensions are natural numbers. *)
From Verif Require Export Py Num DqnModel StatModel OfflineModel QuantModel.
Open Scope nat_scope.

(** ** Construction of an MLP *)
Section Layers.
(** [Md]: classes of modules; [A]: arguments of constructors; [L]: kinds of linear layers. *)
Context {Md A L : Type}.

(** The arguments [norm_layer] and [activation]: None, a class, a list of classes or a tuple of classes. *)
Inductive lay := LNone | LOne (m : Md) | LList (l : list Md) | LTuple (l : list Md).
(** Arguments of one constructor: a tuple or a dict. *)
Inductive arg1 := APos (a : A) | AKw (a : A).
(** The arguments [norm_args] and [act_args]. *)
Inductive args := GNone | GOne (a : arg1) | GList (l : list (option arg1)).
(** What is called in [miniblock]: a class, or a tuple, which cannot be called. *)
Inductive ctor := Cls (m : Md) | NotCallable.
Inductive layer := Linear (k : L) (i o : nat) | Norm (m : Md) (o : nat) (a : option arg1) | Act (m : Md) (a : option arg1).

Definition call (c : ctor) (f : Md -> layer) : res layer := match c with Cls m => Ok (f m) | NotCallable => Err TypeError end.
(** common.py:21-46 [miniblock]. *)
Definition miniblock (i o : nat) (norm : option ctor) (nargs : option arg1) (act : option ctor) (aargs : option arg1) (k : L) : res (list layer) :=
  let* n := match norm with None => Ok [] | Some c => let* l := call c (fun m => Norm m o nargs) in Ok [l] end in
  let* a := match act with None => Ok [] | Some c => let* l := call c (fun m => Act m aargs) in Ok [l] end in
  Ok ([Linear k i o] ++ n ++ a).

Definition truthy (l : lay) : bool :=
  match l with LNone => false | LOne _ => true | LList l => negb (length l =? 0) | LTuple l => negb (length l =? 0) end.
(** What [miniblock] makes of an argument that is passed to every layer: a list is neither a tuple nor a dict. *)
Definition whole (g : args) : option arg1 := match g with GOne a => Some a | _ => None end.
(** common.py:89-118: the two lists made of a layer argument and its constructor arguments; [n] hidden layers. *)
Definition expand (l : lay) (g : args) (n : nat) : res (list (option ctor) * list (option arg1)) :=
  if truthy l then
    match l with
    | LList ms =>
        guard (length ms =? n) AssertionError
          (match g with
           | GList gs => guard (length gs =? n) AssertionError (Ok (map (fun m => Some (Cls m)) ms, gs))
           | _ => Ok (map (fun m => Some (Cls m)) ms, repeat (whole g) n) end)
    | LOne m => Ok (repeat (Some (Cls m)) n, repeat (whole g) n)
    | _ => Ok (repeat (Some NotCallable) n, repeat (whole g) n) end
  else Ok (repeat None n, repeat None n).

Record mlp := mkMlp { m_layers : list layer; m_out : nat; m_flat : bool }.
(** common.py:119-130: the loop over the hidden layers. *)
Fixpoint blocks (k : L) (i : nat) (hidden : list nat) (norms : list (option ctor * option arg1)) (acts : list (option ctor * option arg1))
  : res (list layer) :=
  match hidden, norms, acts with
  | [], [], [] => Ok []
  | o :: hidden, (n, na) :: norms, (a, aa) :: acts =>
      let* b := miniblock i o n na a aa k in
      let* r := blocks k o hidden norms acts in
      Ok (b ++ r)
  | _, _, _ => Err ValueError
  end.
(** common.py:74-135 [MLP.__init__]. *)
Definition mlp_init (k : L) (input_dim output_dim : nat) (hidden : list nat) (norm : lay) (nargs : args) (act : lay) (aargs : args)
  (flatten : bool) : res mlp :=
  let* ns := expand norm nargs (length hidden) in
  let* xs := expand act aargs (length hidden) in
  let* body := blocks k input_dim hidden (combine (fst ns) (snd ns)) (combine (fst xs) (snd xs)) in
  let lst := last hidden input_dim in
  Ok (mkMlp (body ++ (if 0 <? output_dim then [Linear k lst output_dim] else [])) (if output_dim =? 0 then lst else output_dim) flatten).

(** ** [Net] *)
(** A shape: an int or a sequence of ints; [int(np.prod(shape))]. *)
Definition prod (shape : list nat) : nat := fold_right Nat.mul 1 shape.
(** One of the two dicts in [dueling_param]; [input_dim], [output_dim] and [device] are overwritten. *)
Record head := mkHead { h_hidden : list nat; h_norm : lay; h_nargs : args; h_act : lay; h_aargs : args; h_linear : option L }.
Record net := mkNet { n_model : mlp; n_qv : option (mlp * mlp); n_out : nat; n_in : nat }.
(** common.py:206-261 [Net.__init__]; [dflt] is [nn.Linear]. *)
Definition head_init (dflt : L) (h : head) (i o : nat) : res mlp :=
  mlp_init (match h_linear h with Some k => k | None => dflt end) i o (h_hidden h) (h_norm h) (h_nargs h) (h_act h) (h_aargs h) true.
Definition net_init (dflt k : L) (state_shape action_shape hidden : list nat) (norm : lay) (nargs : args) (act : lay) (aargs : args)
  (concat : bool) (num_atoms : nat) (dueling : option (head * head)) : res net :=
  let action_dim := prod action_shape * num_atoms in
  let input_dim := prod state_shape + (if concat then action_dim else 0) in
  let use_dueling := match dueling with Some _ => true | None => false end in
  let output_dim := if negb use_dueling && negb concat then action_dim else 0 in
  let* m := mlp_init k input_dim output_dim hidden norm nargs act aargs true in
  match dueling with
  | Some (qh, vh) =>
      let* q := head_init dflt qh (m_out m) (if concat then 0 else action_dim) in
      let* v := head_init dflt vh (m_out m) (if concat then 0 else num_atoms) in
      Ok (mkNet m (Some (q, v)) (m_out q) input_dim)
  | None => Ok (mkNet m None (m_out m) input_dim)
  end.

(** The sizes through a list of layers: [Err RuntimeError] if a layer gets a row of another length than it expects. *)
Definition layer_size (d : nat) (l : layer) : res nat :=
  match l with
  | Linear _ i o => guard (i =? d) RuntimeError (Ok o)
  | Norm _ o _ => guard (o =? d) RuntimeError (Ok d)
  | Act _ _ => Ok d end.
Definition layers_size (d : nat) (l : list layer) : res nat := foldM layer_size l d.

(** ** [BranchingNet] *)
(** common.py:483-548 [BranchingNet.__init__]; a missing list of sizes is the empty list. *)
Definition branching_init (dflt : L) (state_shape : list nat) (num_branches per_branch : nat) (common value action : option (list nat))
  (norm : lay) (nargs : args) (act : lay) (aargs : args) : res (mlp * mlp * list mlp) :=
  let get := fun o : option (list nat) => match o with Some l => l | None => [] end in
  let* c := mlp_init dflt (prod state_shape) 0 (get common) norm nargs act aargs true in
  let* h := match rev (get common) with x :: _ => Ok x | [] => Err IndexError end in
  let* v := mlp_init dflt h 1 (get value) norm nargs act aargs true in
  let* b := mapM (fun _ => mlp_init dflt h per_branch (get action) norm nargs act aargs true) (seq 0 num_branches) in
  Ok (c, v, b).
End Layers.
Arguments lay : clear implicits. Arguments args : clear implicits. Arguments arg1 : clear implicits. Arguments layer : clear implicits.
Arguments ctor : clear implicits. Arguments mlp : clear implicits. Arguments net : clear implicits. Arguments head : clear implicits.

(** ** Values *)
Notation row := (list Qc).
(** Elementwise operation with broadcasting of a length of one. *)
Definition bcast (f : Qc -> Qc -> Qc) (a b : row) : res row :=
  if length a =? length b then Ok (map (fun x : Qc * Qc => f (fst x) (snd x)) (combine a b))
  else if length b =? 1 then Ok (map (fun x => f x (nth 0 b 0%Qc)) a)
  else if length a =? 1 then Ok (map (fun y => f (nth 0 a 0%Qc) y) b)
  else Err RuntimeError.
(** [q - q.mean(dim=1, keepdim=True) + v] for one row without atoms. *)
Definition duel (q v : row) : res row := bcast Qcplus (map (fun x => (x - np_mean q)%Qc) q) v.
(** [x.view(batch_size, -1, n)] for one row: groups of [n]. *)
Fixpoint groups (fuel n : nat) (l : row) : list row :=
  match fuel with 0 => [] | S fuel => match l with [] => [] | _ => firstn n l :: groups fuel n (skipn n l) end end.
Definition view_row (n : nat) (l : row) : res (list row) := guard (length l mod n =? 0) RuntimeError (Ok (groups (length l) n l)).
(** The column [k] of a matrix. *)
Definition col (k : nat) (m : list row) : row := map (fun r => nth k r 0%Qc) m.
(** The same with atoms: the mean over the actions of every atom; [v] is a matrix as well. *)
Definition duel_atoms (n : nat) (q v : list row) : res (list row) :=
  let* a := Ok (map (fun r => map (fun k => (nth k r 0 - np_mean (col k q))%Qc) (seq 0 n)) q) in
  if length a =? length v then Ok (map (fun x : row * row => map (fun y : Qc * Qc => (fst y + snd y)%Qc) (combine (fst x) (snd x))) (combine a v))
  else if length v =? 1 then Ok (map (fun r => map (fun y : Qc * Qc => (fst y + snd y)%Qc) (combine r (nth 0 v []))) a)
  else if length a =? 1 then Ok (map (fun r => map (fun y : Qc * Qc => (fst y + snd y)%Qc) (combine (nth 0 a []) r)) v)
  else Err RuntimeError.

(** [torch.softmax] over the last axis; [e] stands for the exponential function. *)
Definition softmax (e : Qc -> Qc) (l : row) : row := map (fun x => (e x / qsum (map e l))%Qc) l.

Inductive tens := T2 (m : list row) | T3 (m : list (list row)).
(** common.py:263-289 [Net.forward]; [f], [q], [v] are the networks. *)
Definition net_forward (e : Qc -> Qc) (sm : bool) (num_atoms : nat) (f : row -> row) (qv : option ((row -> row) * (row -> row)))
  (obs : list row) : res tens :=
  let logits := map f obs in
  let view := fun m : list row => guard (negb (length m =? 0)) RuntimeError (mapM (view_row num_atoms) m) in
  let* out :=
    match qv with
    | Some (fq, fv) =>
        let q := map fq logits in let v := map fv logits in
        if 1 <? num_atoms then
          let* q := view q in let* v := view v in
          let* r := mapM (fun x : list row * list row => duel_atoms num_atoms (fst x) (snd x)) (combine q v) in Ok (T3 r)
        else let* r := mapM (fun x : row * row => duel (fst x) (snd x)) (combine q v) in Ok (T2 r)
    | None => if 1 <? num_atoms then let* r := view logits in Ok (T3 r) else Ok (T2 logits)
    end in
  Ok (if sm then match out with T2 m => T2 (map (softmax e) m) | T3 m => T3 (map (map (softmax e)) m) end else out).

(** common.py:550-566 [BranchingNet.forward], for one row: the value and the scores of the branches. *)
Definition branching_forward (value : row -> Qc) (branches : list (row -> row)) (common : row -> row) (obs : list row) : res (list (list row)) :=
  guard (negb (length branches =? 0)) RuntimeError
    (Ok (map (fun o => let c := common o in
                       map (fun b : row -> row => map (fun x => (value c + (x - np_mean (b c)))%Qc) (b c)) branches) obs)).

(** ** [EnsembleLinear]: common.py:418-450 *)
Definition dotp (a b : row) : Qc := qsum (map (fun x : Qc * Qc => (fst x * snd x)%Qc) (combine a b)).
(** A linear layer: for every output its weights, and its bias. *)
Definition lin (w : list row) (b : row) (x : row) : row := map (fun wb : row * Qc => (dotp (fst wb) x + snd wb)%Qc) (combine w b).
(** The input: one matrix for all members, or one per member. *)
Inductive ens := E2 (x : list row) | E3 (x : list (list row)).
Definition ens_linear (ws : list (list row * row)) (inp : ens) : res (list (list row)) :=
  match inp with
  | E2 x => Ok (map (fun wb : list row * row => map (lin (fst wb) (snd wb)) x) ws)
  | E3 xs =>
      if length xs =? length ws then Ok (map (fun p : list row * row * list row => map (lin (fst (fst p)) (snd (fst p))) (snd p)) (combine ws xs))
      else if length xs =? 1 then Ok (map (fun wb : list row * row => map (lin (fst wb) (snd wb)) (nth 0 xs [])) ws)
      else if length ws =? 1 then Ok (map (fun x => match ws with wb :: _ => map (lin (fst wb) (snd wb)) x | [] => [] end) xs)
      else Err RuntimeError
  end.
(** A stack of such layers with an activation after each but the last. *)
Fixpoint ens_net (act : Qc -> Qc) (layers : list (list (list row * row))) (inp : ens) : res (list (list row)) :=
  match layers with
  | [] => match inp with E3 x => Ok x | E2 x => Ok [x] end
  | [ws] => ens_linear ws inp
  | ws :: layers => let* h := ens_linear ws inp in ens_net act layers (E3 (map (map (map act)) h))
  end.

(** ** Observations that are dicts: common.py:569-613 *)
(** A state shape as the user writes it. *)
Inductive sshape := SInt (n : nat) | STuple (l : list nat) | SList (l : list nat).
Definition sdims (s : sshape) : list nat := match s with SInt n => [n] | STuple l | SList l => l end.
(** An array: its shape and its entries in order. *)
Record arr := mkA { a_shape : list nat; a_data : row }.
Fixpoint nat_eqb_list (a b : list nat) : bool :=
  match a, b with [], [] => true | x :: a, y :: b => (x =? y) && nat_eqb_list a b | _, _ => false end.
(** [original_shape[k] == obs[k].shape]: only a tuple can be equal to a shape. *)
Definition same_shape (s : sshape) (sh : list nat) : bool := match s with STuple l => nat_eqb_list l sh | _ => false end.
(** [a.reshape(bsz, -1)]: the rows. *)
Fixpoint chunk (n w : nat) (l : row) : list row := match n with 0 => [] | S n => firstn w l :: chunk n w (skipn w l) end.
Definition reshape2 (bsz : nat) (a : arr) : res (list row) :=
  let n := length (a_data a) in
  guard (negb (bsz =? 0)) ValueError (guard (n mod bsz =? 0) ValueError (Ok (chunk bsz (n / bsz) (a_data a)))).
Section Dict.
Context {K : Type}.
Variable keq : K -> K -> bool.
Fixpoint look {V} (d : list (K * V)) (k : K) : res V :=
  match d with [] => Err KeyError | (k', v) :: d => if keq k k' then Ok v else look d k end.
Definition new_state_shape (shapes : list (K * sshape)) (keys : list K) : res nat :=
  let* l := mapM (look shapes) keys in Ok (fold_right Nat.add 0 (map (fun s => prod (sdims s)) l)).
(** common.py:592-603 [preprocess_obs] for a dict (or a Batch with the first key); no batch axis in the result is [None]. *)
Inductive flatobs := FVec (v : row) | FMat (m : list row).
Definition hcat (ms : list (list row)) : res (list row) :=
  match ms with
  | [] => Err RuntimeError
  | m :: rest =>
      foldM (fun acc x => guard (length acc =? length x) RuntimeError (Ok (map (fun p : row * row => fst p ++ snd p) (combine acc x)))) rest m
  end.
Definition preprocess_obs (shapes : list (K * sshape)) (keys : list K) (obs : list (K * arr)) : res flatobs :=
  match keys with
  | [] => Err IndexError
  | k0 :: _ =>
      let* s0 := look shapes k0 in
      let* o0 := look obs k0 in
      if same_shape s0 (a_shape o0) then
        let* l := mapM (look obs) keys in
        guard (forallb (fun a => nat_eqb_list (a_shape a) (a_shape o0)) l) ValueError (Ok (FVec (concat (map a_data l))))
      else
        match a_shape o0 with
        | [] => Err IndexError
        | bsz :: _ =>
            let* l := mapM (look obs) keys in
            let* ms := mapM (reshape2 bsz) l in
            let* m := hcat ms in Ok (FMat m)
        end
  end.
End Dict.

(** ** [get_output_dim]: common.py:691-725 *)
(** The attribute: missing, None, or a number. *)
Inductive attr := Missing | IsNone | Has (n : nat).
Definition get_output_dim (a : attr) (alt : option nat) : res nat :=
  match a with
  | Missing => Err AttributeError
  | Has v => match alt with Some w => if v =? w then Ok v else Err ValueError | None => Ok v end
  | IsNone => match alt with Some w => Ok w | None => Err ValueError end
  end.

(** ** Recurrent networks: common.py:292-374, continuous.py:264-349 *)
Section Rec.
(** [X]: an input row, [H]: hidden and cell vector of one layer and one row, [O]: output of the LSTM, [Y]: of the network. *)
Context {X H O Y : Type}.
(** One time step of the LSTM for one row: states of the layers. *)
Variable cell : X -> list H -> O * list H.
Variable zero : H.
Variable layers : nat.
Variable out : O -> Y.
(** The state tensors of PyTorch are [layers, bsz, ...]; [transpose(0, 1)]. [w] is the size of the second axis. *)
Definition transpose (w : nat) (m : list (list H)) : list (list H) := map (fun j => map (fun r => nth j r zero) m) (seq 0 w).
Fixpoint run_row (xs : list X) (s : list H) : list O * list H :=
  match xs with
  | [] => ([], s)
  | x :: xs => let '(o, s) := cell x s in let '(os, s) := run_row xs s in (o :: os, s) end.
(** [nn.LSTM(batch_first=True)]: [obs] is [bsz, len]; the state is [layers, bsz]. *)
Definition lstm (obs : list (list X)) (st : option (list (list H))) : res (list (list O) * list (list H)) :=
  let bsz := length obs in
  guard (forallb (fun r => negb (length r =? 0)) obs) RuntimeError
    (let* s := match st with
               | None => Ok (repeat (repeat zero bsz) layers)
               | Some s => guard ((length s =? layers) && forallb (fun r => length r =? bsz) s) RuntimeError (Ok s) end in
     let rs := map (fun p : list X * list H => run_row (fst p) (snd p)) (combine obs (transpose bsz s)) in
     Ok (map fst rs, transpose layers (map snd rs))).
(** The observations: [bsz, dim] or [bsz, len, dim]. *)
Inductive robs := One (x : list X) | Seq (x : list (list X)).
(** The state: absent, without one of the keys, or [bsz, layers]. *)
Inductive rstate := NoState | BadKeys | St (s : list (list H)).
Definition rec_forward (obs : robs) (st : rstate) : res (list Y * list (list H)) :=
  let* s := match st with NoState => Ok None | BadKeys => Err ValueError | St s => Ok (Some (transpose layers s)) end in
  let x := match obs with One x => map (fun r => [r]) x | Seq x => x end in
  let* r := lstm x s in
  let* ys := mapM (fun os => match rev os with o :: _ => Ok (out o) | [] => Err IndexError end) (fst r) in
  Ok (ys, transpose (length x) (snd r)).
End Rec.

(** ** Actors on top of a preprocessing network: continuous.py:24-261, discrete.py:13-82 *)
Section Actors.
(** [S]: hidden states; the preprocessing network returns features and a new state. *)
Context {Ob S F : Type}.
Variable pre : Ob -> option S -> F * option S.
Variable tanh : Qc -> Qc.
Variable exp : Qc -> Qc.
(** continuous.py:71-86 [Actor.forward]. *)
Definition actor_forward (last : F -> row) (max_action : Qc) (o : Ob) (s : option S) : row * option S :=
  let '(x, h) := pre o s in (map (fun y => (max_action * tanh y)%Qc) (last x), h).
Definition sigma_min : Qc := Q2Qc (-20 # 1).
Definition sigma_max : Qc := Q2Qc (2 # 1).
(** Conditioned on the input or a parameter. *)
Inductive sig := SNet (f : F -> row) | SParam (p : row).
(** continuous.py:215-217: [max_action] is dropped if the actor is unbounded; [np.isclose] is equality. *)
Definition prob_max (unbounded : bool) (max_action : Qc) : Qc := if unbounded then 1%Qc else max_action.
(** continuous.py:242-261 [ActorProb.forward]. *)
Definition prob_forward (mu : F -> row) (sg : sig) (unbounded : bool) (max_action : Qc) (o : Ob) (s : option S) : (row * row) * option S :=
  let '(x, h) := pre o s in
  let m := if unbounded then mu x else map (fun y => (prob_max unbounded max_action * tanh y)%Qc) (mu x) in
  let sd := match sg with SNet f => map (fun y => exp (clampq sigma_min sigma_max y)) (f x) | SParam p => map (fun y => exp (y + 0)%Qc) p end in
  ((m, sd), s).
(** discrete.py:61-82 [Actor.forward]. *)
Definition disc_forward (last : F -> row) (sm : bool) (o : Ob) (s : option S) : row * option S :=
  let '(x, h) := pre o s in ((if sm then softmax exp (last x) else last x), h).
(** A rollout of one environment: every step passes the state returned by the last one. *)
Fixpoint rollout {R} (f : Ob -> option S -> R * option S) (os : list Ob) (s : option S) : list R * option S :=
  match os with
  | [] => ([], s)
  | o :: os => let '(r, s) := f o s in let '(rs, s) := rollout f os s in (r :: rs, s) end.
End Actors.

(** ** [Critic]: continuous.py:154-178. One row; [dim] is the width that the last network expects. *)
Definition critic_forward (pre last : row -> row) (pre_in last_in : nat) (obs_only : bool) (obs : row) (act : option row) : res row :=
  let net := fun (f : row -> row) (n : nat) (x : row) => guard (length x =? n) RuntimeError (Ok (f x)) in
  let* x := if obs_only then net pre pre_in obs else Ok obs in
  let x := match act with Some a => x ++ a | None => x end in
  let* x := if obs_only then Ok x else net pre pre_in x in
  net last last_in x.

(** ** BCQ's networks: continuous.py:410-529 *)
Definition perturb (net : row -> row) (tanh : Qc -> Qc) (phi max_action : Qc) (state action : row) : res row :=
  let* s := bcast Qcplus (map (fun y => (phi * max_action * tanh y)%Qc) (net (state ++ action))) action in
  Ok (map (clampq (- max_action) max_action) s).
Definition vae_decode (dec : row -> row) (tanh : Qc -> Qc) (max_action : Qc) (state : row) (latent : option row) (noise : row) : row :=
  let z := match latent with Some z => z | None => map (clampq (- half) half) noise end in
  map (fun y => (max_action * tanh y)%Qc) (dec (state ++ z)).

(** ** [NoisyLinear]: discrete.py:321-378; the noise is what [sample] drew last *)
Record noisy := mkNL { nl_mu : list row; nl_sigma : list row; nl_mub : row; nl_sigb : row; nl_p : row; nl_q : row }.
Definition noisy_forward (training : bool) (n : noisy) (x : row) : row :=
  if training then
    lin (map (fun r : (row * row) * Qc => map (fun y : (Qc * Qc) * Qc => (fst (fst y) + snd (fst y) * (snd r * snd y))%Qc) (combine (combine (fst (fst r)) (snd (fst r))) (nl_p n)))
             (combine (combine (nl_mu n) (nl_sigma n)) (nl_q n)))
        (map (fun y : (Qc * Qc) * Qc => (fst (fst y) + snd (fst y) * snd y)%Qc) (combine (combine (nl_mub n) (nl_sigb n)) (nl_q n))) x
  else lin (nl_mu n) (nl_mub n) x.

(** ** Quantile networks: discrete.py:124-216 *)
(** discrete.py:199-215 [ImplicitQuantileNetwork.forward] after the draw of [taus]; [embed] is the embedding of one fraction. *)
Definition iqn_forward (embed : Qc -> row) (last : row -> row) (actions sample_size : nat) (logits : list row) (taus : list row) : list (list row) :=
  let emb := flat_map (fun p : row * row => map (fun t => map (fun y : Qc * Qc => (fst y * snd y)%Qc) (combine (fst p) (embed t))) (snd p)) (combine logits taus) in
  let outs := map last emb in
  map (fun b => map (fun a => map (fun n => nth a (nth (b * sample_size + n) outs []) 0%Qc) (seq 0 sample_size)) (seq 0 actions)) (seq 0 (length logits)).

(** ** [RandomActor]: common.py:637-688, discrete actions *)
Definition random_probs (n batch : nat) : list row := repeat (repeat (1 / qn n * 1)%Qc n) batch.

(** ** [IntrinsicCuriosityModule.forward]: discrete.py:418-435, one row *)
Definition one_hot (n a : nat) : res row := guard (a <? n) RuntimeError (Ok (map (fun i => if i =? a then 1%Qc else 0%Qc) (seq 0 n))).
Definition icm_module (feat fwd inv : row -> row) (action_dim : nat) (s1 : row) (act : nat) (s2 : row) : res (Qc * row) :=
  let phi1 := feat s1 in let phi2 := feat s2 in
  let* h := one_hot action_dim act in
  let* d := bcast Qcminus (fwd (phi1 ++ h)) phi2 in
  Ok ((half * qsum (map (fun x => x * x) d))%Qc, inv (phi1 ++ phi2)).
