(** * Model of small functions: choice of episodes in data/buffer/her.py, [create_uniform_action_dist] in utils/torch_utils.py, the
      optimizer factories of highlevel/optim.py and the learning step of policy/modelbased/icm.py

    Floats are exact rationals. *)
From Coq Require Import String.
From Verif Require Export Py Num DqnModel.
Open Scope nat_scope.
Open Scope list_scope.

(** ** Which episodes are relabelled *)
(** her.py:43. *)
Definition future_p (future_k : Qc) : res Qc := if Qceqb future_k 0 then Err ZeroDivisionError else Ok (1 - 1 / future_k)%Qc.
(** [int(x)] truncates towards zero. *)
Definition int_of (x : Qc) : Z := Z.quot (Qnum (this x)) (Zpos (Qden (this x))).
(** her.py:139-143 for [length perm] episodes: np.random.choice without replacement takes the first [size] of a random permutation [perm]
    of their numbers; ValueError for a negative size and for more than there are. *)
Definition her_episodes (p : Qc) (perm : list nat) : res (list nat) :=
  let size := int_of (qn (length perm) * p) in
  if (size <? 0)%Z then Err ValueError
  else if (Z.of_nat (length perm) <? size)%Z then Err ValueError
  else Ok (firstn (Z.to_nat size) perm).

(** ** create_uniform_action_dist (torch_utils.py:58-77) *)
(** [None] is the infinite bound. *)
Inductive aspace : Type :=
| ABox (shape : list nat) (low high : list (option Qc))      (* flattened bounds *)
| ADiscrete (n : nat) (start : Z)
| AOther.
(** torch.distributions.Uniform and Categorical, by rows. *)
Inductive adist : Type :=
| DUniform (low high : list (list (option Qc)))
| DCategorical (weights : list (list Qc)).
Definition blt (l h : option Qc) : bool := match l, h with Some l, Some h => Qcltb l h | _, _ => true end.
(** [x.unsqueeze(0).repeat(batch_size, 1)]: RuntimeError for a tensor of more than two axes.  The array of a Box without axes has no
    rows to make a FloatTensor of; TypeError here, which no theorem uses.  Uniform checks low < high (ValueError); Categorical checks
    that there is an entry (of ones all are fine). *)
Definition create_uniform_action_dist (s : aspace) (batch_size : nat) : res adist :=
  match s with
  | ABox [_] low high =>
      if forallb (fun lh => blt (fst lh) (snd lh)) (combine low high) || (batch_size =? 0)
      then Ok (DUniform (repeat low batch_size) (repeat high batch_size)) else Err ValueError
  | ABox [] _ _ => Err TypeError
  | ABox _ _ _ => Err RuntimeError
  | ADiscrete n _ => Ok (DCategorical (repeat (repeat 1%Qc n) batch_size))
  | AOther => Err ValueError
  end.
(** torch's Uniform.rsample: [low + rand * (high - low)]; with an infinite bound infinite or NaN, [None] here. *)
Definition uniform_sample (l h : option Qc) (u : Qc) : option Qc :=
  match l, h with Some l, Some h => Some (l + u * (h - l))%Qc | _, _ => None end.
(** The probability of index [i] under Categorical: the weights divided by their sum. *)
Definition cat_prob (w : list Qc) (i : nat) : Qc := (nth i w 0%Qc / fold_right Qcplus 0%Qc w)%Qc.

(** ** Optimizer factories (highlevel/optim.py) *)
Inductive oval : Type := ONum (q : Qc) | OPair (a b : Qc) | OBool (b : bool).
Inductive oclass : Type := CAdam | CRMSprop | COther (name : string).
Inductive ofactory : Type :=
| FTorch (c : oclass) (kwargs : list (string * oval))                                   (* optim.py:31-43 *)
| FAdam (betas : Qc * Qc) (eps weight_decay : Qc)                                       (* optim.py:46-67 *)
| FRMSprop (alpha eps weight_decay momentum : Qc) (centered : bool).                    (* optim.py:70-93 *)
Open Scope string_scope.
(** The call of the optimizer's class: the parameters and the keyword arguments. *)
Record ocall (P : Type) : Type := mkCall { oc_class : oclass; oc_params : list P; oc_kwargs : list (string * oval) }.
Arguments mkCall {P}. Arguments oc_class {P}. Arguments oc_params {P}. Arguments oc_kwargs {P}.
(** [create_optimizer_for_params]; a second [lr] or [params] among the keyword arguments: TypeError. *)
Definition create_for_params {P : Type} (f : ofactory) (params : list P) (lr : Qc) : res (ocall P) :=
  match f with
  | FTorch c kwargs =>
      if existsb (fun x => String.eqb (fst x) "lr" || String.eqb (fst x) "params") kwargs then Err TypeError
      else Ok (mkCall c params (("lr", ONum lr) :: kwargs))
  | FAdam betas eps wd => Ok (mkCall CAdam params [("lr", ONum lr); ("betas", OPair (fst betas) (snd betas)); ("eps", ONum eps); ("weight_decay", ONum wd)])
  | FRMSprop alpha eps wd mom cent =>
      Ok (mkCall CRMSprop params [("lr", ONum lr); ("alpha", ONum alpha); ("eps", ONum eps); ("weight_decay", ONum wd); ("momentum", ONum mom); ("centered", OBool cent)])
  end.
(** optim.py:18-23: a module is its parameters. *)
Definition create_optimizer {P : Type} (f : ofactory) (module : list P) (lr : Qc) : res (ocall P) := create_for_params f module lr.
(** Defaults of OptimizerFactoryAdam (optim.py:49-54). *)
Definition adam_default : ofactory := FAdam (Q2Qc (9 # 10), Q2Qc (999 # 1000)) (Q2Qc (1 # 100000000)) 0%Qc.
(** The builder's setting: experiment.py:564-590 [with_optim_factory], [with_optim_factory_default] with each argument given or left
    at its default; 638-643 [_get_optim_factory]. *)
Inductive osetting : Type := WFactory (f : ofactory) | WDefault (betas : option (Qc * Qc)) (eps weight_decay : option Qc).
Definition odefault {X : Type} (d : X) (o : option X) : X := match o with Some x => x | None => d end.
Definition apply_setting (s : osetting) : ofactory :=
  match s with
  | WFactory f => f
  | WDefault b e w => FAdam (odefault (Q2Qc (9 # 10), Q2Qc (999 # 1000)) b) (odefault (Q2Qc (1 # 100000000)) e) (odefault 0%Qc w)
  end.
Definition get_optim_factory (settings : list osetting) : ofactory :=
  match fold_left (fun _ s => Some (apply_setting s)) settings None with None => adam_default | Some f => f end.

(** ** ICMPolicy.learn (icm.py:153-176) *)
Section Icm.
Context {Logits Batch Arg Stats : Type}.
Variable cross_entropy : Logits -> nat -> Qc.                   (* of a row *)
Variable inner_learn : Batch -> list (string * Arg) -> res Stats.
Definition mean (l : list Qc) : Qc := (fold_right Qcplus 0%Qc l / qn (List.length l))%Qc.
(** [inverse_loss], [forward_loss] and [loss] of act_hat, act and mse_loss. *)
Definition icm_losses (w lr_scale : Qc) (act_hat : list Logits) (act : list nat) (mse : list Qc) : Qc * Qc * Qc :=
  let inverse_loss := mean (map (fun x => cross_entropy (fst x) (snd x)) (combine act_hat act)) in
  let forward_loss := mean mse in
  (inverse_loss, forward_loss, (((1 - w) * inverse_loss + w * forward_loss) * lr_scale)%Qc).
(** The inner policy learns first; positional arguments [args] are not passed on.  Returns the inner statistics, and loss, forward loss
    and inverse loss as reported. *)
Definition icm_learn (w lr_scale : Qc) (b : Batch) (args : list Arg) (kwargs : list (string * Arg)) (act_hat : list Logits) (act : list nat) (mse : list Qc)
  : res (Stats * (Qc * Qc * Qc)) :=
  let* st := inner_learn b kwargs in
  let '(inv, fwd, loss) := icm_losses w lr_scale act_hat act mse in
  Ok (st, (loss, fwd, inv)).
End Icm.
