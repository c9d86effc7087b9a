(** * Model of small parts of [tianshou/policy/base.py] and [tianshou/utils/torch_utils.py]. *)
From Verif Require Export Py Num.
Open Scope nat_scope.

(** ** Action mapping (base.py:367-428)

    An action array is a list of rows; the Box bounds are one value per column.  [np.tanh],
    its inverse and [np.finfo(np.float32).eps] are parameters; arithmetic is exact.  Arrays
    whose row length differs from the bounds' are not modelled (ValueError). *)
Inductive bound_method : Type := BClip | BTanh | BNone.

Section MapAction.
Variable tanh atanh : Qc -> Qc.
Variable eps : Qc.

Definition clip1 (a : Qc) : Qc := Qcmaxb (-(1))%Qc (Qcminb 1%Qc a).
Definition bound1 (m : bound_method) (a : Qc) : Qc :=
  match m with BClip => clip1 a | BTanh => tanh a | BNone => a end.
Definition scale1 (lo hi a : Qc) : Qc := (lo + (hi - lo) * (a + 1) / (1 + 1))%Qc.

Fixpoint map2r {A B C : Type} (f : A -> B -> C) (l : list A) (m : list B) : res (list C) :=
  match l, m with
  | [], [] => Ok []
  | a :: l, b :: m => let* r := map2r f l m in Ok (f a b :: r)
  | _, _ => Err ValueError
  end.

(** base.py:388-400. *)
Definition map_action (is_box : bool) (m : bound_method) (scaling : bool) (low high : list Qc)
    (act : list (list Qc)) : res (list (list Qc)) :=
  if negb is_box then Ok act
  else
    let act := map (map (bound1 m)) act in
    if scaling then
      if (length (concat act) =? 0)%nat then Err ValueError (* np.min of an empty array *)
      else if negb (forallb (forallb (fun a => Qcleb (-(1))%Qc a && Qcleb a 1%Qc)) act) then Err AssertionError
      else mapM (fun row => let* lh := map2r pair low high in
                            map2r (fun l a => scale1 (fst l) (snd l) a) lh row) act
    else Ok act.

(** base.py:417-428.  [scale[scale < eps] += eps]. *)
Definition inv1 (lo hi a : Qc) : Qc :=
  let scale := (hi - lo)%Qc in
  let scale := if Qcltb scale eps then (scale + eps)%Qc else scale in
  ((a - lo) * (1 + 1) / scale - 1)%Qc.
Definition map_action_inverse (is_box : bool) (m : bound_method) (scaling : bool) (low high : list Qc)
    (act : list (list Qc)) : res (list (list Qc)) :=
  if negb is_box then Ok act
  else
    let* act := if scaling
                then mapM (fun row => let* lh := map2r pair low high in
                                      map2r (fun l a => inv1 (fst l) (snd l) a) lh row) act
                else Ok act in
    Ok (match m with BTanh => map (map atanh) act | _ => act end).
End MapAction.

(** ** soft_update (base.py:287-290): parameters as flat lists, in order; [zip(strict=True)]
    raises after the common prefix was updated. *)
Fixpoint soft_update (tau : Qc) (tgt src : list (list Qc)) : list (list Qc) * option exn :=
  match tgt, src with
  | [], [] => ([], None)
  | t :: tgt', s :: src' =>
      let '(r, e) := soft_update tau tgt' src' in
      (map (fun ts => tau * snd ts + (1 - tau) * fst ts)%Qc (combine t s) :: r, e)
  | _, _ => (tgt, Some ValueError)
  end.

(** ** Context managers (torch_utils.py:13-42)

    A module is its [training] flag and its children; [train] is [nn.Module.train].  A block is
    a function of the state that returns the new state and possibly an exception. *)
Inductive module_ : Type := Mod (training : bool) (children : list module_).
Definition training (m : module_) : bool := match m with Mod b _ => b end.
Fixpoint train (mode : bool) (m : module_) : module_ :=
  match m with Mod _ ch => Mod mode (map (train mode) ch) end.

Record pstate (X : Type) : Type := mkP { p_mod : module_; p_within : bool; p_updating : bool; p_ext : X }.
Arguments mkP {X}. Arguments p_mod {X}. Arguments p_within {X}. Arguments p_updating {X}. Arguments p_ext {X}.
Definition set_mod {X} (s : pstate X) (m : module_) := mkP m (p_within s) (p_updating s) (p_ext s).
Definition set_within {X} (s : pstate X) (b : bool) := mkP (p_mod s) b (p_updating s) (p_ext s).
Definition set_updating {X} (s : pstate X) (b : bool) := mkP (p_mod s) (p_within s) b (p_ext s).

Definition blk (X T : Type) : Type := pstate X -> pstate X * res T.
Definition with_train_mode {X T} (enabled : bool) (body : blk X T) : blk X T := fun s =>
  let original := training (p_mod s) in
  let '(s', r) := body (set_mod s (train enabled (p_mod s))) in
  (set_mod s' (train original (p_mod s')), r).
Definition within_training_step {X T} (enabled : bool) (body : blk X T) : blk X T := fun s =>
  let original := p_within s in
  let '(s', r) := body (set_within s enabled) in
  (set_within s' original, r).

(** ** BasePolicy.update (base.py:506-553)

    The callbacks are arbitrary blocks; the events record the calls and their arguments. *)
Inductive event (B : Type) : Type :=
| ESample (sample_size : option Z)
| EProcess (b : B) (indices : list nat)
| ELearn (b : B) (train_mode : bool)
| EPost (b : B) (indices : list nat)
| ESched.
Arguments ESample {B}. Arguments EProcess {B}. Arguments ELearn {B}. Arguments EPost {B}. Arguments ESched {B}.

Section Update.
Context {X B St : Type}.
Variable sample : option Z -> blk X (B * list nat).
Variable process_fn : B -> list nat -> blk X B.
Variable learn : B -> blk X St.
Variable post_process_fn : B -> list nat -> blk X unit.
Variable lr_step : blk X unit.

(** [empty_stats]: [TrainingStats()] (returned when there is no buffer). *)
Definition p_update (sample_size : option Z) (has_buffer has_sched : bool) (s : pstate X)
  : pstate X * res (option St) * list (event B) :=
  if negb (p_within s) then (s, Err RuntimeError, [])
  else if negb has_buffer then (s, Ok None, [])
  else
    let '(s, r) := sample sample_size s in
    match r with
    | Err e => (s, Err e, [ESample sample_size])
    | Ok (b, indices) =>
        let s := set_updating s true in
        let '(s, r) := process_fn b indices s in
        match r with
        | Err e => (s, Err e, [ESample sample_size; EProcess b indices])
        | Ok b' =>
            let mode := training (train true (p_mod s)) in
            let '(s, r) := with_train_mode true (learn b') s in
            match r with
            | Err e => (s, Err e, [ESample sample_size; EProcess b indices; ELearn b' mode])
            | Ok stat =>
                let ev := [ESample sample_size; EProcess b indices; ELearn b' mode; EPost b' indices] in
                let '(s, r) := post_process_fn b' indices s in
                match r with
                | Err e => (s, Err e, ev)
                | Ok _ =>
                    if has_sched then
                      let '(s, r) := lr_step s in
                      match r with
                      | Err e => (s, Err e, ev ++ [ESched])
                      | Ok _ => (set_updating s false, Ok (Some stat), ev ++ [ESched])
                      end
                    else (set_updating s false, Ok (Some stat), ev)
                end
            end
        end
    end.
End Update.
