(** * What slicing distributions and comparing batches are meant to do *)
From Verif Require Import Py Num BatchModel BatchSpec ViewModel.
Open Scope nat_scope.

(** The numbers along the last axis sum to one. *)
Fixpoint stochastic (bs : list nat) (p : nd) : Prop :=
  match bs, p with
  | [], Ar _ l => qsum (map qof l) = 1%Qc
  | _ :: bs, Ar _ l => Forall (stochastic bs) l
  | _, Sc _ => False end.
(** A distribution over a batch of shape [bs]. *)
Fixpoint wf (bs : list nat) (d : dist) : Prop :=
  match d with
  | Cat p => exists c, typed KFloat (bs ++ [c]) p /\ stochastic bs p /\ (forall q, cell_at q p <> Some CNan)
  | Norm l s => typed KFloat bs l /\ typed KFloat bs s
  | Indep d k => exists es, length es = k /\ wf (bs ++ es) d
  | OtherDist _ _ => False end.
(** The parameters of a distribution by position: first the index in the batch, then within one element. [which]: location or scale. *)
Fixpoint par (which : bool) (d : dist) (q : list nat) : option cell :=
  match d with
  | Cat p => cell_at q p
  | Norm l s => cell_at q (if which then l else s)
  | Indep d _ => par which d q
  | OtherDist _ _ => None end.
Fixpoint same_class (d d' : dist) : Prop :=
  match d, d' with
  | Cat _, Cat _ | Norm _ _, Norm _ _ => True
  | Indep d k, Indep d' k' => k = k' /\ same_class d d'
  | _, _ => False end.
Definition scalar_index (ix : index) : bool := match ix with IInt _ => true | _ => false end.
Definition new_shape (ix : index) (bs : list nat) (ps : list nat) : list nat := if scalar_index ix then bs else length ps :: bs.
(** The position in the original of a position in the slice. *)
Definition source (ix : index) (ps : list nat) (q : list nat) : option (list nat) :=
  if scalar_index ix then option_map (fun p => p :: q) (nth_error ps 0)
  else match q with [] => None | j :: q => option_map (fun p => p :: q) (nth_error ps j) end.

(** No axis of the batch is taken for an axis of the event. *)
Fixpoint no_event (d : dist) : Prop := match d with Indep d k => k = 0 /\ no_event d | OtherDist _ _ => False | _ => True end.

(** The value reached by following keys. *)
Fixpoint vat (p : list string) (v : bv) : option bv :=
  match p with
  | [] => Some v
  | k :: p =>
      match v with
      | VNode l => match find (fun kx => String.eqb k (fst kx)) l with Some kx => vat p (snd kx) | None => None end
      | _ => None end
  end.
Definition vdistinct (v : bv) : Prop := forall p l, vat p v = Some (VNode l) -> NoDup (map fst l).
(** What the comparison looks at: an array with at least one axis, a distribution or a dict. *)
Inductive content := AnArray (k : akind) (a : nd) | ADist (axes : nat) (d : dist) | ADict.
Definition one_axis (a : nd) : nd := match a with Sc c => Ar [] [Sc c] | Ar rs l => Ar rs l end.
Definition looked_at (v : bv) : content :=
  match v with
  | VArr KObj (Ar _ []) => ADict
  | VArr k a => AnArray k (one_axis a)
  | VTen KObj (Ar _ []) => ADict
  | VTen k a => AnArray k (one_axis a)
  | VDist d => ADist 1 d
  | VBoxed 0 d => ADist 1 d
  | VBoxed n d => ADist n d
  | VNone => AnArray KObj (Ar [] [Sc (CO None)])
  | VNode _ => ADict end.
Definition agree (same : akind -> nd -> akind -> nd -> bool) (samed : dist -> dist -> bool) (o o' : option bv) : Prop :=
  match option_map looked_at o, option_map looked_at o' with
  | None, None => True
  | Some (AnArray k a), Some (AnArray k' a') => same k a k' a' = true
  | Some (ADist n d), Some (ADist n' d') => n = n' /\ samed d d' = true
  | Some ADict, Some ADict => True
  | _, _ => False end.
