(** * Vocabulary for statements about experiments *)
From Verif Require Export ExperModel TrainSpec.
Open Scope Z_scope.

(** [k] is a / b rounded up. *)
Definition is_ceil (a b k : Z) : Prop := b * (k - 1) < a <= b * k.
(** The configuration sets exactly one of two options. *)
Definition exactly_one {A B} (a : option A) (b : option B) : Prop :=
  (exists x, a = Some x /\ b = None) \/ (exists y, a = None /\ b = Some y).
(** [x] comes before [y] in [l]. *)
Definition before {A} (x y : A) (l : list A) : Prop := exists a b c, l = a ++ x :: b ++ y :: c.
(** Events that leave something on disk. *)
Definition writes (e : xevent) : bool :=
  match e with XMakeDir _ | XLogFile _ | XPickle _ | XLogger _ | XFinalize => true | _ => false end.
(** What was live when an operation satisfying [sel] was last made. *)
Fixpoint last_at {P E D : Type} (sel : @pop P E D -> bool) (cur : live) (seen : option live) (ops : list pop) : option live :=
  match ops with
  | [] => seen
  | Change l :: ops => last_at sel l seen ops
  | o :: ops => last_at sel cur (if sel o then Some cur else seen) ops
  end.
Definition is_best_save {P E D : Type} (o : @pop P E D) : bool := match o with SaveBest => true | _ => false end.
Definition is_any_save {P E D : Type} (o : @pop P E D) : bool := match o with Change _ => false | _ => true end.
Definition is_checkpoint {P E D : Type} (e : Z) (o : @pop P E D) : bool := match o with SaveCheckpoint e' => e' =? e | _ => false end.
(** All states of the run have the same items, whose files are not those of the policy. *)
Definition items_ok {P E D : Type} (m : pmode) (names : list string) (cur : @live P E D) (ops : list (@pop P E D)) : Prop :=
  NoDup names /\ ~ In (filename m) names /\ (forall e, ~ In (checkpoint_name m e) names) /\
  map fst (l_items cur) = names /\ forall l, In (Change l) ops -> map fst (l_items l) = names.
(** The outcomes that are successful, in order. *)
Fixpoint successes {R : Type} (l : list (res R)) : list R :=
  match l with [] => [] | Ok r :: l => r :: successes l | Err _ :: l => successes l end.
(** Two lists of seeds have a common one. *)
Definition share (a b : list Z) : Prop := exists s, In s a /\ In s b.
