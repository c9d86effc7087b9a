(** * Shared vocabulary: Python results, exceptions as values, NumPy-style indexing.

    No tianshou code is modelled here; the definitions describe the Python/NumPy
    primitives that the modelled functions use. *)
From Coq Require Export List Arith ZArith Lia Bool.
Export ListNotations.

(** Exceptions raised by the modelled functions, as values.  [OutOfFuel] is not a Python
    exception: it marks a loop that was cut off by the model's fuel. *)
Inductive exn : Type :=
| ValueError | IndexError | KeyError | TypeError | AttributeError | AssertionError
| RuntimeError | NotImplementedError | MalformedBufferError | ZeroDivisionError
| StopIteration | OutOfFuel.

Inductive res (A : Type) : Type :=
| Ok (a : A)
| Err (e : exn).
Arguments Ok {A} a.
Arguments Err {A} e.

Definition bind {A B : Type} (x : res A) (f : A -> res B) : res B :=
  match x with Ok a => f a | Err e => Err e end.

Notation "'let*' x ':=' e 'in' k" := (bind e (fun x => k))
  (at level 200, x pattern, e at level 100, k at level 200).

(** [assert b; k]. *)
Definition guard {A : Type} (b : bool) (e : exn) (k : res A) : res A :=
  if b then k else Err e.

Definition is_ok {A : Type} (x : res A) : bool :=
  match x with Ok _ => true | Err _ => false end.

(** ** Lists used as arrays *)

(** [upd l i x]: [l] with position [i] replaced; no effect out of range. *)
Fixpoint upd {A : Type} (l : list A) (i : nat) (x : A) : list A :=
  match l, i with
  | [], _ => []
  | _ :: t, O => x :: t
  | h :: t, S j => h :: upd t j x
  end.

(** Python/NumPy index normalisation: [i] in [-n, n), else [IndexError]. *)
Definition norm_index (n : nat) (i : Z) : res nat :=
  if (0 <=? i)%Z && (i <? Z.of_nat n)%Z then Ok (Z.to_nat i)
  else if (- Z.of_nat n <=? i)%Z && (i <? 0)%Z then Ok (Z.to_nat (i + Z.of_nat n))
  else Err IndexError.

(** [l[i]] for a Python integer [i]. *)
Definition zget {A : Type} (l : list A) (i : Z) : res A :=
  let* k := norm_index (length l) i in
  match nth_error l k with Some a => Ok a | None => Err IndexError end.

(** [l[i] = x] for a Python integer [i]. *)
Definition zset {A : Type} (l : list A) (i : Z) (x : A) : res (list A) :=
  let* k := norm_index (length l) i in Ok (upd l k x).

(** Sequence a list of computations, left to right (a Python comprehension/loop). *)
Fixpoint mapM {A B : Type} (f : A -> res B) (l : list A) : res (list B) :=
  match l with
  | [] => Ok []
  | a :: t => let* b := f a in let* bs := mapM f t in Ok (b :: bs)
  end.

(** A Python [for] loop over a list threading a state. *)
Fixpoint foldM {S A : Type} (f : S -> A -> res S) (l : list A) (s : S) : res S :=
  match l with
  | [] => Ok s
  | a :: t => let* s' := f s a in foldM f t s'
  end.

(** [np.arange(a, b)] on naturals. *)
Definition arange (a b : nat) : list nat := seq a (b - a).

(** The last [k] elements of a list. *)
Definition lastn {A : Type} (k : nat) (l : list A) : list A := skipn (length l - k) l.
