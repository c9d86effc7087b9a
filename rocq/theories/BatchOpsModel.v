(** * Model of arithmetic and of some smaller operations on batches ([tianshou/data/batch.py]:803-851,
    1134-1157, 1171-1207, 1268-1304, 1339-1352)

    On the data model of BatchModel.v: arrays of integers, floats (rationals and NaN) or objects.
    Boolean arrays (for which [+=] is a logical or) and numpy scalars as they are read with [b[i]]
    (which [+=] replaces instead of changing them) are not modelled; a number in a Batch is an array of
    shape ().  In-place operations return the new state and the exception, if any. *)
From Verif Require Export Py Num BatchModel.
From Coq Require Import String.
Import List BatchModel.
Open Scope string_scope.
Open Scope list_scope.
Open Scope nat_scope.

(** ** Arithmetic of arrays *)
Inductive arith := OAdd | OMul | ODiv.
(** A quotient by 0 (infinite in numpy) is represented by NaN. *)
Definition cell_op (o : arith) (c d : cell) : res cell :=
  match c, d with
  | CN x, CN y => Ok (match o with
                      | OAdd => CN (x + y)%Qc
                      | OMul => CN (x * y)%Qc
                      | ODiv => if Qc_eq_dec y 0%Qc then CNan else CN (x / y)%Qc
                      end)
  | CO _, _ | _, CO _ => Err TypeError
  | _, _ => Ok CNan
  end.
Fixpoint nzip (f : cell -> cell -> res cell) (a b : nd) {struct a} : res nd :=
  match a, b with
  | Sc c, Sc d => let* c := f c d in Ok (Sc c)
  | Ar rs l, Ar _ l' =>
      let* l := (fix go l l' := match l, l' with
                 | x :: l, y :: l' => let* x := nzip f x y in let* l := go l l' in Ok (x :: l)
                 | _, _ => Ok []
                 end) l l' in
      Ok (Ar rs l)
  | _, _ => Err ValueError
  end.
(** The kind of the result; numpy refuses to store it in an array of another kind (UFuncTypeError, a
    TypeError; storing integers in a float array is possible). *)
Definition result_kind (o : arith) (k k' : akind) : akind :=
  match o, kjoin k k' with ODiv, KInt => KFloat | _, r => r end.
(** [a += x], [a *= x], [a /= x]: the result must have the shape of [a]. *)
Definition inplace (o : arith) (k : akind) (a : nd) (k' : akind) (x : nd) : res nd :=
  if akind_eqb (result_kind o k k') k then
    if length (shape x) <=? length (shape a) then let* x := bcast (shape a) x in nzip (cell_op o) a x
    else Err ValueError
  else Err TypeError.

(** ** Batch += Batch (803-814): values are paired by position, [zip] is strict. *)
Fixpoint iadd (b v : bval) {struct b} : bval * option exn :=
  match b with
  | NoneV => (b, Some TypeError)
  | Leaf k a =>
      match v with
      | Leaf k' x => match inplace OAdd k a k' x with Ok a => (Leaf k a, None) | Err e => (b, Some e) end
      | _ => (b, Some TypeError)
      end
  | Node l =>
      match v with
      | Node lv =>
          let '(l, e) := (fix go l lv := match l, lv with
            | [], [] => ([], None)
            | [], _ :: _ => ([], Some ValueError)
            | _ :: _, [] => (l, Some ValueError)
            | (k, x) :: l, (_, w) :: lv =>
                let '(x, e) := match x with Node [] => (x, None) | _ => iadd x w end in
                match e with
                | Some e => ((k, x) :: l, Some e)
                | None => let '(l, e) := go l lv in ((k, x) :: l, e)
                end
            end) l lv in
          (Node l, e)
      | _ => (b, Some TypeError)
      end
  end.
(** Batch += number (815-821), [*=] (827-834) and [/=] (840-847); [k'] is the kind of the number. *)
Fixpoint iscale (o : arith) (k' : akind) (q : Qc) (b : bval) {struct b} : bval * option exn :=
  match b with
  | NoneV => (b, Some TypeError)
  | Leaf k a => match inplace o k a k' (Sc (CN q)) with Ok a => (Leaf k a, None) | Err e => (b, Some e) end
  | Node l =>
      let '(l, e) := (fix go l := match l with
        | [] => ([], None)
        | (k, x) :: l =>
            let '(x, e) := match x with Node [] => (x, None) | _ => iscale o k' q x end in
            match e with
            | Some e => ((k, x) :: l, Some e)
            | None => let '(l, e) := go l in ((k, x) :: l, e)
            end
        end) l in
      (Node l, e)
  end.
(** The operators that return a new batch work on a deep copy (823-825, 836-838, 849-851). *)
Definition out {X} (r : X * option exn) : res X := match r with (x, None) => Ok x | (_, Some e) => Err e end.
Definition badd (b v : bval) : res bval := out (iadd b v).
Definition bscale (o : arith) (k' : akind) (q : Qc) (b : bval) : res bval := out (iscale o k' q b).

(** ** empty_ (1134-1157); [None]: the index None, which addresses everything *)
Fixpoint empty_ (ix : option index) (b : bval) {struct b} : bval * option exn :=
  match b with
  | NoneV => (b, None)
  | Leaf k a =>
      match ix with
      | None => (Leaf k (nfull (shape a) (zero k)), None)
      | Some ix => match nset k a ix (Sc (zero k)) with Ok a => (Leaf k a, None) | Err e => (b, Some e) end
      end
  | Node l =>
      let '(l, e) := (fix go l := match l with
        | [] => ([], None)
        | (k, x) :: l =>
            let '(x, e) := empty_ ix x in
            match e with
            | Some e => ((k, x) :: l, Some e)
            | None => let '(l, e) := go l in ((k, x) :: l, e)
            end
        end) l in
      (Node l, e)
  end.

(** ** shape (1194-1206) *)
Fixpoint min_zip (l l' : list nat) : list nat :=
  match l, l' with x :: l, y :: l' => Nat.min x y :: min_zip l l' | _, _ => [] end.
Fixpoint bshape (b : bval) : list nat :=
  match b with
  | NoneV => []
  | Leaf _ a => shape a
  | Node l =>
      match (fix go l := match l with [] => [] | (_, x) :: l => bshape x :: go l end) l with
      | [] => []
      | s :: ss => fold_left min_zip ss s
      end
  end.

(** ** set_array_at_key (1268-1304); [arr] has kind [k] *)
Fixpoint put {X} (k : string) (x : X) (l : list (string * X)) : list (string * X) :=
  match l with
  | [] => [(k, x)]
  | (k', y) :: l => if String.eqb k k' then (k, x) :: l else (k', y) :: put k x l
  end.
Definition set_array_at_key (k : akind) (arr : nd) (key : string) (ix : option index) (default : cell) (l : list (string * bval))
  : list (string * bval) * option exn :=
  match ix with
  | Some ix =>
      let write l kd a := match nset kd a ix arr with Ok a => (put key (Leaf kd a) l, None) | Err e => (l, Some e) end in
      match assoc key l with
      | None =>
          match (let* n := blen (Node l) in let* c := match n with O => Ok default | _ => conv k default end in Ok (nfull [n] c)) with
          | Err e => (l, Some e)
          | Ok a => write (put key (Leaf k a) l) k a
          end
      | Some (Node _) => (l, Some ValueError)
      | Some NoneV => (l, Some TypeError)
      | Some (Leaf kd a) => write l kd a
      end
  | None =>
      match arr, blen (Node l) with
      | Sc _, _ => (l, Some TypeError)
      | Ar _ rows, Ok n => if length rows =? n then (put key (Leaf k arr) l, None) else (l, Some ValueError)
      | _, Err e => (l, Some e)
      end
  end.

(** ** replace_empty_batches_by_none (1339-1352) *)
Fixpoint replace_empty (b : bval) : bval :=
  match b with
  | Node l => Node ((fix go l := match l with
                     | [] => []
                     | (k, x) :: l => (k, match x with Node [] => NoneV | _ => replace_empty x end) :: go l
                     end) l)
  | _ => b
  end.
