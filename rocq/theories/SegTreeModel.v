(** * Model of [tianshou/data/utils/segtree.py] (class SegmentTree).

    Simplifications: the [float64] array is a list of exact rationals; numba's compiled
    loops are modelled as the loops they are written as.  Reads and writes inside the three
    [@njit] functions are unchecked in numba: they use [nth]/[upd] here, and
    [SegTreeProofs] shows that every position used is in range.  The [_compile] warm-up
    (lines 84-92) works on throw-away arrays and is not modelled. *)
From Verif Require Export Py Num.
Open Scope nat_scope.

(** Fields of SegmentTree, segtree.py:23-25. *)
Record segtree : Type := mkST {
  st_size : nat;
  st_bound : nat;
  st_value : list Qc
}.

(** segtree.py:20-22: [bound = 1; while bound < size: bound *= 2].  The loop doubles [bound]
    at most [size] times, which is the fuel. *)
Fixpoint bound_loop (fuel size bound : nat) : nat :=
  match fuel with
  | O => bound
  | S f => if bound <? size then bound_loop f size (bound * 2) else bound
  end.

(** segtree.py:19-26 [__init__]. *)
Definition st_init (size : nat) : segtree :=
  let bound := bound_loop size size 1 in
  mkST size bound (repeat 0%Qc (bound * 2)).

(** [tree[i]] inside the njit functions (unchecked). *)
Definition tget (tree : list Qc) (i : nat) : Qc := nth i tree 0%Qc.

(** NumPy fancy assignment [tree[index] = value]: later entries overwrite earlier ones
    (segtree.py:38-45 documents this). *)
Definition assign (tree : list Qc) (index : list nat) (value : list Qc) : list Qc :=
  fold_left (fun t iv => upd t (fst iv) (snd iv)) (combine index value) tree.

(** segtree.py:99-101: [while index[0] > 1: index //= 2; tree[index] = tree[2*index] +
    tree[2*index+1]].  The right-hand side is evaluated on the old tree for the whole
    vector before the assignment.  The fuel is the number of levels left. *)
Fixpoint setitem_loop (fuel : nat) (tree : list Qc) (index : list nat) : res (list Qc) :=
  match index with
  | [] => Err IndexError            (* index[0] of an empty array *)
  | i0 :: _ =>
      if 1 <? i0 then
        match fuel with
        | O => Err OutOfFuel
        | S f =>
            let index' := map (fun i => i / 2) index in
            let rhs := map (fun i => (tget tree (i * 2) + tget tree (i * 2 + 1))%Qc) index' in
            setitem_loop f (assign tree index' rhs) index'
        end
      else Ok tree
  end.

(** segtree.py:95-101 [_setitem].  A value array of another length than the index array is a
    broadcasting error. *)
Definition setitem_ (tree : list Qc) (index : list nat) (value : list Qc) : res (list Qc) :=
  if length index =? length value
  then setitem_loop (length tree) (assign tree index value) index
  else Err ValueError.

(** segtree.py:35-51 [__setitem__] on an index array.  A scalar index is the one-element
    case (lines 47-48); a scalar value with an index array is broadcast by the caller here. *)
Definition st_setitem (s : segtree) (index : list Z) (value : list Qc) : res segtree :=
  guard (forallb (fun i => (0 <=? i)%Z) index) AssertionError
  (guard (forallb (fun i => (i <? Z.of_nat (st_size s))%Z) index) AssertionError
  (let* t := setitem_ (st_value s)
       (map (fun i => Z.to_nat (i + Z.of_nat (st_bound s))) index) value in
   Ok (mkST (st_size s) (st_bound s) t))).

(** segtree.py:31-33 [__getitem__] on an integer. *)
Definition st_getitem (s : segtree) (index : Z) : res Qc :=
  zget (st_value s) (index + Z.of_nat (st_bound s)).

(** segtree.py:104-116 [_reduce], on [Z] indices as in Python; the fuel bounds the number of
    halvings. *)
Fixpoint reduce_loop (fuel : nat) (tree : list Qc) (start end_ : Z) (result : Qc) : res Qc :=
  if (1 <? end_ - start)%Z then
    match fuel with
    | O => Err OutOfFuel
    | S f =>
        let result := if (start mod 2 =? 0)%Z
                      then (result + tget tree (Z.to_nat (start + 1)))%Qc else result in
        let start := (start / 2)%Z in
        let result := if (end_ mod 2 =? 1)%Z
                      then (result + tget tree (Z.to_nat (end_ - 1)))%Qc else result in
        let end_ := (end_ / 2)%Z in
        reduce_loop f tree start end_ result
    end
  else Ok result.

(** segtree.py:53-61 [reduce]; [end_ = None] is the Python default. *)
Definition st_reduce (s : segtree) (start : Z) (end_ : option Z) : res Qc :=
  match end_ with
  | None =>
      if (start =? 0)%Z then zget (st_value s) 1
      else reduce_loop (length (st_value s)) (st_value s)
             (start + Z.of_nat (st_bound s) - 1) (Z.of_nat (st_size s) + Z.of_nat (st_bound s)) 0%Qc
  | Some e =>
      let e := if (e <? 0)%Z then (e + Z.of_nat (st_size s))%Z else e in
      reduce_loop (length (st_value s)) (st_value s)
        (start + Z.of_nat (st_bound s) - 1) (e + Z.of_nat (st_bound s)) 0%Qc
  end.

(** segtree.py:127-132: the vectorised descent of [_get_prefix_sum_idx]; [iv] pairs the
    entries of the [index] and [value] arrays. *)
Fixpoint prefix_loop (fuel : nat) (bound : nat) (sums : list Qc) (iv : list (nat * Qc))
  : res (list (nat * Qc)) :=
  match iv with
  | [] => Err IndexError
  | (i0, _) :: _ =>
      if i0 <? bound then
        match fuel with
        | O => Err OutOfFuel
        | S f =>
            prefix_loop f bound sums
              (map (fun p => let index := fst p * 2 in
                             let value := snd p in
                             let lson := tget sums index in
                             if Qcltb lson value          (* direct = lsons < value *)
                             then (index + 1, (value - lson)%Qc)
                             else (index, value)) iv)
        end
      else Ok iv
  end.

(** segtree.py:63-82 [get_prefix_sum_idx] on a value array (a scalar is the one-element
    array, lines 78-82). *)
Definition st_prefix (s : segtree) (value : list Qc) : res (list nat) :=
  guard (forallb (fun v => Qcleb 0%Qc v) value) AssertionError
  (guard (forallb (fun v => Qcltb v (tget (st_value s) 1)) value) AssertionError
  (let* iv := prefix_loop (length (st_value s)) (st_bound s) (st_value s)
                (map (fun v => (1, v)) value) in
   Ok (map (fun p => fst p - st_bound s) iv))).

(** Operation sequences on one tree: every [__setitem__] call that succeeds takes effect, one
    that raises leaves the tree as it was (the assertions come before any write). *)
Definition st_op : Type := list Z * list Qc.
Definition st_step (s : segtree) (o : st_op) : segtree :=
  match st_setitem s (fst o) (snd o) with Ok s' => s' | Err _ => s end.
Definition st_run (size : nat) (ops : list st_op) : segtree :=
  fold_left st_step ops (st_init size).
