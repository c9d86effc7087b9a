(** * Model of [Batch.split] (tianshou/data/batch.py:1208-1224).

    Rows are represented by their index; [perm] is what [np.random.permutation(length)] returned.
    The generator is run to its end; [self[indices[a:b]]] is the list [indices[a:b]]. *)
From Verif Require Export Py.
Open Scope nat_scope.

Fixpoint split_loop (fuel idx size len : nat) (merge : bool) (indices : list nat) : list (list nat) :=
  match fuel with
  | O => []
  | S f =>
      if idx <? len then
        if merge && (len <=? idx + size + size) then [skipn idx indices]
        else firstn size (skipn idx indices) :: split_loop f (idx + size) size len merge indices
      else []
  end.

Definition split (len : nat) (size : Z) (shuffle : option (list nat)) (merge_last : bool) : res (list (list nat)) :=
  let size := if (size =? -1)%Z then Z.of_nat len else size in
  if negb (1 <=? size)%Z then Err AssertionError
  else
    let sz := Z.to_nat size in
    let indices := match shuffle with Some perm => perm | None => seq 0 len end in
    let merge_last := merge_last && (0 <? len mod sz) in
    Ok (split_loop len 0 sz len merge_last indices).
