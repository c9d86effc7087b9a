(** * Property C18: minibatches *)
From Verif Require Import Py SplitModel SplitProofs.
From Coq Require Import Permutation.
Open Scope nat_scope.

(** C18.  With [perm] a permutation of the row numbers (or without shuffling), [split] visits
    the rows in the order of [perm], each in exactly one minibatch; all minibatches but the last
    have length [size]. *)
Theorem C18_split : forall len (size : nat) shuffle merge_last,
  1 <= size -> (forall perm, shuffle = Some perm -> Permutation perm (seq 0 len)) ->
  exists cs, split len (Z.of_nat size) shuffle merge_last = Ok cs
    /\ Permutation (concat cs) (seq 0 len)
    /\ concat cs = match shuffle with Some perm => perm | None => seq 0 len end
    /\ (len = 0 -> cs = [])
    /\ (0 < len -> exists init c, cs = init ++ [c] /\ Forall (fun c => length c = size) init
          /\ (merge_last = false -> 1 <= length c <= size)
          /\ (merge_last = true -> size <= len -> size <= length c < 2 * size)
          /\ (len < size -> cs = [c])).
Proof. exact C18_split_lemma. Qed.
Print Assumptions C18_split.

(** C18.  [size = -1] yields the whole batch as one minibatch; a size below one (other than -1)
    is rejected, and so is -1 on an empty batch. *)
Theorem C18_sizes : forall len (size : Z) shuffle merge_last,
  (0 < len -> (forall perm, shuffle = Some perm -> length perm = len) ->
     split len (-1) shuffle merge_last = Ok [match shuffle with Some perm => perm | None => seq 0 len end])
  /\ ((size < 1)%Z -> size <> (-1)%Z \/ len = 0 -> split len size shuffle merge_last = Err AssertionError).
Proof. exact C18_sizes_lemma. Qed.
Print Assumptions C18_sizes.

Example C18_ex_hyp : 1 <= 3 /\ (forall perm, Some [4; 0; 6; 2; 1; 5; 3] = Some perm -> Permutation perm (seq 0 7)).
Proof.
  split; [lia|]. intros perm E. injection E as <-. apply Permutation_sym, NoDup_Permutation_bis.
  - apply seq_NoDup.
  - cbn; lia.
  - intros x Hx. cbn in Hx |- *. intuition.
Qed.
Example C18_ex_merge : split 7 3 (Some [4; 0; 6; 2; 1; 5; 3]) true = Ok [[4; 0; 6]; [2; 1; 5; 3]]
  /\ split 7 3 None false = Ok [[0; 1; 2]; [3; 4; 5]; [6]] /\ split 6 3 None true = Ok [[0; 1; 2]; [3; 4; 5]]
  /\ split 5 (-1) None true = Ok [[0; 1; 2; 3; 4]] /\ split 2 3 None true = Ok [[0; 1]]
  /\ split 0 (-1) None true = Err AssertionError.
Proof. repeat split; vm_compute; reflexivity. Qed.
