(** * Proofs about [Batch.split] *)
From Verif Require Import Py PyLemmas SplitModel.
From Coq Require Import Permutation.
Open Scope nat_scope.

Lemma skipn_add {A} n k (l : list A) : skipn n (skipn k l) = skipn (k + n) l.
Proof. revert l; induction k as [|k IH]; intros l; [reflexivity|]. destruct l; [destruct n; reflexivity|apply IH]. Qed.

Lemma split_loop_spec size len merge indices : 1 <= size -> length indices = len ->
  (merge = true -> 0 < len mod size) ->
  forall fuel idx k, idx = k * size -> len < idx + fuel + 1 ->
  let cs := split_loop fuel idx size len merge indices in
  concat cs = skipn idx indices
  /\ (idx < len -> exists init c, cs = init ++ [c] /\ Forall (fun c => length c = size) init
       /\ (merge = false -> 1 <= length c <= size)
       /\ (merge = true -> size <= len - idx -> size <= length c < 2 * size)
       /\ (len - idx < size -> init = []))
  /\ (len <= idx -> cs = []).
Proof.
  intros Hs Hl Hm. induction fuel as [|f IH]; intros idx k Hidx Hf; cbn [split_loop].
  - rewrite skipn_all2 by lia. split; [reflexivity|]. split; [lia|reflexivity].
  - destruct (Nat.ltb_spec idx len) as [H|H].
    2:{ rewrite skipn_all2 by lia. split; [reflexivity|]. split; [lia|reflexivity]. }
    destruct (merge && (len <=? idx + size + size)) eqn:Em.
    + apply andb_true_iff in Em as [E1 E2]. apply Nat.leb_le in E2. cbn [concat]. rewrite app_nil_r.
      split; [reflexivity|]. split; [|lia]. intros _. exists [], (skipn idx indices). split; [reflexivity|].
      split; [constructor|]. rewrite skipn_length, Hl. split; [congruence|]. split; [|reflexivity].
      intros _ Hge. specialize (Hm E1). split; [exact Hge|].
      destruct (Nat.eq_dec (len - idx) (2 * size)) as [E|E]; [|lia].
      exfalso. assert (len = (k + 2) * size) by lia. rewrite H0, Nat.mod_mul in Hm by lia. lia.
    + destruct (IH (idx + size) (S k) ltac:(lia) ltac:(lia)) as (I1 & I2 & I3). cbn [concat].
      split.
      { rewrite I1, <- skipn_add. apply firstn_skipn. }
      split; [|lia]. intros _.
      destruct (Nat.lt_ge_cases (idx + size) len) as [F|F].
      * destruct (I2 F) as (init & c & E & Hi & Hc1 & Hc2 & Hc3). exists (firstn size (skipn idx indices) :: init), c.
        rewrite E. split; [reflexivity|]. split.
        { constructor; [|exact Hi]. rewrite firstn_length, skipn_length. lia. }
        split; [exact Hc1|]. split; [|lia]. intros Hmt Hge. apply Hc2; [exact Hmt|].
        rewrite Hmt in Em. cbn [andb] in Em. apply Nat.leb_gt in Em. lia.
      * rewrite (I3 F). exists [], (firstn size (skipn idx indices)). split; [reflexivity|]. split; [constructor|].
        rewrite firstn_length, skipn_length. split; [lia|]. split; [|reflexivity].
        intros Hmt Hge. exfalso. rewrite Hmt in Em. cbn [andb] in Em. apply Nat.leb_gt in Em. lia.
Qed.

(** C18.  With [perm] a permutation of the row numbers (or without shuffling), [split] visits
    the rows in the order of [perm], each in exactly one minibatch; all minibatches but the last
    have length [size]. *)
Lemma C18_split_lemma : forall len (size : nat) shuffle merge_last,
  1 <= size -> (forall perm, shuffle = Some perm -> Permutation perm (seq 0 len)) ->
  exists cs, split len (Z.of_nat size) shuffle merge_last = Ok cs
    /\ Permutation (concat cs) (seq 0 len)
    /\ concat cs = match shuffle with Some perm => perm | None => seq 0 len end
    /\ (len = 0 -> cs = [])
    /\ (0 < len -> exists init c, cs = init ++ [c] /\ Forall (fun c => length c = size) init
          /\ (merge_last = false -> 1 <= length c <= size)
          /\ (merge_last = true -> size <= len -> size <= length c < 2 * size)
          /\ (len < size -> cs = [c])).
Proof.
  intros len size shuffle merge_last Hs Hperm. unfold split.
  destruct (Z.eqb_spec (Z.of_nat size) (-1)); [lia|]. destruct (Z.leb_spec 1 (Z.of_nat size)); [|lia]. cbn [negb].
  rewrite Nat2Z.id. set (indices := match shuffle with Some perm => perm | None => seq 0 len end).
  assert (Hp : Permutation indices (seq 0 len)) by (unfold indices; destruct shuffle; [apply Hperm; reflexivity|apply Permutation_refl]).
  assert (Hl : length indices = len) by (rewrite (Permutation_length Hp); apply seq_length).
  set (merge := merge_last && (0 <? len mod size)).
  destruct (split_loop_spec size len merge indices Hs Hl ltac:(unfold merge; lia) len 0 0 ltac:(lia) ltac:(lia)) as (I1 & I2 & I3).
  cbn [skipn] in I1. eexists. split; [reflexivity|]. split; [rewrite I1; exact Hp|]. split; [exact I1|].
  split; [intros E; apply I3; lia|]. intros H0. destruct (I2 H0) as (init & c & E & Hi & Hc1 & Hc2 & Hc3).
  exists init, c. split; [exact E|]. split; [exact Hi|].
  assert (Hcl : length c = len - length init * size).
  { assert (Hcat : length (concat (init ++ [c])) = len) by (rewrite <- E, I1; exact Hl).
    rewrite concat_app, app_length in Hcat. cbn [concat] in Hcat. rewrite app_nil_r in Hcat.
    assert (length (concat init) = length init * size).
    { clear - Hi. induction Hi as [|x l Hx Hl IH]; [reflexivity|]. cbn [concat length]. rewrite app_length, IH, Hx. lia. }
    lia. }
  split; [|split].
  - intros Hmf. apply Hc1. unfold merge. rewrite Hmf. reflexivity.
  - intros Hmt Hge. destruct (Nat.ltb_spec 0 (len mod size)) as [F|F].
    + apply Hc2; [unfold merge; rewrite Hmt; destruct (Nat.ltb_spec 0 (len mod size)); [reflexivity|lia]|lia].
    + (* size divides len: the last minibatch is full *)
      assert (Em : merge = false) by (unfold merge; destruct (Nat.ltb_spec 0 (len mod size)); [lia|apply andb_false_r]).
      specialize (Hc1 Em). assert (Hd : len mod size = 0) by lia.
      pose proof (Nat.div_mod len size ltac:(lia)) as Hdm. rewrite Hd in Hdm.
      assert (length c = (len / size - length init) * size) by nia.
      assert (1 <= len / size - length init) by nia. nia.
  - intros Hlt. rewrite E, (Hc3 ltac:(lia)). reflexivity.
Qed.

(** C18.  [size = -1] yields the whole batch as one minibatch; a size below one (other than -1)
    is rejected, and so is -1 on an empty batch. *)
Lemma C18_sizes_lemma : forall len (size : Z) shuffle merge_last,
  (0 < len -> (forall perm, shuffle = Some perm -> length perm = len) ->
     split len (-1) shuffle merge_last = Ok [match shuffle with Some perm => perm | None => seq 0 len end])
  /\ ((size < 1)%Z -> size <> (-1)%Z \/ len = 0 -> split len size shuffle merge_last = Err AssertionError).
Proof.
  intros len size shuffle merge_last. split.
  - intros H Hp. unfold split. cbn [Z.eqb Pos.eqb]. destruct (Z.leb_spec 1 (Z.of_nat len)); [|lia]. cbn [negb]. rewrite Nat2Z.id.
    rewrite Nat.mod_same by lia. rewrite andb_false_r.
    set (ix := match shuffle with Some perm => perm | None => seq 0 len end).
    assert (Hl : length ix = len) by (unfold ix; destruct shuffle; [apply Hp; reflexivity|apply seq_length]).
    destruct len as [|len]; [lia|]. cbn [split_loop]. destruct (Nat.ltb_spec 0 (S len)); [|lia]. cbn [andb skipn].
    rewrite firstn_all2 by lia. f_equal. f_equal. destruct len as [|len]; [reflexivity|]. cbn [split_loop].
    destruct (Nat.ltb_spec (0 + S (S len)) (S (S len))); [lia|reflexivity].
  - intros H1 H2. unfold split. destruct (Z.eqb_spec size (-1)) as [E|E].
    + destruct H2 as [H2|H2]; [contradiction|]. subst len. reflexivity.
    + destruct (Z.leb_spec 1 size); [lia|reflexivity].
Qed.
