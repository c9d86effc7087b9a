(** * Lemmas about the vocabulary of [Py]. *)
From Verif Require Export Py.
From Coq Require Export ZifyBool ZifyNat.
Ltac Zify.zify_post_hook ::= Z.div_mod_to_equations.

Lemma upd_length {A} (l : list A) i x : length (upd l i x) = length l.
Proof. revert i; induction l as [|h t IH]; intros [|i]; simpl; auto. Qed.

Lemma nth_upd {A} (l : list A) i j x d :
  nth j (upd l i x) d = if (i =? j) && (j <? length l) then x else nth j l d.
Proof.
  revert i j; induction l as [|h t IH]; intros [|i] [|j]; simpl; auto.
  - rewrite andb_false_r; reflexivity.
  - rewrite IH. change (S i =? S j) with (i =? j). change (S j <? S (length t)) with (j <? length t).
    reflexivity.
Qed.

Lemma nth_upd_same {A} (l : list A) i x d : i < length l -> nth i (upd l i x) d = x.
Proof. intros H. rewrite nth_upd, Nat.eqb_refl. destruct (Nat.ltb_spec i (length l)); [reflexivity|lia]. Qed.

Lemma nth_upd_other {A} (l : list A) i j x d : i <> j -> nth j (upd l i x) d = nth j l d.
Proof. intros H. rewrite nth_upd. destruct (Nat.eqb_spec i j); [lia|reflexivity]. Qed.

Lemma nth_error_upd {A} (l : list A) i j x :
  nth_error (upd l i x) j = if (i =? j) && (j <? length l) then Some x else nth_error l j.
Proof.
  revert i j; induction l as [|h t IH]; intros [|i] [|j]; simpl; auto.
  - rewrite andb_false_r; reflexivity.
  - rewrite IH. change (S i =? S j) with (i =? j). change (S j <? S (length t)) with (j <? length t).
    reflexivity.
Qed.

Lemma nth_error_upd_same {A} (l : list A) i x : i < length l -> nth_error (upd l i x) i = Some x.
Proof. intros H. rewrite nth_error_upd, Nat.eqb_refl. destruct (Nat.ltb_spec i (length l)); [reflexivity|lia]. Qed.

Lemma nth_error_upd_other {A} (l : list A) i j x : i <> j -> nth_error (upd l i x) j = nth_error l j.
Proof. intros H. rewrite nth_error_upd. destruct (Nat.eqb_spec i j); [lia|reflexivity]. Qed.

Lemma norm_index_ok n (i : Z) : (0 <= i < Z.of_nat n)%Z -> norm_index n i = Ok (Z.to_nat i).
Proof.
  intros H. unfold norm_index.
  destruct (Z.leb_spec 0 i); [|lia]. destruct (Z.ltb_spec i (Z.of_nat n)); [reflexivity|lia].
Qed.

Lemma norm_index_lt n i k : norm_index n i = Ok k -> k < n.
Proof.
  unfold norm_index.
  destruct (Z.leb_spec 0 i), (Z.ltb_spec i (Z.of_nat n)),
    (Z.leb_spec (- Z.of_nat n) i), (Z.ltb_spec i 0); simpl; intros E; inversion E; lia.
Qed.

Lemma zget_nat {A} (l : list A) (i : nat) d : i < length l -> zget l (Z.of_nat i) = Ok (nth i l d).
Proof.
  intros H. unfold zget. rewrite norm_index_ok by lia. cbn [bind].
  rewrite Nat2Z.id. rewrite (nth_error_nth' l d H). reflexivity.
Qed.

Lemma zget_nth_error {A} (l : list A) (i : nat) a :
  nth_error l i = Some a -> zget l (Z.of_nat i) = Ok a.
Proof.
  intros H. assert (i < length l) by (apply nth_error_Some; congruence).
  unfold zget. rewrite norm_index_ok by lia. cbn [bind]. rewrite Nat2Z.id, H. reflexivity.
Qed.

Lemma zget_ok {A} (l : list A) (i : Z) d :
  (0 <= i < Z.of_nat (length l))%Z -> zget l i = Ok (nth (Z.to_nat i) l d).
Proof. intros H. rewrite <- (Z2Nat.id i) at 1 by lia. apply zget_nat. lia. Qed.

Lemma zset_nat {A} (l : list A) (i : nat) x :
  i < length l -> zset l (Z.of_nat i) x = Ok (upd l i x).
Proof. intros H. unfold zset. rewrite norm_index_ok by lia. cbn [bind]. rewrite Nat2Z.id. reflexivity. Qed.

Lemma nth_ext_len {A} (l l' : list A) d :
  length l = length l' -> (forall i, i < length l -> nth i l d = nth i l' d) -> l = l'.
Proof. intros H1 H2. apply (nth_ext l l' d d H1 H2). Qed.

Lemma nth_error_ext {A} (l l' : list A) :
  (forall i, nth_error l i = nth_error l' i) -> l = l'.
Proof.
  revert l'; induction l as [|a l IH]; intros [|b l'] H; auto.
  - specialize (H 0); discriminate.
  - specialize (H 0); discriminate.
  - pose proof (H 0) as H0; simpl in H0; injection H0 as ->. f_equal.
    apply IH. intros i. exact (H (S i)).
Qed.

Lemma nth_error_skipn {A} (l : list A) k i : nth_error (skipn k l) i = nth_error l (k + i).
Proof. revert l; induction k as [|k IH]; intros [|a l]; simpl; auto. destruct i; reflexivity. Qed.

Lemma nth_skipn {A} (l : list A) k i d : nth i (skipn k l) d = nth (k + i) l d.
Proof. revert l; induction k as [|k IH]; intros [|a l]; simpl; auto. destruct i; reflexivity. Qed.

Lemma nth_error_firstn {A} (l : list A) k i :
  nth_error (firstn k l) i = if i <? k then nth_error l i else None.
Proof.
  revert l i; induction k as [|k IH]; intros [|a l] [|i]; simpl; auto.
  - destruct (_ <? _); reflexivity.
  - rewrite IH. reflexivity.
Qed.

Lemma lastn_length {A} k (l : list A) : length (lastn k l) = Nat.min k (length l).
Proof. unfold lastn. rewrite skipn_length. lia. Qed.

Lemma nth_error_lastn {A} k (l : list A) i :
  nth_error (lastn k l) i = nth_error l (length l - k + i).
Proof. unfold lastn. apply nth_error_skipn. Qed.

Lemma nth_error_map_seq {A} (f : nat -> A) a n i :
  nth_error (map f (seq a n)) i = if i <? n then Some (f (a + i)) else None.
Proof.
  destruct (Nat.ltb_spec i n) as [H|H].
  - rewrite nth_error_map. rewrite (nth_error_nth' _ 0) by (rewrite seq_length; lia).
    rewrite seq_nth by lia. reflexivity.
  - apply nth_error_None. rewrite map_length, seq_length. lia.
Qed.

Lemma mapM_Ok {A B} (f : A -> res B) (g : A -> B) l :
  (forall a, In a l -> f a = Ok (g a)) -> mapM f l = Ok (map g l).
Proof.
  induction l as [|a l IH]; intros H; simpl; [reflexivity|].
  rewrite (H a) by (left; reflexivity). cbn [bind].
  rewrite IH by (intros b Hb; apply H; right; exact Hb). reflexivity.
Qed.

Lemma mapM_length {A B} (f : A -> res B) l r : mapM f l = Ok r -> length r = length l.
Proof.
  revert r; induction l as [|a l IH]; intros r H; simpl in H.
  - injection H as <-. reflexivity.
  - destruct (f a) as [b|e]; [|discriminate]. cbn [bind] in H.
    destruct (mapM f l) as [bs|e]; [|discriminate]. cbn [bind] in H.
    injection H as <-. simpl. f_equal. apply IH. reflexivity.
Qed.

Lemma mapM_nth {A B} (f : A -> res B) l r i a :
  mapM f l = Ok r -> nth_error l i = Some a -> exists b, nth_error r i = Some b /\ f a = Ok b.
Proof.
  revert r i; induction l as [|x l IH]; intros r i H Hi; simpl in H.
  - destruct i; discriminate.
  - destruct (f x) as [b|e] eqn:Ef; [|discriminate]. cbn [bind] in H.
    destruct (mapM f l) as [bs|e] eqn:Em; [|discriminate]. cbn [bind] in H.
    injection H as <-. destruct i as [|i]; simpl in *.
    + injection Hi as ->. exists b. auto.
    + apply (IH bs i eq_refl Hi).
Qed.

Lemma foldM_app {S A} (f : S -> A -> res S) l1 l2 s :
  foldM f (l1 ++ l2) s = let* s' := foldM f l1 s in foldM f l2 s'.
Proof.
  revert s; induction l1 as [|a l1 IH]; intros s; simpl; [reflexivity|].
  destruct (f s a); simpl; auto.
Qed.
