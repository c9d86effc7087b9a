From Verif Require Import Py PyLemmas BufferModel BufferSpec.
Open Scope nat_scope.

Lemma succ_mod a n : a < n -> (a + 1) mod n = if a + 1 =? n then 0 else a + 1.
Proof.
  intros H. destruct (Nat.eqb_spec (a + 1) n) as [->|E].
  - apply Nat.mod_same. lia.
  - apply Nat.mod_small. lia.
Qed.

Lemma fold_left_combine_app {X Y S} (f : S -> X * Y -> S) xs ys x y s :
  length xs = length ys ->
  fold_left f (combine (xs ++ [x]) (ys ++ [y])) s = f (fold_left f (combine xs ys) s) (x, y).
Proof.
  revert ys s; induction xs as [|a xs IH]; intros [|b ys] s H; try discriminate; simpl; [reflexivity|].
  apply IH. simpl in H. lia.
Qed.

Section BufferProofs.
Context {Ob A Inf R : Type}.
Notation trans := (trans Ob A Inf R).
Notation slot := (slot Ob A Inf R).
Notation buf := (buf Ob A Inf R).
Notation bst := (bst R).

(** Index of queue position [p]. *)
Definition pos (s : bst) (p : nat) : nat :=
  if ins s + p <? size s then ins s + p else ins s + p - size s.

Record sinv (n : nat) (s : bst) : Prop := {
  i_max : maxsize s = n;
  i_pos : 0 < n;
  i_size : size s <= n;
  i_ins : ins s < n;
  i_part : size s < n -> ins s = size s;
  i_last : last_index s = if size s =? 0 then 0 else if ins s =? 0 then n - 1 else ins s - 1;
  i_start : ep_start_idx s <= size s
}.

Record inv (n : nat) (b : buf) (q : list slot) : Prop := {
  i_s : sinv n (b_st b);
  i_len : length q = size (b_st b);
  i_rows : length (meta_rows n (b_meta b)) = n;
  i_none : b_meta b = None -> q = [];
  i_data : forall p x, nth_error q p = Some x ->
     nth_error (meta_rows n (b_meta b)) (pos (b_st b) p) = Some (Some x)
}.

Lemma sinv_advance n s : sinv n s -> sinv n (advance s).
Proof.
  intros [H1 H2 H3 H4 H5 H6 H7]. unfold advance.
  split; cbn [maxsize ins size last_index ep_start_idx]; rewrite ?H1, ?succ_mod by assumption; try lia.
  - destruct (Nat.eqb_spec (ins s + 1) n); lia.
  - destruct (Nat.eqb_spec (ins s + 1) n); lia.
  - destruct (Nat.eqb_spec (Nat.min (size s + 1) n) 0); [lia|].
    destruct (Nat.eqb_spec (ins s + 1) n).
    + simpl. lia.
    + destruct (Nat.eqb_spec (ins s + 1) 0); lia.
Qed.

(** Positions after one more write. *)
Lemma pos_advance n s p : sinv n s -> p < size (advance s) ->
  pos (advance s) p =
    if size s <? n then p                                     (* not full: nothing dropped *)
    else if p =? n - 1 then ins s else pos s (S p).
Proof.
  intros [H1 H2 H3 H4 H5 H6 H7] Hp. unfold pos, advance in *.
  cbn [maxsize ins size] in *. rewrite ?H1, ?succ_mod in * by assumption.
  destruct (Nat.ltb_spec (size s) n) as [Hs|Hs].
  - specialize (H5 Hs). destruct (Nat.eqb_spec (ins s + 1) n).
    + destruct (Nat.ltb_spec (0 + p) (Nat.min (size s + 1) n)); lia.
    + destruct (Nat.ltb_spec (ins s + 1 + p) (Nat.min (size s + 1) n)); lia.
  - destruct (Nat.eqb_spec (ins s + 1) n), (Nat.eqb_spec p (n - 1));
    repeat match goal with |- context [?a <? ?b] => destruct (Nat.ltb_spec a b) end; lia.
Qed.

Lemma pos_small n s p : sinv n s -> size s < n -> pos s p = p.
Proof.
  intros [H1 H2 H3 H4 H5 H6 H7] Hs. unfold pos. specialize (H5 Hs).
  destruct (Nat.ltb_spec (ins s + p) (size s)); lia.
Qed.

Lemma pos_lt n s p : sinv n s -> p < size s -> pos s p < size s.
Proof.
  intros [H1 H2 H3 H4 H5 H6 H7] Hp. unfold pos.
  destruct (Nat.ltb_spec (ins s + p) (size s)); [lia|].
  destruct (Nat.ltb_spec (size s) n); [specialize (H5 ltac:(lia)); lia|lia].
Qed.

Lemma pos_inj n s p p' : sinv n s -> p < size s -> p' < size s -> pos s p = pos s p' -> p = p'.
Proof.
  intros [H1 H2 H3 H4 H5 H6 H7] Hp Hp'. unfold pos.
  destruct (Nat.ltb_spec (ins s + p) (size s)), (Nat.ltb_spec (ins s + p') (size s)); lia.
Qed.

Lemma pos_ins n s p : sinv n s -> p < size s -> size s = n -> 0 < p -> pos s p <> ins s.
Proof.
  intros [H1 H2 H3 H4 H5 H6 H7] Hp Hs H0. unfold pos.
  destruct (Nat.ltb_spec (ins s + p) (size s)); lia.
Qed.

(** One write at the insertion index = one push on the queue. *)
Lemma inv_write n (b : buf) q x s' :
  inv n b q -> size s' = size (advance (b_st b)) -> ins s' = ins (advance (b_st b)) ->
  sinv n s' ->
  inv n (mkBuf s' (Some (upd (meta_rows n (b_meta b)) (ins (b_st b)) (Some x)))) (push n q [x]).
Proof.
  intros [Hs Hl Hr Hn Hd] Esz Eins Hs'.
  assert (Epos : forall p, pos s' p = pos (advance (b_st b)) p).
  { intros p. unfold pos. rewrite Esz, Eins. reflexivity. }
  assert (Hlen : length (push n q [x]) = size (advance (b_st b))).
  { unfold push. rewrite lastn_length, app_length, Hl. cbn [length advance size].
    rewrite (i_max _ _ Hs). lia. }
  split; cbn [b_st b_meta].
  - exact Hs'.
  - rewrite Hlen, Esz. reflexivity.
  - cbn [meta_rows]. rewrite upd_length. exact Hr.
  - discriminate.
  - intros p y Hp. rewrite Epos. cbn [meta_rows].
    assert (Hplt : p < size (advance (b_st b))).
    { rewrite <- Hlen. apply nth_error_Some. congruence. }
    rewrite (pos_advance n) by assumption.
    unfold push in Hp. rewrite nth_error_lastn, app_length, Hl in Hp. cbn [length] in Hp.
    pose proof (i_size _ _ Hs) as Hsz. pose proof (i_ins _ _ Hs) as Hins.
    unfold advance in Hplt. cbn [size] in Hplt. rewrite (i_max _ _ Hs) in Hplt.
    destruct (Nat.ltb_spec (size (b_st b)) n) as [Hlt|Hge].
    + pose proof (i_part _ _ Hs Hlt) as Hpart.
      replace (size (b_st b) + 1 - n + p) with p in Hp by lia.
      destruct (Nat.eqb_spec p (size (b_st b))) as [->|Hne].
      * rewrite nth_error_app2 in Hp by lia. rewrite Hl, Nat.sub_diag in Hp. injection Hp as ->.
        rewrite Hpart. apply nth_error_upd_same. lia.
      * rewrite nth_error_app1 in Hp by lia.
        rewrite nth_error_upd_other by lia.
        apply Hd in Hp. rewrite (pos_small n) in Hp by assumption. exact Hp.
    + replace (size (b_st b) + 1 - n + p) with (S p) in Hp by lia.
      destruct (Nat.eqb_spec p (n - 1)) as [->|Hne].
      * rewrite nth_error_app2 in Hp by lia. replace (S (n - 1) - length q) with 0 in Hp by lia.
        injection Hp as ->. apply nth_error_upd_same. lia.
      * rewrite nth_error_app1 in Hp by lia.
        rewrite nth_error_upd_other.
        -- apply Hd. exact Hp.
        -- intros E. apply (pos_ins n (b_st b) (S p) Hs); try lia.
Qed.

(** ** The index list and reading *)

Lemma all_indices_pos n s : sinv n s -> all_indices s = map (pos s) (seq 0 (size s)).
Proof.
  intros [H1 H2 H3 H4 H5 H6 H7]. unfold all_indices, arange.
  apply nth_error_ext. intros i. rewrite nth_error_map_seq.
  destruct (Nat.ltb_spec i (size s - ins s)) as [Hi|Hi].
  - rewrite nth_error_app1 by (rewrite seq_length; lia).
    rewrite (nth_error_nth' _ 0) by (rewrite seq_length; lia). rewrite seq_nth by lia.
    destruct (Nat.ltb_spec i (size s)); [|lia]. unfold pos.
    destruct (Nat.ltb_spec (ins s + (0 + i)) (size s)); [f_equal; lia|lia].
  - rewrite nth_error_app2 by (rewrite seq_length; lia). rewrite seq_length.
    assert (Hsz : ins s <= size s).
    { destruct (Nat.ltb_spec (size s) n); [rewrite H5|]; lia. }
    destruct (Nat.ltb_spec i (size s)).
    + rewrite (nth_error_nth' _ 0) by (rewrite seq_length; lia). rewrite seq_nth by lia.
      unfold pos. destruct (Nat.ltb_spec (ins s + (0 + i)) (size s)); [lia|f_equal; lia].
    + apply nth_error_None. rewrite seq_length. lia.
Qed.

Lemma all_indices_length n s : sinv n s -> length (all_indices s) = size s.
Proof. intros H. rewrite (all_indices_pos n) by exact H. rewrite map_length, seq_length. reflexivity. Qed.

Lemma all_indices_NoDup n s : sinv n s -> NoDup (all_indices s).
Proof.
  intros H. rewrite (all_indices_pos n) by exact H.
  rewrite NoDup_nth_error. intros i j Hi E. rewrite map_length, seq_length in Hi.
  rewrite !nth_error_map_seq in E. simpl in E.
  destruct (Nat.ltb_spec i (size s)); [|lia].
  destruct (Nat.ltb_spec j (size s)); [|discriminate].
  injection E as E. apply (pos_inj n s); auto.
Qed.

Lemma all_indices_In n s i : sinv n s -> In i (all_indices s) <-> i < size s.
Proof.
  intros H. unfold all_indices, arange. rewrite in_app_iff, !in_seq.
  assert (Hsz : ins s <= size s).
  { destruct (Nat.ltb_spec (size s) n); [rewrite (i_part _ _ H)|]; pose proof (i_ins _ _ H); lia. }
  lia.
Qed.

Lemma rows_at_stored n b q ps :
  inv n b q -> q <> [] -> (forall p, In p ps -> p < length q) ->
  rows_at b (map Z.of_nat (map (pos (b_st b)) ps)) = Ok (map (fun p => nth_error q p) ps).
Proof.
  intros H Hne Hps. unfold rows_at.
  destruct (b_meta b) as [m|] eqn:Em.
  2:{ exfalso. apply Hne. apply (i_none _ _ _ H Em). }
  rewrite map_map. revert Hps. induction ps as [|p ps IH]; intros Hps; [reflexivity|].
  cbn [map mapM].
  destruct (nth_error q p) as [x|] eqn:Ex.
  2:{ apply nth_error_None in Ex. specialize (Hps p (or_introl eq_refl)). lia. }
  pose proof (i_data _ _ _ H p x Ex) as Hx. rewrite Em in Hx. cbn [meta_rows] in Hx.
  rewrite (zget_nth_error _ _ _ Hx). cbn [bind].
  rewrite IH by (intros p' Hp'; apply Hps; right; exact Hp'). reflexivity.
Qed.

Lemma map_nth_error_seq {X} (l : list X) : map (fun p => nth_error l p) (seq 0 (length l)) = map Some l.
Proof.
  apply nth_error_ext. intros i. rewrite nth_error_map_seq, nth_error_map. simpl.
  destruct (Nat.ltb_spec i (length l)) as [Hi|Hi].
  - destruct (nth_error l i) eqn:E; [reflexivity|]. apply nth_error_None in E. lia.
  - apply nth_error_None in Hi. rewrite Hi. reflexivity.
Qed.

(** ** update *)

Lemma push_nil n (q : list slot) : length q <= n -> push n q [] = q.
Proof.
  intros H. unfold push, lastn. rewrite app_nil_r.
  replace (length q - n) with 0 by lia. reflexivity.
Qed.

Lemma push_push n (q xs ys : list slot) : push n (push n q xs) ys = push n q (xs ++ ys).
Proof.
  apply nth_error_ext. intros i. unfold push.
  rewrite !nth_error_lastn. rewrite !app_length, !lastn_length, !app_length.
  destruct (Nat.ltb_spec (Nat.min n (length q + length xs) + length ys - n + i)
              (Nat.min n (length q + length xs))) as [Hi|Hi].
  - rewrite nth_error_app1 by (rewrite lastn_length, app_length; lia).
    rewrite nth_error_lastn, app_length, app_assoc.
    rewrite (nth_error_app1 (q ++ xs) ys) by (rewrite app_length; lia).
    f_equal. lia.
  - rewrite nth_error_app2 by (rewrite lastn_length, app_length; lia).
    rewrite lastn_length, app_length, app_assoc.
    rewrite (nth_error_app2 (q ++ xs) ys) by (rewrite app_length; lia).
    f_equal. rewrite app_length. lia.
Qed.

Lemma push_length n (q xs : list slot) : length (push n q xs) = Nat.min n (length q + length xs).
Proof. unfold push. rewrite lastn_length, app_length. reflexivity. Qed.

Lemma advance_n_len k (s : bst) : length (snd (advance_n k s)) = k.
Proof.
  revert s; induction k as [|k IH]; intros s; [reflexivity|].
  cbn [advance_n]. specialize (IH (advance s)).
  destruct (advance_n k (advance s)) as [s' l]. simpl in *. lia.
Qed.

Lemma advance_n_in n k (s : bst) i : sinv n s -> In i (snd (advance_n k s)) -> i < n.
Proof.
  revert s; induction k as [|k IH]; intros s Hs Hi; [destruct Hi|].
  cbn [advance_n] in Hi. specialize (IH (advance s) (sinv_advance n s Hs)).
  destruct (advance_n k (advance s)) as [s' l]. cbn [snd] in *.
  destruct Hi as [<-|Hi]; [apply (i_ins _ _ Hs)|auto].
Qed.

Lemma update_writes n : forall xs (s : bst) rows q,
  inv n (mkBuf s (Some rows)) q ->
  inv n (mkBuf (fst (advance_n (length xs) s))
           (Some (fold_left (fun m ix => upd m (fst ix) (snd ix))
                    (combine (snd (advance_n (length xs) s)) (map Some xs)) rows)))
      (push n q xs).
Proof.
  induction xs as [|x xs IH]; intros s rows q H.
  - simpl. rewrite push_nil; [exact H|]. rewrite (i_len _ _ _ H).
    apply (i_size _ _ (i_s _ _ _ H)).
  - cbn [length advance_n map].
    pose proof (inv_write n _ q x (advance s) H eq_refl eq_refl
                  (sinv_advance n s (i_s _ _ _ H))) as H1.
    cbn [b_meta b_st meta_rows] in H1.
    specialize (IH _ _ _ H1). rewrite push_push in IH. cbn [app] in IH.
    destruct (advance_n (length xs) (advance s)) as [s' l]. exact IH.
Qed.

Lemma inv_alloc n b q : inv n b q -> inv n (mkBuf (b_st b) (Some (meta_rows n (b_meta b)))) q.
Proof.
  intros [H1 H2 H3 H4 H5]. split; cbn [b_st b_meta meta_rows]; auto. discriminate.
Qed.

Lemma update_ok n n2 b q src q2 : inv n b q -> inv n2 src q2 ->
  exists b' l, update b src = Ok (b', l) /\ inv n b' (push n q q2) /\ length l = length q2
    /\ l = snd (advance_n (length q2) (b_st b)).
Proof.
  intros H H2. unfold update.
  pose proof (i_s _ _ _ H) as Hs. pose proof (i_s _ _ _ H2) as Hs2.
  pose proof (i_len _ _ _ H) as Hl. pose proof (i_len _ _ _ H2) as Hl2.
  destruct (Nat.eqb_spec (size (b_st src)) 0) as [E|E]; cbn [orb].
  - assert (q2 = []) as -> by (destruct q2; [reflexivity|simpl in Hl2; lia]).
    exists b, []. rewrite push_nil by (rewrite Hl; apply (i_size _ _ Hs)). auto.
  - destruct (Nat.eqb_spec (maxsize (b_st b)) 0) as [E'|E'].
    { pose proof (i_max _ _ Hs). pose proof (i_pos _ _ Hs). lia. }
    rewrite (all_indices_length n2) by exact Hs2.
    destruct (Nat.eqb_spec (size (b_st src)) 0); [contradiction|].
    rewrite <- Hl2.
    pose proof (update_writes n q2 (b_st b) (meta_rows n (b_meta b)) q (inv_alloc _ _ _ H)) as W.
    destruct (advance_n (length q2) (b_st b)) as [s' l] eqn:Ea. cbn [fst snd] in W.
    assert (Hmap : mapM (fun i => match nth_error (meta_rows (maxsize (b_st src)) (b_meta src)) i with
                                  | Some x => Ok x | None => Err IndexError end)
              (all_indices (b_st src)) = Ok (map Some q2)).
    { rewrite (all_indices_pos n2) by exact Hs2. rewrite (i_max _ _ Hs2), <- Hl2.
      rewrite <- (map_nth_error_seq q2).
      assert (G : forall ps, (forall p, In p ps -> p < length q2) ->
        mapM (fun i => match nth_error (meta_rows n2 (b_meta src)) i with
                       | Some x => Ok x | None => Err IndexError end) (map (pos (b_st src)) ps)
        = Ok (map (fun p => nth_error q2 p) ps)).
      { induction ps as [|p ps IH]; intros Hps; [reflexivity|]. cbn [map mapM].
        destruct (nth_error q2 p) as [x|] eqn:Ex.
        - rewrite (i_data _ _ _ H2 p x Ex). cbn [bind].
          rewrite IH by (intros p' Hp'; apply Hps; right; exact Hp'). reflexivity.
        - apply nth_error_None in Ex. specialize (Hps p (or_introl eq_refl)). lia. }
      apply G. intros p Hp. apply in_seq in Hp. lia. }
    rewrite Hmap. cbn [bind].
    assert (Hmax : maxsize s' = n).
    { pose proof (i_max _ _ (i_s _ _ _ W)) as Hx. cbn [b_st] in Hx. exact Hx. }
    rewrite Hmax. unfold guard.
    replace (forallb (fun i => i <? length (meta_rows n (b_meta b))) l) with true.
    2:{ symmetry. apply forallb_forall. rewrite (i_rows _ _ _ H). intros i Hi. apply Nat.ltb_lt.
        pose proof (advance_n_in n (length q2) (b_st b) i Hs) as Hin. rewrite Ea in Hin. auto. }
    do 2 eexists. split; [reflexivity|]. split; [exact W|].
    split; [|reflexivity].
    pose proof (advance_n_len (length q2) (b_st b)) as Hll. rewrite Ea in Hll. exact Hll.
Qed.

End BufferProofs.

Section BufferReach.
Context {Ob A Inf R : Type}.
Variable r0 : R.
Notation trans := (trans Ob A Inf R).
Notation slot := (slot Ob A Inf R).
Notation buf := (buf Ob A Inf R).
Notation bst := (bst R).
Notation inv := (@inv Ob A Inf R).

Lemma inv_init n : 0 < n -> inv n (buf_init r0 n) [].
Proof.
  intros H. split; cbn [buf_init b_st b_meta meta_rows].
  - split; cbn; lia.
  - reflexivity.
  - apply repeat_length.
  - reflexivity.
  - intros p x Hp. destruct p; discriminate.
Qed.

Lemma inv_reset n b q keep : inv n b q -> inv n (buf_reset r0 keep b) [].
Proof.
  intros [[H1 H2 H3 H4 H5 H6 H7] Hl Hr Hn Hd]. split; cbn [buf_reset b_st b_meta].
  - split; cbn; lia.
  - reflexivity.
  - exact Hr.
  - reflexivity.
  - intros p x Hp. destruct p; discriminate.
Qed.

Variable radd : R -> R -> R.
Variable last_frame : Ob -> Ob.
Notation row := (row last_frame).
Notation kept := (kept last_frame).
Notation reach := (reach r0 radd last_frame).

Lemma row_kept o (t : trans) : row o t = kept o t.
Proof. unfold row, kept. destruct (save_only_last_obs o), (save_obs_next o); reflexivity. Qed.

(** [add] never fails on such a buffer, and has the stated effect. *)
Lemma add_ok n b q o t : inv n b q ->
  exists b' ret len, add r0 radd last_frame o b t
      = Ok (b', (ins (b_st b), ret, len, ep_start_idx (b_st b)))
    /\ inv n b' (push n q [kept o t])
    /\ b_meta b' = Some (upd (meta_rows n (b_meta b)) (ins (b_st b)) (Some (kept o t)))
    /\ maxsize (b_st b') = n
    /\ ins (b_st b') = ins (advance (b_st b)) /\ size (b_st b') = size (advance (b_st b)).
Proof.
  intros Hinv. pose proof (i_s _ _ _ Hinv) as Hs.
  unfold add, update_state_pre_add, guard.
  pose proof (i_max _ _ Hs) as Hm. pose proof (i_pos _ _ Hs) as Hp.
  pose proof (i_start _ _ Hs) as Hst.
  destruct (Nat.eqb_spec (maxsize (b_st b)) 0); [lia|]. cbn [negb].
  destruct (Nat.ltb_spec (Nat.min (size (b_st b) + 1) (maxsize (b_st b))) (ep_start_idx (b_st b))) as [Hbad|Hgood].
  { pose proof (i_size _ _ Hs). lia. }
  cbn [negb bind]. pose proof (sinv_advance n _ Hs) as Ha.
  pose proof (i_rows _ _ _ Hinv) as Hrows. pose proof (i_ins _ _ Hs) as Hins.
  destruct (t_term t || t_trunc t) eqn:Ed; cbn [bind maxsize]; rewrite Hm, Hrows;
    (destruct (Nat.ltb_spec (ins (b_st b)) n); [|lia]); cbv iota.
  - do 3 eexists. split; [reflexivity|]. rewrite row_kept.
    cbn [maxsize b_meta b_st ins size]. rewrite ?Hm.
    split; [|cbn [advance ins size]; rewrite ?Hm; auto].
    apply inv_write; [exact Hinv | cbn [advance size]; rewrite ?Hm; reflexivity
                      | cbn [advance ins]; rewrite ?Hm; reflexivity | ].
    + destruct Ha as [A1 A2 A3 A4 A5 A6 A7]. cbn [advance maxsize ins size last_index ep_start_idx] in *.
      rewrite Hm in *. split; cbn [maxsize ins size last_index ep_start_idx]; auto.
      destruct (Nat.ltb_spec (Nat.min (size (b_st b) + 1) n) n); [rewrite A5 by assumption|]; lia.
  - do 3 eexists. split; [reflexivity|]. rewrite row_kept.
    cbn [maxsize b_meta b_st ins size]. rewrite ?Hm.
    split; [|cbn [advance ins size]; rewrite ?Hm; auto].
    apply inv_write; [exact Hinv | cbn [advance size]; rewrite ?Hm; reflexivity
                      | cbn [advance ins]; rewrite ?Hm; reflexivity | ].
    + destruct Ha as [A1 A2 A3 A4 A5 A6 A7]. cbn [advance maxsize ins size last_index ep_start_idx] in *.
      rewrite Hm in *. split; cbn [maxsize ins size last_index ep_start_idx]; auto.
Qed.

(** ** Reachable buffers satisfy the invariant *)

Lemma reach_inv o n b q : reach o n b q -> 0 < n -> inv n b q.
Proof.
  induction 1 as [n | n b q t b' r Hr IH Hadd | n b q keep Hr IH
                 | n b q n2 src q2 b' l Hr IH Hr2 IH2 Hu]; intros Hn.
  - apply inv_init. exact Hn.
  - destruct (add_ok n b q o t (IH Hn)) as (b1 & ret & len & E & Hi & _).
    rewrite Hadd in E. injection E as -> _. exact Hi.
  - apply (inv_reset n b q). exact (IH Hn).
  - destruct (Nat.eq_dec n2 0) as [->|Hn2].
    + (* a source of capacity 0 is always empty *)
      assert (Hz : maxsize (b_st src) = 0 /\ size (b_st src) = 0 /\ q2 = []).
      { clear IH IH2 Hu. remember 0 as z eqn:Ez. clear Hr Hn. revert Ez.
        induction Hr2 as [z | z b0 q0 t b0' r Hr0 IH0 Hadd | z b0 q0 keep Hr0 IH0
                 | z b0 q0 n3 src q2 b0' l0 Hr0 IH0 Hr3 IH3 Hu]; intros Ez.
        - subst. auto.
        - destruct (IH0 Ez) as (Hm & _). exfalso. unfold add, update_state_pre_add, guard in Hadd.
          rewrite Hm, Ez in Hadd. cbn in Hadd. discriminate Hadd.
        - destruct (IH0 Ez) as (Hm & Hsz & _). auto.
        - destruct (IH0 Ez) as (Hm & Hsz & Hq). unfold update in Hu. rewrite Hm, Ez in Hu.
          rewrite Nat.eqb_refl, orb_true_r in Hu. injection Hu as <- <-.
          repeat split; auto. subst z q0. unfold push, lastn. cbn [app].
          rewrite Nat.sub_0_r. apply skipn_all. }
      destruct Hz as (Hz & Hsz & ->). unfold update in Hu. rewrite Hsz in Hu.
      cbn [Nat.eqb orb] in Hu. injection Hu as <- <-.
      pose proof (IH Hn) as Hi. rewrite push_nil; [exact Hi|].
      rewrite (i_len _ _ _ Hi). apply (i_size _ _ (i_s _ _ _ Hi)).
    + destruct (update_ok n n2 b q src q2 (IH Hn) (IH2 ltac:(lia))) as (b1 & l1 & E & Hi & _).
      rewrite Hu in E. injection E as -> _. exact Hi.
Qed.

End BufferReach.
