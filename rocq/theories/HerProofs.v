(** * Proofs about HERReplayBuffer *)
From Verif Require Import Py PyLemmas BufferModel BufferSpec BufferProofs BufferWalkProofs ReturnsProofs
  HerModel HerSpec.
From Coq Require Import Sorted Permutation.
Open Scope nat_scope.

(** ** Sorting *)
Lemma insert_In x l y : In y (insert x l) <-> y = x \/ In y l.
Proof.
  induction l as [|z l IH]; cbn [insert In]; [intuition|]. destruct (x <=? z); cbn [In]; [intuition|]. rewrite IH. intuition.
Qed.
Lemma insert_length x l : length (insert x l) = S (length l).
Proof. induction l as [|z l IH]; cbn [insert length]; [reflexivity|]. destruct (x <=? z); cbn [length]; congruence. Qed.
Lemma np_sort_In l y : In y (np_sort l) <-> In y l.
Proof. induction l as [|x l IH]; cbn [np_sort fold_right In]; [tauto|]. rewrite insert_In. unfold np_sort in IH. rewrite IH. intuition. Qed.
Lemma np_sort_length l : length (np_sort l) = length l.
Proof. induction l as [|x l IH]; cbn [np_sort fold_right length]; [reflexivity|]. rewrite insert_length. unfold np_sort in IH. congruence. Qed.
Lemma insert_sorted x l : StronglySorted le l -> StronglySorted le (insert x l).
Proof.
  induction l as [|z l IH]; intros H; cbn [insert]; [constructor; constructor|].
  inversion H as [|? ? H1 H2]; subst. destruct (Nat.leb_spec x z).
  - constructor; [exact H|]. constructor; [exact H0|]. eapply Forall_impl; [|exact H2]. intros; lia.
  - constructor; [apply IH, H1|]. apply Forall_forall. intros y Hy. apply insert_In in Hy as [->|Hy]; [lia|].
    rewrite Forall_forall in H2. apply H2, Hy.
Qed.
Lemma np_sort_sorted l : StronglySorted le (np_sort l).
Proof. induction l as [|x l IH]; cbn [np_sort fold_right]; [constructor|]. apply insert_sorted, IH. Qed.
Lemma insert_map c x l : insert (c + x) (map (fun p => c + p) l) = map (fun p => c + p) (insert x l).
Proof.
  induction l as [|z l IH]; cbn [insert map]; [reflexivity|].
  destruct (Nat.leb_spec x z), (Nat.leb_spec (c + x) (c + z)); try lia; cbn [map]; [reflexivity|]. rewrite IH. reflexivity.
Qed.
Lemma np_sort_map c l : np_sort (map (fun p => c + p) l) = map (fun p => c + p) (np_sort l).
Proof. induction l as [|x l IH]; cbn [np_sort fold_right map]; [reflexivity|]. unfold np_sort in IH. rewrite IH, insert_map. reflexivity. Qed.

(** ** Groups of equal entries *)
Lemma ep_opens_map (f : nat -> nat) l : (forall x y, In x l -> In y l -> f x = f y -> x = y) ->
  ep_opens (map f l) = ep_opens l.
Proof.
  intros Hf. unfold ep_opens. rewrite map_length. apply filter_ext_in. intros k Hk. apply in_seq in Hk.
  f_equal. rewrite firstn_map.
  rewrite (nth_indep _ 0 (f 0)) by (rewrite map_length; lia). rewrite map_nth.
  assert (Hin : In (nth k l 0) l) by (apply nth_In; lia).
  assert (Hs : forall y, In y (firstn k l) -> In y l).
  { intros y Hy. rewrite <- (firstn_skipn k l). apply in_or_app. left. exact Hy. }
  induction (firstn k l) as [|y t IH]; [reflexivity|]. cbn [map existsb].
  rewrite IH by (intros z Hz; apply Hs; right; exact Hz). f_equal.
  destruct (Nat.eqb_spec (nth k l 0) y) as [E|E].
  - rewrite E. apply Nat.eqb_refl.
  - apply Nat.eqb_neq. intros F. apply E. apply Hf; [exact Hin|apply Hs; left; reflexivity|exact F].
Qed.

Lemma ep_opens_In l k : In k (ep_opens l) <-> k < length l /\ forall j, j < k -> nth j l 0 <> nth k l 0.
Proof.
  unfold ep_opens. rewrite filter_In, in_seq, negb_true_iff. split.
  - intros [H1 H2]. split; [lia|]. intros j Hj E.
    assert (existsb (Nat.eqb (nth k l 0)) (firstn k l) = true); [|congruence].
    apply existsb_exists. exists (nth j l 0). split; [|rewrite E; apply Nat.eqb_refl].
    assert (nth j (firstn k l) 0 = nth j l 0).
    { rewrite <- (firstn_skipn k l) at 2. rewrite app_nth1 by (rewrite firstn_length; lia). reflexivity. }
    rewrite <- H. apply nth_In. rewrite firstn_length. lia.
  - intros [H1 H2]. split; [lia|]. destruct (existsb _ _) eqn:E; [|reflexivity]. exfalso.
    apply existsb_exists in E as (y & Hy & E). apply Nat.eqb_eq in E. subst y.
    apply In_nth with (d := 0) in Hy as (j & Hj & Hn). rewrite firstn_length in Hj.
    apply (H2 j); [lia|]. rewrite <- Hn.
    rewrite <- (firstn_skipn k l) at 1. rewrite app_nth1 by (rewrite firstn_length; lia). reflexivity.
Qed.

Lemma filter_seq_sorted f a n : StronglySorted lt (filter f (seq a n)).
Proof.
  revert a. induction n as [|n IH]; intros a; cbn [seq filter]; [constructor|].
  destruct (f a); [|apply IH]. constructor; [apply IH|]. apply Forall_forall. intros y Hy.
  apply filter_In in Hy as [Hy _]. apply in_seq in Hy. lia.
Qed.

Lemma sorted_nth_lt l e e' : StronglySorted lt l -> e < e' < length l -> nth e l 0 < nth e' l 0.
Proof.
  intros H. revert e e'. induction H as [|x l H IH Hf]; intros e e' He; cbn [length] in He; [lia|].
  destruct e' as [|e']; [lia|]. destruct e as [|e]; cbn [nth].
  - rewrite Forall_forall in Hf. apply Hf. apply nth_In. lia.
  - apply IH. lia.
Qed.
Lemma sorted_nth_le l e e' : StronglySorted le l -> e <= e' < length l -> nth e l 0 <= nth e' l 0.
Proof.
  intros H. revert e e'. induction H as [|x l H IH Hf]; intros e e' He; cbn [length] in He; [lia|].
  destruct e' as [|e']; [destruct e; [cbn; lia|lia]|]. destruct e as [|e]; cbn [nth].
  - rewrite Forall_forall in Hf. apply Hf. apply nth_In. lia.
  - apply IH. lia.
Qed.

Lemma ep_closes_length l : l <> [] -> length (ep_closes l) = length (ep_opens l).
Proof.
  intros H. unfold ep_closes. rewrite app_length, map_length. cbn [length].
  assert (In 0 (ep_opens l)). { apply ep_opens_In. destruct l; [contradiction|]. cbn [length]. split; [lia|]. intros; lia. }
  destruct (ep_opens l); [contradiction|]. cbn [tl length]. lia.
Qed.

Lemma nth_opens_lt l e : l <> [] -> nth e (ep_opens l) 0 < length l.
Proof.
  intros H. assert (0 < length l) by (destruct l; [contradiction|cbn; lia]).
  destruct (Nat.lt_ge_cases e (length (ep_opens l))) as [He|He].
  - apply (nth_In _ 0) in He. apply ep_opens_In in He. apply He.
  - rewrite nth_overflow by exact He. assumption.
Qed.
Lemma nth_closes_lt l e : l <> [] -> nth e (ep_closes l) 0 < length l.
Proof.
  intros H. assert (H0 : 0 < length l) by (destruct l; [contradiction|cbn; lia]).
  destruct (Nat.lt_ge_cases e (length (ep_closes l))) as [He|He].
  - apply (nth_In _ 0) in He. unfold ep_closes in *. apply in_app_or in He as [He|[<-|[]]]; [|lia].
    apply in_map_iff in He as (k & <- & Hk).
    assert (In k (ep_opens l)) by (destruct (ep_opens l); [contradiction|right; exact Hk]).
    apply ep_opens_In in H1 as [H1 _]. lia.
  - rewrite nth_overflow by exact He. assumption.
Qed.

(** In a sorted list, group [e] is exactly the positions from the open to the close one. *)
Lemma ep_groups l e : StronglySorted le l -> e < length (ep_opens l) ->
  let k := nth e (ep_opens l) 0 in let c := nth e (ep_closes l) 0 in
  k <= c < length l /\ forall j, j < length l -> (nth j l 0 = nth k l 0 <-> k <= j <= c).
Proof.
  intros Hs He k c.
  assert (Hne : l <> []) by (intros ->; cbn in He; lia).
  assert (Hk : In k (ep_opens l)) by (apply nth_In; exact He).
  pose proof (filter_seq_sorted (fun k => negb (existsb (Nat.eqb (nth k l 0)) (firstn k l))) 0 (length l)) as Hss.
  fold (ep_opens l) in Hss.
  apply ep_opens_In in Hk as [Hkl Hkf].
  (* the next open position, or the length *)
  assert (Hc : exists k', c = k' - 1 /\ k < k' <= length l
             /\ (forall j, k < j < k' -> ~ In j (ep_opens l))
             /\ (k' < length l -> forall j, j < k' -> nth j l 0 <> nth k' l 0)).
  { unfold c, ep_closes. destruct (Nat.lt_ge_cases (S e) (length (ep_opens l))) as [Hl|Hl].
    - exists (nth (S e) (ep_opens l) 0).
      assert (Hin : In (nth (S e) (ep_opens l) 0) (ep_opens l)) by (apply nth_In; exact Hl).
      apply ep_opens_In in Hin as [G1 G2].
      assert (k < nth (S e) (ep_opens l) 0) by (apply sorted_nth_lt; [exact Hss|lia]).
      split; [|split; [lia|split]].
      + destruct (ep_opens l) as [|x t] eqn:E; [cbn in Hl; lia|]. cbn [tl nth length] in *.
        rewrite app_nth1 by (rewrite map_length; lia).
        rewrite (nth_indep _ 0 (0 - 1)) by (rewrite map_length; lia). rewrite (map_nth (fun k => k - 1)). reflexivity.
      + intros j Hj Hin. apply In_nth with (d := 0) in Hin as (e' & He' & E).
        destruct (Nat.lt_ge_cases e' (S e)) as [F|F].
        * destruct (Nat.eq_dec e' e) as [->|F']; [unfold k in Hj; lia|].
          assert (nth e' (ep_opens l) 0 < k) by (apply sorted_nth_lt; [exact Hss|lia]). lia.
        * destruct (Nat.eq_dec e' (S e)) as [->|F']; [lia|].
          assert (nth (S e) (ep_opens l) 0 < nth e' (ep_opens l) 0) by (apply sorted_nth_lt; [exact Hss|lia]). lia.
      + intros _. exact G2.
    - exists (length l). split; [|split; [lia|split; [|lia]]].
      + rewrite app_nth2 by (rewrite map_length; destruct (ep_opens l); cbn [tl length] in *; lia).
        rewrite map_length. replace (e - length (tl (ep_opens l))) with 0 by (destruct (ep_opens l); cbn [tl length] in *; lia).
        reflexivity.
      + intros j Hj Hin. apply In_nth with (d := 0) in Hin as (e' & He' & E).
        destruct (Nat.eq_dec e' e) as [->|F']; [unfold k in Hj; lia|].
        assert (nth e' (ep_opens l) 0 < k) by (apply sorted_nth_lt; [exact Hss|lia]). lia. }
  destruct Hc as (k' & -> & Hkk & Hno & Hk').
  split; [lia|]. intros j Hj. split.
  - intros E. destruct (Nat.lt_ge_cases j k) as [F|F]; [exfalso; apply (Hkf j F E)|].
    split; [exact F|]. destruct (Nat.lt_ge_cases j k') as [F'|F']; [lia|]. exfalso.
    assert (Hlt : k' < length l) by lia.
    pose proof (sorted_nth_le l k k' Hs ltac:(lia)). pose proof (sorted_nth_le l k' j Hs ltac:(lia)).
    apply (Hk' Hlt k ltac:(lia)). lia.
  - intros [F1 F2].
    assert (Hind : forall d, k + d < k' -> nth (k + d) l 0 = nth k l 0).
    { induction d as [|d IH]; intros Hd; [rewrite Nat.add_0_r; reflexivity|].
      specialize (IH ltac:(lia)).
      assert (Hn : ~ In (k + S d) (ep_opens l)) by (apply Hno; lia).
      destruct (Nat.eq_dec (nth (k + S d) l 0) (nth k l 0)) as [E|E]; [exact E|]. exfalso. apply Hn.
      apply ep_opens_In. split; [lia|]. intros i Hi Ei.
      pose proof (sorted_nth_le l i (k + d) Hs ltac:(lia)). pose proof (sorted_nth_le l (k + d) (k + S d) Hs ltac:(lia)). lia. }
    replace j with (k + (j - k)) by lia. apply Hind. lia.
Qed.

Lemma ep_group_of l j : j < length l -> exists e, e < length (ep_opens l) /\ nth (nth e (ep_opens l) 0) l 0 = nth j l 0.
Proof.
  induction j as [j IH] using lt_wf_ind. intros Hj.
  destruct (in_dec Nat.eq_dec j (ep_opens l)) as [H|H].
  - apply In_nth with (d := 0) in H as (e & He & E). exists e. rewrite E. auto.
  - assert (exists i, i < j /\ nth i l 0 = nth j l 0) as (i & Hi & E).
    { destruct (existsb (fun i => nth i l 0 =? nth j l 0) (seq 0 j)) eqn:Ex.
      - apply existsb_exists in Ex as (i & Hi & E). apply in_seq in Hi. apply Nat.eqb_eq in E. exists i. split; [lia|exact E].
      - exfalso. apply H. apply ep_opens_In. split; [exact Hj|]. intros i Hi E.
        assert (existsb (fun i => nth i l 0 =? nth j l 0) (seq 0 j) = true); [|congruence].
        apply existsb_exists. exists i. split; [apply in_seq; lia|apply Nat.eqb_eq, E]. }
    destruct (IH i Hi ltac:(lia)) as (e & He & E'). exists e. split; [exact He|congruence].
Qed.

(** ** Writing rows *)
Section Rows.
Context {Ob0 G A Inf R : Type}.
Notation slot := (slot (gobs Ob0 G) A Inf R).

Lemma write_rows_length (l : list (nat * option slot)) : forall m, length (write_rows m l) = length m.
Proof.
  unfold write_rows. induction l as [|c l IH]; intros m; cbn [fold_left]; [reflexivity|]. rewrite IH. apply upd_length.
Qed.
Lemma write_rows_fun (phi : nat -> option slot) (l : list (nat * option slot)) : forall m i,
  (forall c, In c l -> snd c = phi (fst c)) ->
  nth_error (write_rows m l) i
  = match nth_error m i with
    | None => None
    | Some y => if existsb (Nat.eqb i) (map fst l) then Some (phi i) else Some y
    end.
Proof.
  unfold write_rows. induction l as [|c l IH]; intros m i H; cbn [fold_left map existsb].
  - destruct (nth_error m i); reflexivity.
  - rewrite IH by (intros c' Hc'; apply H; right; exact Hc'). rewrite nth_error_upd.
    rewrite (H c) by (left; reflexivity).
    destruct (Nat.eqb_spec i (fst c)) as [->|Hi].
    + rewrite Nat.eqb_refl. cbn [orb]. destruct (Nat.ltb_spec (fst c) (length m)) as [Hl|Hl].
      * destruct (nth_error m (fst c)) eqn:E; [|apply nth_error_None in E; lia]. destruct (existsb _ _); reflexivity.
      * apply nth_error_None in Hl. rewrite Hl. reflexivity.
    + destruct (Nat.eqb_spec (fst c) i); [congruence|]. cbn [orb]. reflexivity.
Qed.

(** Undoing: writing the original rows back gives the original list. *)
Lemma write_rows_undo (cells : list (nat * (option slot * option slot))) m :
  (forall c, In c cells -> fst (snd c) = row_at m (fst c)) ->
  write_rows (write_rows m (map (fun c => (fst c, snd (snd c))) cells)) (map (fun c => (fst c, fst (snd c))) cells) = m.
Proof.
  intros H. apply nth_error_ext. intros i.
  rewrite (write_rows_fun (row_at m)).
  2:{ intros c Hc. apply in_map_iff in Hc as (c' & <- & Hc'). cbn [fst snd]. apply H, Hc'. }
  destruct (nth_error m i) as [y|] eqn:E.
  - destruct (nth_error (write_rows m _) i) as [z|] eqn:Ez.
    2:{ apply nth_error_None in Ez. rewrite write_rows_length in Ez. apply nth_error_None in Ez. congruence. }
    rewrite map_map. cbn [fst].
    destruct (existsb (Nat.eqb i) (map (fun x => fst x) cells)) eqn:Ex.
    + unfold row_at. rewrite (nth_error_nth _ _ _ E). reflexivity.
    + f_equal. assert (Hz : nth_error (write_rows m (map (fun c => (fst c, snd (snd c))) cells)) i = nth_error m i).
      { clear - Ex. revert m. unfold write_rows. induction cells as [|c cells IH]; intros m; cbn [map fold_left]; [reflexivity|].
        cbn [map existsb] in Ex. apply orb_false_iff in Ex as [E1 E2]. rewrite IH by exact E2. cbn [fst snd].
        apply nth_error_upd_other. intros F. subst i. rewrite Nat.eqb_refl in E1. discriminate. }
      rewrite Hz, E in Ez. congruence.
  - apply nth_error_None in E. assert (F : nth_error (write_rows m (map (fun c => (fst c, snd (snd c))) cells)) i = None).
    { apply nth_error_None. rewrite write_rows_length. exact E. }
    rewrite F. reflexivity.
Qed.

(** Any row after a write is the old one or one of the written ones. *)
Lemma write_rows_cases (l : list (nat * option slot)) : forall m i y, nth_error (write_rows m l) i = Some y ->
  nth_error m i = Some y \/ In (i, y) l.
Proof.
  unfold write_rows. induction l as [|c l IH]; intros m i y H; cbn [fold_left] in H; [auto|].
  apply IH in H as [H|H]; [|right; right; exact H].
  rewrite nth_error_upd in H. destruct (Nat.eqb_spec (fst c) i) as [E|E]; [|left; exact H].
  cbn [andb] in H. destruct (i <? length m); [|left; exact H]. injection H as H. right. left. destruct c; cbn in *; congruence.
Qed.
End Rows.

Lemma mapM_map {X Y Z} (f : Y -> res Z) (g : X -> Y) l : mapM f (map g l) = mapM (fun x => f (g x)) l.
Proof. induction l as [|x l IH]; [reflexivity|]. cbn [map mapM]. rewrite IH. reflexivity. Qed.

(** ** What one rewriting does *)
Section Exact.
Context {Ob0 G A Inf R : Type}.
Variable rew_fn : G -> G -> R.
Notation slot := (slot (gobs Ob0 G) A Inf R).
Notation buf := (buf (gobs Ob0 G) A Inf R).
Notation her := (her Ob0 G A Inf R).

Lemma chrono_ok n (b : buf) (q : list slot) P : inv n b q -> (forall p, In p P -> p < length q) ->
  chrono (b_st b) (map (pos (b_st b)) P) = map (pos (b_st b)) (np_sort P).
Proof.
  clear rew_fn.
  intros H HP. pose proof (i_s _ _ _ H) as Hs. rewrite (i_len _ _ _ H) in HP. destruct Hs as [H1 H2 H3 H4 H5 H6 H7].
  unfold chrono. set (s := b_st b) in *. rewrite H1.
  set (c := if size s <? n then n else ins s).
  rewrite map_map.
  assert (E : map (fun x => if pos s x <? ins s then pos s x + n else pos s x) P = map (fun p => c + p) P).
  { apply map_ext_in; intros p Hp; specialize (HP p Hp); unfold pos, c.
    destruct (Nat.ltb_spec (size s) n) as [Hn|Hn].
    - specialize (H5 Hn). rewrite H5. destruct (Nat.ltb_spec (size s + p) (size s)); [lia|].
      destruct (Nat.ltb_spec (size s + p - size s) (size s)); lia.
    - destruct (Nat.ltb_spec (ins s + p) (size s)).
      + destruct (Nat.ltb_spec (ins s + p) (ins s)); lia.
      + destruct (Nat.ltb_spec (ins s + p - size s) (ins s)); lia. }
  rewrite E, np_sort_map, map_map. apply map_ext_in. intros p Hp. apply (proj1 (np_sort_In P p)) in Hp. specialize (HP p Hp). unfold pos, c.
  destruct (Nat.ltb_spec (size s) n) as [Hn|Hn].
  - specialize (H5 Hn). rewrite H5. destruct (Nat.ltb_spec (size s + p) (size s)); [lia|].
    destruct (Nat.leb_spec n (n + p)); lia.
  - destruct (Nat.ltb_spec (ins s + p) (size s)), (Nat.leb_spec n (ins s + p)); lia.
Qed.

Lemma trajectories_ok n (b : buf) (q : list slot) : inv n b q -> q <> [] -> forall k P t, (forall p, In p P -> p < length q) ->
  trajectories b k (map (fun p => zpos b (walk q t p)) P)
  = Ok (map (fun t => map (fun p => zpos b (walk q t p)) P) (seq t (S k))).
Proof.
  clear rew_fn. intros H Hne. induction k as [|k IH]; intros P t HP; cbn [trajectories]; [reflexivity|].
  rewrite <- (map_map (walk q t) (zpos b)).
  rewrite (next_ok n b q) by (try assumption; intros p Hp; apply in_map_iff in Hp as (p' & <- & Hp'); apply walk_lt, HP, Hp').
  cbn [bind]. rewrite map_map.
  rewrite (map_ext_in _ (fun p => zpos b (walk q (S t) p))) by (intros p Hp; rewrite walk_S by (apply HP, Hp); reflexivity).
  rewrite IH by exact HP. cbn [bind]. rewrite (map_map (walk q t)). reflexivity.
Qed.

Lemma row_at_pos n (b : buf) (q : list slot) m p : inv n b q -> b_meta b = Some m -> p < length q ->
  row_at m (pos (b_st b) p) = nth_error q p.
Proof.
  clear rew_fn. intros H Hm Hp. destruct (nth_error q p) as [x|] eqn:E; [|apply nth_error_None in E; lia].
  pose proof (i_data _ _ _ H _ _ E) as D. rewrite Hm in D. cbn [meta_rows] in D. unfold row_at.
  apply nth_error_nth with (d := None) in D. exact D.
Qed.

Lemma pos_diff n (s : bst R) p L : sinv n s -> p <= L -> L < size s -> (pos s L + n - pos s p) mod n = L - p.
Proof.
  clear rew_fn. intros [H1 H2 H3 H4 H5 H6 H7] Hp HL. unfold pos.
  destruct (Nat.lt_ge_cases (size s) n) as [Hn|Hn].
  - specialize (H5 Hn). rewrite H5. destruct (Nat.ltb_spec (size s + p) (size s)); [lia|].
    destruct (Nat.ltb_spec (size s + L) (size s)); [lia|]. symmetry. apply (Nat.mod_unique _ _ 1); lia.
  - assert (size s = n) by lia.
    destruct (Nat.ltb_spec (ins s + p) (size s)), (Nat.ltb_spec (ins s + L) (size s)); symmetry;
      try (apply (Nat.mod_unique _ _ 1); lia); try (apply (Nat.mod_unique _ _ 0); lia).
Qed.
Lemma pos_add n (s : bst R) p d : sinv n s -> p + d < size s -> (pos s p + d) mod n = pos s (p + d).
Proof.
  clear rew_fn. intros [H1 H2 H3 H4 H5 H6 H7] Hp. unfold pos.
  destruct (Nat.lt_ge_cases (size s) n) as [Hn|Hn].
  - specialize (H5 Hn). rewrite H5. destruct (Nat.ltb_spec (size s + p) (size s)); [lia|].
    destruct (Nat.ltb_spec (size s + (p + d)) (size s)); [lia|]. rewrite Nat.mod_small; lia.
  - assert (size s = n) by lia.
    destruct (Nat.ltb_spec (ins s + p) (size s)), (Nat.ltb_spec (ins s + (p + d)) (size s)); try lia; symmetry;
      try (apply (Nat.mod_unique _ _ 1); lia); try (apply (Nat.mod_unique _ _ 0); lia).
Qed.

(** The position whose achieved goal is used for sampled index number [k]. *)
Definition fut (q : list slot) (K : nat) (P : list nat) (offs : nat -> nat) (k : nat) : nat :=
  nth k P 0 + offs k mod (walk q K (nth k P 0) - nth k P 0 + 1).

Lemma fut_bound (q : list slot) K P offs k : nth k P 0 < length q ->
  nth k P 0 <= fut q K P offs k <= walk q K (nth k P 0).
Proof.
  clear rew_fn. intros H. unfold fut. destruct (last_of_spec q _ H) as (H1 & _).
  pose proof (Nat.mod_upper_bound (offs k) (walk q K (nth k P 0) - nth k P 0 + 1) ltac:(lia)).
  unfold walk in *. lia.
Qed.

(** One cell of the rewriting. *)
Definition hcell (o : opts) (b : buf) (q : list slot) (K : nat) (P : list nat) offs (hsel : nat -> bool) (t e : nat)
  : nat * (option slot * option slot) :=
  let W := map (walk q K) P in
  let w := walk q t (nth (nth e (ep_opens W) 0) P 0) in
  (pos (b_st b) w,
   (nth_error q w,
    rewrite_row rew_fn o (if hsel e then achieved o q (fut q K P offs (nth e (ep_closes W) 0)) else None)
      (nth_error q (succ_of q w)) (nth_error q w))).
Definition hcells o b q K P offs hsel : list (nat * (option slot * option slot)) :=
  concat (map (fun t => map (hcell o b q K P offs hsel t) (seq 0 (length (ep_opens (map (walk q K) P))))) (seq 0 (S K))).

Lemma last_map_seq {T} (f : nat -> T) k d : last (map f (seq 0 (S k))) d = f k.
Proof. clear rew_fn. rewrite seq_S, map_app. cbn [map]. rewrite last_last. reflexivity. Qed.

Lemma rewrite_ok n (b : buf) (q : list slot) m o P horizon offs hsel alt :
  inv n b q -> b_meta b = Some m -> stack_num o = 1 -> P <> [] -> (forall p, In p P -> p < length q) ->
  let cells := hcells o b q (horizon - 1) (np_sort P) offs hsel in
  rewrite_transitions rew_fn o (mkHer b alt) (map (pos (b_st b)) P) horizon offs hsel
  = Ok (mkHer (mkBuf (b_st b) (Some (write_rows m (map (fun c => (fst c, snd (snd c))) cells))))
              (map (fun c => (fst c, fst (snd c))) cells)).
Proof.
  intros H Hm Ho HP0 HP cells. unfold rewrite_transitions. cbn [h_buf].
  rewrite map_length. destruct (Nat.eqb_spec (length P) 0) as [E|_]; [destruct P; [contradiction|discriminate]|].
  rewrite Ho. cbn [Nat.eqb negb]. rewrite Hm.
  assert (Hne : q <> []). { intros ->. destruct P as [|p P]; [contradiction|]. specialize (HP p (or_introl eq_refl)). cbn in HP. lia. }
  set (Q := np_sort P) in *. set (K := horizon - 1) in *.
  assert (HQ : forall p, In p Q -> p < length q) by (intros p Hp; apply HP, np_sort_In, Hp).
  assert (HQ0 : Q <> []). { intros E. assert (length Q = length P) by apply np_sort_length. rewrite E in H0. destruct P; [contradiction|discriminate]. }
  rewrite (chrono_ok n b q P H HP). fold Q.
  assert (E0 : map Z.of_nat (map (pos (b_st b)) Q) = map (fun p => zpos b (walk q 0 p)) Q).
  { rewrite map_map. apply map_ext_in. intros p Hp. rewrite walk_0 by (apply HQ, Hp). reflexivity. }
  rewrite E0, (trajectories_ok n b q H Hne K Q 0 HQ). cbn [bind]. cbv zeta.
  set (W := map (walk q K) Q).
  assert (Erows : map (map Z.to_nat) (map (fun t => map (fun p => zpos b (walk q t p)) Q) (seq 0 (S K)))
                  = map (fun t => map (fun p => pos (b_st b) (walk q t p)) Q) (seq 0 (S K))).
  { rewrite map_map. apply map_ext. intros t. rewrite map_map. apply map_ext. intros p. unfold zpos. apply Nat2Z.id. }
  rewrite Erows, (last_map_seq (fun t => map (fun p => pos (b_st b) (walk q t p)) Q)).
  assert (ET : map (fun p => pos (b_st b) (walk q K p)) Q = map (pos (b_st b)) W) by (unfold W; rewrite map_map; reflexivity).
  rewrite ET.
  pose proof (i_s _ _ _ H) as Hs. pose proof (i_len _ _ _ H) as Hl.
  assert (HW : forall w, In w W -> w < length q).
  { intros w Hw. apply in_map_iff in Hw as (p & <- & Hp). apply walk_lt, HQ, Hp. }
  assert (EO : ep_opens (map (pos (b_st b)) W) = ep_opens W).
  { apply ep_opens_map. intros x y Hx Hy E. apply (pos_inj n (b_st b)); [exact Hs| | |exact E]; rewrite <- Hl; apply HW; assumption. }
  assert (EC : ep_closes (map (pos (b_st b)) W) = ep_closes W) by (unfold ep_closes; rewrite EO, map_length; reflexivity).
  rewrite EO, EC.
  assert (HW0 : W <> []) by (unfold W; destruct Q; [contradiction|discriminate]).
  assert (HWl : length W = length Q) by apply map_length.
  rewrite (mapM_Ok _ (fun e => achieved o q (fut q K Q offs (nth e (ep_closes W) 0)))).
  2:{ intros e _. set (c := nth e (ep_closes W) 0).
      assert (Hc : c < length Q) by (rewrite <- HWl; apply nth_closes_lt, HW0).
      rewrite (i_max _ _ Hs).
      rewrite (nth_indep (map (pos (b_st b)) W) 0 (pos (b_st b) (walk q K 0))) by (rewrite map_length; lia).
      rewrite (nth_indep (map (pos (b_st b)) Q) 0 (pos (b_st b) 0)) by (rewrite map_length; lia).
      rewrite !map_nth. unfold W at 1 2. rewrite !map_nth.
      assert (Hp : nth c Q 0 < length q) by (apply HQ, nth_In, Hc).
      destruct (last_of_spec q _ Hp) as (L1 & _).
      assert (HwL : nth c Q 0 <= walk q K (nth c Q 0) < size (b_st b)) by (rewrite <- Hl; unfold walk; lia).
      rewrite (pos_diff n) by (try exact Hs; lia).
      pose proof (fut_bound q K Q offs c Hp) as Hf.
      rewrite (pos_add n) by (try exact Hs; unfold fut in Hf; lia).
      fold (fut q K Q offs c). set (f := fut q K Q offs c) in *.
      assert (Hfl : f < length q) by lia.
      unfold achieved. destruct (save_obs_next o).
      - rewrite (row_at_pos n b q) by assumption. destruct (nth_error q f); reflexivity.
      - change [Z.of_nat (pos (b_st b) f)] with (map (zpos b) [f]).
        rewrite (next_ok n b q) by (try assumption; intros p [<-|[]]; exact Hfl).
        cbn [bind map hd]. unfold zpos at 1. rewrite Nat2Z.id. rewrite (row_at_pos n b q) by (try assumption; apply succ_of_lt, Hfl).
        unfold ach_of. destruct (nth_error q (succ_of q f)); reflexivity. }
  cbn [bind].
  set (goals := map _ (seq 0 (length (ep_opens W)))).
  rewrite mapM_map.
  rewrite (mapM_Ok _ (fun t => map (hcell o b q K Q offs hsel t) (seq 0 (length (ep_opens W))))).
  2:{ intros t _. apply mapM_Ok. intros e He. apply in_seq in He. set (k := nth e (ep_opens W) 0).
      assert (Hk : k < length Q) by (rewrite <- HWl; apply nth_opens_lt, HW0).
      assert (Hp : nth k Q 0 < length q) by (apply HQ, nth_In, Hk).
      rewrite (nth_indep _ 0 (pos (b_st b) (walk q t 0))) by (rewrite map_length; lia).
      rewrite (map_nth (fun p => pos (b_st b) (walk q t p))).
      unfold hcell. fold W. fold k. cbv zeta. set (w := walk q t (nth k Q 0)).
      assert (Hw : w < length q) by (apply walk_lt, Hp).
      change [Z.of_nat (pos (b_st b) w)] with (map (zpos b) [w]).
      rewrite (next_ok n b q) by (try assumption; intros p [<-|[]]; exact Hw).
      cbn [bind map hd]. unfold zpos at 1. rewrite Nat2Z.id.
      rewrite !(row_at_pos n b q) by (try assumption; apply succ_of_lt, Hw).
      do 4 f_equal. destruct (hsel e); [|reflexivity]. unfold goals.
      rewrite (nth_indep _ None (achieved o q (fut q K Q offs (nth 0 (ep_closes W) 0)))) by (rewrite map_length, seq_length; lia).
      rewrite (map_nth (fun e => achieved o q (fut q K Q offs (nth e (ep_closes W) 0)))). rewrite seq_nth by lia. reflexivity. }
  cbn [bind]. reflexivity.
Qed.

Lemma in_hcells o b q K P offs hsel c : In c (hcells o b q K P offs hsel) <->
  exists t e, t <= K /\ e < length (ep_opens (map (walk q K) P)) /\ c = hcell o b q K P offs hsel t e.
Proof.
  unfold hcells. rewrite in_concat. split.
  - intros (l & Hl & Hc). apply in_map_iff in Hl as (t & <- & Ht). apply in_map_iff in Hc as (e & <- & He).
    apply in_seq in Ht. apply in_seq in He. exists t, e. split; [lia|split; [lia|reflexivity]].
  - intros (t & e & Ht & He & ->). exists (map (hcell o b q K P offs hsel t) (seq 0 (length (ep_opens (map (walk q K) P))))). split.
    + apply in_map_iff. exists t. split; [reflexivity|apply in_seq; lia].
    + apply in_map_iff. exists e. split; [reflexivity|apply in_seq; lia].
Qed.

Lemma rewrite_row_same o goal nxt (x : slot) y : (save_obs_next o = false -> s_obs_next x = None) ->
  rewrite_row rew_fn o goal nxt (Some x) = y ->
  exists x' : slot, y = Some x' /\ same_but_goal x x'.
Proof.
  intros Hx <-. unfold rewrite_row.
  assert (S0 : same_but_goal x x) by (unfold same_but_goal; repeat split).
  destruct goal as [g|]; [|eauto].
  destruct (save_obs_next o).
  - destruct (s_obs_next x) as [ob|] eqn:E; [|eauto]. eexists. split; [reflexivity|].
    unfold same_but_goal. cbn. rewrite E. cbn. repeat split.
  - destruct nxt as [sn|]; [|eauto]. eexists. split; [reflexivity|].
    unfold same_but_goal. cbn. rewrite Hx by reflexivity. repeat split.
Qed.
End Exact.

Section Rows2.
Context {Ob0 G A Inf R : Type}.
Notation slot := (slot (gobs Ob0 G) A Inf R).
Lemma write_rows_at (v : option slot) (l : list (nat * option slot)) i : forall m,
  (forall c, In c l -> fst c = i -> snd c = v) ->
  nth_error (write_rows m l) i
  = match nth_error m i with
    | None => None
    | Some y => if existsb (Nat.eqb i) (map fst l) then Some v else Some y
    end.
Proof.
  unfold write_rows. induction l as [|c l IH]; intros m H; cbn [fold_left map existsb].
  - destruct (nth_error m i); reflexivity.
  - rewrite IH by (intros c' Hc'; apply H; right; exact Hc'). rewrite nth_error_upd.
    destruct (Nat.eqb_spec i (fst c)) as [E|Hi].
    + rewrite (H c) by (try (left; reflexivity); congruence). rewrite <- E. rewrite Nat.eqb_refl. cbn [andb orb].
      destruct (Nat.ltb_spec i (length m)) as [Hl|Hl].
      * destruct (nth_error m i) eqn:En; [|apply nth_error_None in En; lia]. destruct (existsb _ _); reflexivity.
      * apply nth_error_None in Hl. rewrite Hl. reflexivity.
    + destruct (Nat.eqb_spec (fst c) i); [congruence|]. cbn [orb andb]. reflexivity.
Qed.
End Rows2.

Lemma last_of_same {Ob A Inf R} (q : list (slot Ob A Inf R)) p r : p < length q -> p <= r <= last_of q p -> last_of q r = last_of q p.
Proof.
  intros Hp Hr. destruct (last_of_spec q p Hp) as (H1 & H2 & H3).
  destruct (last_of_spec q r ltac:(lia)) as (G1 & G2 & G3).
  destruct (Nat.lt_trichotomy (last_of q r) (last_of q p)) as [F|[F|F]]; [|exact F|]; exfalso.
  - destruct G3 as [E|E]; [lia|]. rewrite H2 in E by lia. discriminate.
  - destruct H3 as [E|E]; [lia|]. rewrite G2 in E by lia. discriminate.
Qed.
Lemma last_of_mono {Ob A Inf R} (q : list (slot Ob A Inf R)) p r : p <= r < length q -> last_of q p <= last_of q r.
Proof.
  intros H. destruct (Nat.le_gt_cases r (last_of q p)) as [F|F].
  - rewrite (last_of_same q p r) by lia. lia.
  - destruct (last_of_spec q r ltac:(lia)) as (G1 & _). lia.
Qed.

Section Reach.
Context {Ob0 G A Inf R : Type}.
Variable r0 : R.
Variable radd : R -> R -> R.
Variable last_frame : gobs Ob0 G -> gobs Ob0 G.
Variable rew_fn : G -> G -> R.
Notation slot := (slot (gobs Ob0 G) A Inf R).
Notation buf := (buf (gobs Ob0 G) A Inf R).
Notation her := (her Ob0 G A Inf R).

Definition shape (o : opts) (x : slot) : Prop :=
  if save_obs_next o then exists ob, s_obs_next x = Some ob else s_obs_next x = None.

Lemma shape_push o n (q xs : list slot) : Forall (shape o) q -> Forall (shape o) xs -> Forall (shape o) (push n q xs).
Proof.
  clear. intros H1 H2. unfold push, lastn. apply Forall_forall. intros x Hx.
  assert (In x (q ++ xs)).
  { rewrite <- (firstn_skipn (length (q ++ xs) - n) (q ++ xs)). apply in_or_app. right. exact Hx. }
  rewrite Forall_forall in H1, H2. apply in_app_or in H as [H|H]; auto.
Qed.
Lemma reach_shape o n b q : reach r0 radd last_frame o n b q -> Forall (shape o) q.
Proof.
  clear rew_fn.
  induction 1 as [n | n b q t b' r Hr IH Hadd | n b q keep Hr IH | n b q n2 src q2 b' l Hr IH Hr2 IH2 Hu].
  - constructor.
  - apply shape_push; [exact IH|]. constructor; [|constructor]. unfold shape, kept. cbn [s_obs_next].
    destruct (save_obs_next o); eauto.
  - constructor.
  - apply shape_push; assumption.
Qed.

Lemma pos_surj n (s : bst R) i : sinv n s -> i < size s -> exists p, p < size s /\ pos s p = i.
Proof.
  clear. intros [H1 H2 H3 H4 H5 H6 H7] Hi. unfold pos.
  destruct (Nat.lt_ge_cases (size s) n) as [Hn|Hn].
  - specialize (H5 Hn). exists i. split; [exact Hi|]. rewrite H5. destruct (Nat.ltb_spec (size s + i) (size s)); lia.
  - destruct (Nat.lt_ge_cases i (ins s)) as [F|F].
    + exists (i + size s - ins s). split; [lia|]. destruct (Nat.ltb_spec (ins s + (i + size s - ins s)) (size s)); lia.
    + exists (i - ins s). split; [lia|]. destruct (Nat.ltb_spec (ins s + (i - ins s)) (size s)); lia.
Qed.
Lemma pos_list n (s : bst R) l : sinv n s -> (forall i, In i l -> i < size s) ->
  exists P, l = map (pos s) P /\ forall p, In p P -> p < size s.
Proof.
  clear. intros Hs. induction l as [|i l IH]; intros H; [exists []; split; [reflexivity|intros p []]|].
  destruct IH as (P & -> & HP); [intros j Hj; apply H; right; exact Hj|].
  destruct (pos_surj n s i Hs (H i (or_introl eq_refl))) as (p & Hp & <-).
  exists (p :: P). split; [reflexivity|]. intros p' [<-|Hp']; auto.
Qed.

Lemma sample_in n (b : buf) (q : list slot) o rnd bs l : inv n b q -> stack_num o = 1 ->
  sample_indices o b rnd bs = Ok l -> forall i : nat, In i l -> i < size (b_st b).
Proof.
  clear. intros H Ho. unfold sample_indices. rewrite Ho. cbn [Nat.eqb orb].
  destruct (0 <? _)%Z.
  - intros E i Hi. apply choice_in in E as [_ E]. apply E in Hi. apply in_seq in Hi. lia.
  - destruct (_ =? 0)%Z; intros E; injection E as <-; [|intros i []].
    pose proof (i_s _ _ _ H) as [H1 H2 H3 H4 H5 H6 H7].
    intros i Hi. unfold all_indices, arange in Hi. apply in_app_or in Hi as [Hi|Hi]; apply in_seq in Hi; [lia|].
    destruct (Nat.lt_ge_cases (size (b_st b)) n) as [Hn|Hn]; [specialize (H5 Hn); lia|lia].
Qed.

(** The state between calls: [b] is the plain buffer's state, [h] may hold rewritten rows. *)
Definition rows_rel (h b : buf) : Prop :=
  forall i x, nth_error (meta_rows 0 (b_meta b)) i = Some (Some x) ->
    exists x', nth_error (meta_rows 0 (b_meta h)) i = Some (Some x') /\ same_but_goal x x'.
Definition hrel (h : her) (b : buf) : Prop :=
  restore_cache h = mkHer b [] /\ b_st (h_buf h) = b_st b /\ rows_rel (h_buf h) b.

Lemma same_refl (x : slot) : same_but_goal x x.
Proof. clear. unfold same_but_goal. repeat split. Qed.
Lemma hrel_refl (b : buf) : hrel (mkHer b []) b.
Proof. clear. repeat split. intros i x H. exists x. split; [exact H|apply same_refl]. Qed.

Lemma rewrite_hrel n (b : buf) (q : list slot) o index horizon offs hsel :
  inv n b q -> Forall (shape o) q -> stack_num o = 1 -> (forall i, In i index -> i < size (b_st b)) ->
  exists h, rewrite_transitions rew_fn o (mkHer b []) index horizon offs hsel = Ok h /\ hrel h b.
Proof.
  clear r0 radd last_frame.
  intros H Hsh Ho Hidx. destruct (pos_list n (b_st b) index (i_s _ _ _ H) Hidx) as (P & -> & HP).
  destruct P as [|p0 P']; [exists (mkHer b []); split; [reflexivity|apply hrel_refl]|].
  set (P := p0 :: P') in *.
  assert (HPq : forall p, In p P -> p < length q) by (intros p Hp; rewrite (i_len _ _ _ H); apply HP, Hp).
  assert (Hne : q <> []). { intros ->. specialize (HPq p0 (or_introl eq_refl)). cbn in HPq. lia. }
  destruct (inv_meta n b q H Hne) as [m Hm].
  rewrite (rewrite_ok rew_fn n b q m o P horizon offs hsel [] H Hm Ho) by (try discriminate; exact HPq).
  eexists. split; [reflexivity|]. cbv zeta.
  set (cells := hcells rew_fn o b q (horizon - 1) (np_sort P) offs hsel).
  assert (HQ : forall k, k < length (np_sort P) -> nth k (np_sort P) 0 < length q).
  { intros k Hk. apply HPq, np_sort_In, nth_In, Hk. }
  assert (Hcell : forall c, In c cells -> exists w x, w < length q /\ nth_error q w = Some x /\ fst c = pos (b_st b) w
             /\ fst (snd c) = Some x /\ row_at m (fst c) = Some x
             /\ exists x', snd (snd c) = Some x' /\ same_but_goal x x').
  { intros c Hc. apply in_hcells in Hc as (t & e & Ht & He & ->). unfold hcell.
    set (W := map (walk q (horizon - 1)) (np_sort P)) in *.
    assert (Hk : nth e (ep_opens W) 0 < length (np_sort P)).
    { rewrite <- (map_length (walk q (horizon - 1))). fold W. apply nth_opens_lt. intros E. rewrite E in He. cbn in He. lia. }
    set (w := walk q t _). exists w.
    assert (Hw : w < length q) by (apply walk_lt, HQ, Hk).
    destruct (nth_error q w) as [x|] eqn:Ex; [|apply nth_error_None in Ex; lia]. exists x. cbn [fst snd].
    assert (Hx : shape o x) by (rewrite Forall_forall in Hsh; apply Hsh, (nth_error_In _ _ Ex)).
    split; [exact Hw|]. split; [reflexivity|]. split; [reflexivity|]. split; [reflexivity|]. split.
    - rewrite (row_at_pos n b q m w H Hm Hw). exact Ex.
    - eapply rewrite_row_same; [|reflexivity]. unfold shape in Hx. intros E. rewrite E in Hx. exact Hx. }
  assert (Hundo : write_rows (write_rows m (map (fun c => (fst c, snd (snd c))) cells)) (map (fun c => (fst c, fst (snd c))) cells) = m).
  { apply write_rows_undo. intros c Hc. destruct (Hcell c Hc) as (w & x & _ & _ & _ & E1 & E2 & _). congruence. }
  split; [|split; [reflexivity|]].
  - unfold restore_cache. cbn [h_alt h_buf b_meta b_st option_map].
    destruct (map (fun c => (fst c, fst (snd c))) cells) as [|a l] eqn:Ea.
    + assert (Hc0 : cells = []) by (destruct cells; [reflexivity|discriminate]). rewrite Hc0 in *. cbn [map].
      unfold write_rows. cbn [fold_left]. destruct b as [s mm]. cbn in Hm |- *. rewrite Hm. reflexivity.
    + rewrite Hundo. destruct b as [s mm]. cbn in Hm |- *. rewrite Hm. reflexivity.
  - intros i x Hx. cbn [h_buf b_meta meta_rows]. rewrite Hm in Hx. cbn [meta_rows] in Hx.
    destruct (nth_error (write_rows m (map (fun c => (fst c, snd (snd c))) cells)) i) as [y|] eqn:Ey.
    2:{ apply nth_error_None in Ey. rewrite write_rows_length in Ey. apply nth_error_None in Ey. congruence. }
    apply write_rows_cases in Ey as [Ey|Ey].
    + exists x. split; [congruence|apply same_refl].
    + apply in_map_iff in Ey as (c & Ec & Hc). injection Ec as <- <-.
      destruct (Hcell c Hc) as (w & x1 & _ & _ & _ & _ & E2 & x' & E3 & E4).
      exists x'. split; [congruence|].
      unfold row_at in E2. apply nth_error_nth with (d := None) in Hx. rewrite Hx in E2. injection E2 as ->. exact E4.
Qed.

(** C17: a HER buffer and a plain buffer under the same calls. *)
Lemma run_sim o n : stack_num o = 1 -> 0 < n -> forall ops b h q,
  reach r0 radd last_frame o n b q -> hrel h b -> Forall (hop_ok r0 radd last_frame o) ops ->
  match plain_run r0 radd last_frame o b ops with
  | Ok (b', outs) => exists h', h_run r0 radd last_frame rew_fn o h ops = Ok (h', outs) /\ hrel h' b'
                       /\ exists q', reach r0 radd last_frame o n b' q'
  | Err e => h_run r0 radd last_frame rew_fn o h ops = Err e
  end.
Proof.
  intros Ho Hn. induction ops as [|op ops IH]; intros b h q Hr Hh Hok.
  - cbn. exists h. eauto.
  - inversion Hok as [|? ? Hop Hok']; subst. pose proof (reach_inv r0 radd last_frame o n b q Hr Hn) as Hinv.
    destruct Hh as (Hh1 & Hh2 & Hh3).
    destruct op as [t|keep|src|rnd bs hz offs hsel]; cbn [plain_run h_run].
    + unfold h_add. rewrite Hh1. cbn [h_buf h_alt].
      destruct (add r0 radd last_frame o b t) as [[b1 r]|e] eqn:Ea; cbn [bind fst snd]; [|reflexivity].
      specialize (IH b1 (mkHer b1 []) _ (reach_add _ _ _ _ _ _ _ _ _ _ Hr Ea) (hrel_refl b1) Hok').
      destruct (plain_run r0 radd last_frame o b1 ops) as [[b' outs]|e]; cbn [bind fst snd].
      * destruct IH as (h' & E & Hh' & Hq'). rewrite E. cbn [bind fst snd]. exists h'. auto.
      * rewrite IH. reflexivity.
    + unfold h_reset. rewrite Hh1. cbn [h_buf h_alt].
      specialize (IH _ (mkHer (buf_reset r0 keep b) []) _ (reach_reset _ _ _ _ _ _ _ keep Hr) (hrel_refl _) Hok').
      destruct (plain_run r0 radd last_frame o (buf_reset r0 keep b) ops) as [[b' outs]|e]; cbn [bind fst snd].
      * destruct IH as (h' & E & Hh' & Hq'). rewrite E. cbn [bind fst snd]. exists h'. auto.
      * rewrite IH. reflexivity.
    + unfold h_update. rewrite Hh1. cbn [h_buf h_alt].
      destruct (update b src) as [[b1 r]|e] eqn:Ea; cbn [bind fst snd]; [|reflexivity].
      destruct Hop as (n2 & q2 & Hn2 & Hr2).
      specialize (IH b1 (mkHer b1 []) _ (reach_update _ _ _ _ _ _ _ _ _ _ _ _ Hr Hr2 Ea) (hrel_refl b1) Hok').
      destruct (plain_run r0 radd last_frame o b1 ops) as [[b' outs]|e]; cbn [bind fst snd].
      * destruct IH as (h' & E & Hh' & Hq'). rewrite E. cbn [bind fst snd]. exists h'. auto.
      * rewrite IH. reflexivity.
    + unfold h_sample. rewrite Hh1. cbn [h_buf h_alt].
      destruct (sample_indices o b rnd bs) as [l|e] eqn:Ea; cbn [bind fst snd]; [|reflexivity].
      destruct (rewrite_hrel n b q o l hz offs hsel Hinv (reach_shape o n b q Hr) Ho (sample_in n b q o rnd bs l Hinv Ho Ea))
        as (h1 & E1 & Hh1').
      rewrite E1. cbn [bind fst snd].
      specialize (IH b h1 q Hr Hh1' Hok').
      destruct (plain_run r0 radd last_frame o b ops) as [[b' outs]|e]; cbn [bind fst snd].
      * destruct IH as (h' & E & Hh' & Hq'). rewrite E. cbn [bind fst snd]. exists h'. auto.
      * rewrite IH. reflexivity.
Qed.
End Reach.
