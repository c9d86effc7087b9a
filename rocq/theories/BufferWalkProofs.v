From Verif Require Import Py PyLemmas BufferModel BufferSpec BufferProofs.
Open Scope nat_scope.

Lemma zmod_case a n : (0 < n -> - n <= a < 2 * n ->
  a mod n = if a <? 0 then a + n else if a <? n then a else a - n)%Z.
Proof.
  intros Hn Ha. destruct (Z.ltb_spec a 0).
  - symmetry. apply (Z.mod_unique a n (-1)); lia.
  - destruct (Z.ltb_spec a n).
    + apply Z.mod_small. lia.
    + symmetry. apply (Z.mod_unique a n 1); lia.
Qed.

Section BufferWalk.
Context {Ob A Inf R : Type}.
Notation trans := (trans Ob A Inf R).
Notation slot := (slot Ob A Inf R).
Notation buf := (buf Ob A Inf R).
Notation bst := (bst R).
Notation inv := (@inv Ob A Inf R).

Lemma pos_last n (s : bst) : sinv n s -> 0 < size s -> last_index s = pos s (size s - 1).
Proof.
  intros [H1 H2 H3 H4 H5 H6 H7] H. rewrite H6. unfold pos.
  destruct (Nat.eqb_spec (size s) 0); [lia|].
  destruct (Nat.ltb_spec (size s) n) as [Hlt|Hge].
  - rewrite (H5 Hlt) in *. destruct (Nat.eqb_spec (size s) 0); [lia|].
    destruct (Nat.ltb_spec (size s + (size s - 1)) (size s)); lia.
  - destruct (Nat.eqb_spec (ins s) 0), (Nat.ltb_spec (ins s + (size s - 1)) (size s)); lia.
Qed.

Lemma pos_pred n (s : bst) p : sinv n s -> p < size s ->
  np_mod (Z.of_nat (pos s p) - 1) (Z.of_nat (size s))
  = Z.of_nat (pos s (if p =? 0 then size s - 1 else p - 1)).
Proof.
  intros Hs Hp. unfold np_mod. destruct (Z.eqb_spec (Z.of_nat (size s)) 0); [lia|].
  pose proof (pos_lt n s p Hs Hp). rewrite zmod_case by lia.
  destruct Hs as [H1 H2 H3 H4 H5 H6 H7]. unfold pos in *.
  destruct (Nat.ltb_spec (size s) n) as [Hlt|Hge]; [rewrite (H5 Hlt) in *|];
  destruct (Nat.eqb_spec p 0);
  repeat match goal with
   | |- context [?a <? ?b] => destruct (Nat.ltb_spec a b)
   | |- context [(?a <? ?b)%Z] => destruct (Z.ltb_spec a b)
   end; lia.
Qed.

Lemma pos_succ n (s : bst) p : sinv n s -> p < size s ->
  np_mod (Z.of_nat (pos s p) + 1) (Z.of_nat (size s))
  = Z.of_nat (pos s (if S p =? size s then 0 else S p)).
Proof.
  intros Hs Hp. unfold np_mod. destruct (Z.eqb_spec (Z.of_nat (size s)) 0); [lia|].
  pose proof (pos_lt n s p Hs Hp). rewrite zmod_case by lia.
  destruct Hs as [H1 H2 H3 H4 H5 H6 H7]. unfold pos in *.
  destruct (Nat.ltb_spec (size s) n) as [Hlt|Hge]; [rewrite (H5 Hlt) in *|];
  destruct (Nat.eqb_spec (S p) (size s));
  repeat match goal with
   | |- context [?a <? ?b] => destruct (Nat.ltb_spec a b)
   | |- context [(?a <? ?b)%Z] => destruct (Z.ltb_spec a b)
   end; lia.
Qed.

Lemma pos_mod n (s : bst) p : sinv n s -> p < size s ->
  np_mod (Z.of_nat (pos s p) + 0) (Z.of_nat (size s)) = Z.of_nat (pos s p).
Proof.
  intros Hs Hp. unfold np_mod. destruct (Z.eqb_spec (Z.of_nat (size s)) 0); [lia|].
  pose proof (pos_lt n s p Hs Hp). rewrite Z.add_0_r. apply Z.mod_small. lia.
Qed.

Lemma done_at n (b : buf) q m p :
  inv n b q -> b_meta b = Some m -> p < length q ->
  exists d, zget m (Z.of_nat (pos (b_st b) p)) = Ok d /\ slot_done d = qdone q p.
Proof.
  intros H Em Hp. destruct (nth_error q p) as [x|] eqn:Ex.
  2:{ apply nth_error_None in Ex. lia. }
  pose proof (i_data _ _ _ H p x Ex) as Hx. rewrite Em in Hx. cbn [meta_rows] in Hx.
  exists (Some x). split; [apply zget_nth_error; exact Hx|].
  unfold qdone. rewrite Ex. reflexivity.
Qed.

Lemma inv_meta n (b : buf) q : inv n b q -> q <> [] -> exists m, b_meta b = Some m.
Proof.
  intros H Hne. destruct (b_meta b) as [m|] eqn:Em; [eauto|].
  exfalso. apply Hne. apply (i_none _ _ _ H Em).
Qed.

Lemma pred_of_lt (q : list slot) p : p < length q -> pred_of q p < length q.
Proof. unfold pred_of. destruct (_ || _); lia. Qed.

Lemma succ_of_lt (q : list slot) p : p < length q -> succ_of q p < length q.
Proof. unfold succ_of. destruct (Nat.eqb_spec (S p) (length q)); cbn [orb]; [lia|]. destruct (qdone q p); lia. Qed.

(** Indices of queue positions, as Python integers. *)
Definition zpos (b : buf) (p : nat) : Z := Z.of_nat (pos (b_st b) p).

Lemma prev_ok n b q ps : inv n b q -> q <> [] -> (forall p, In p ps -> p < length q) ->
  prev b (map (zpos b) ps) = Ok (map (fun p => zpos b (pred_of q p)) ps).
Proof.
  intros H Hne Hps. unfold prev.
  destruct (inv_meta n b q H Hne) as [m Em]. rewrite Em.
  pose proof (i_s _ _ _ H) as Hs. pose proof (i_len _ _ _ H) as Hl.
  induction ps as [|p ps IH]; [reflexivity|]. cbn [map mapM]. cbv beta zeta.
  assert (Hp : p < size (b_st b)) by (rewrite <- Hl; apply Hps; left; reflexivity).
  rewrite IH by (intros p' Hp'; apply Hps; right; exact Hp'). clear IH Hps.
  change (zpos b p) with (Z.of_nat (pos (b_st b) p)). rewrite !(pos_pred n) by assumption.
  rewrite (pos_last n) by (assumption || lia).
  set (p1 := if p =? 0 then size (b_st b) - 1 else p - 1).
  assert (Hp1 : p1 < size (b_st b)) by (unfold p1; destruct (Nat.eqb_spec p 0); lia).
  destruct (done_at n b q m p1 H Em ltac:(lia)) as (d & -> & Hd). cbn [bind]. rewrite Hd.
  assert (E : np_mod (Z.of_nat (pos (b_st b) p1) +
     (if qdone q p1 || (Z.of_nat (pos (b_st b) p1) =? Z.of_nat (pos (b_st b) (size (b_st b) - 1)))%Z
      then 1 else 0)) (Z.of_nat (size (b_st b))) = zpos b (pred_of q p)).
  { unfold pred_of, zpos. destruct (Nat.eqb_spec p 0) as [->|Hp0].
    - unfold p1 in *. clear p1. cbn [Nat.eqb] in *. rewrite Z.eqb_refl, orb_true_r. cbn [orb].
      rewrite (pos_succ n) by assumption.
      destruct (Nat.eqb_spec (S (size (b_st b) - 1)) (size (b_st b))); [reflexivity|lia].
    - assert (p1 = p - 1) as ->
        by (unfold p1; destruct (Nat.eqb_spec p 0); [contradiction|reflexivity]).
      cbn [orb].
      destruct (Z.eqb_spec (Z.of_nat (pos (b_st b) (p - 1)))
                  (Z.of_nat (pos (b_st b) (size (b_st b) - 1)))) as [Ep|Ep].
      { apply Nat2Z.inj in Ep. apply (pos_inj n) in Ep; [lia|assumption|lia|lia]. }
      rewrite orb_false_r. destruct (qdone q (p - 1)).
      + rewrite (pos_succ n) by (assumption || lia).
        destruct (Nat.eqb_spec (S (p - 1)) (size (b_st b))); [lia|].
        do 2 f_equal. lia.
      + apply (pos_mod n); assumption || lia. }
  rewrite E. reflexivity.
Qed.

Lemma next_ok n b q ps : inv n b q -> q <> [] -> (forall p, In p ps -> p < length q) ->
  next b (map (zpos b) ps) = Ok (map (fun p => zpos b (succ_of q p)) ps).
Proof.
  intros H Hne Hps. unfold next.
  destruct (inv_meta n b q H Hne) as [m Em]. rewrite Em.
  pose proof (i_s _ _ _ H) as Hs. pose proof (i_len _ _ _ H) as Hl.
  induction ps as [|p ps IH]; [reflexivity|]. cbn [map mapM]. cbv beta zeta.
  assert (Hp : p < size (b_st b)) by (rewrite <- Hl; apply Hps; left; reflexivity).
  rewrite IH by (intros p' Hp'; apply Hps; right; exact Hp'). clear IH Hps.
  change (zpos b p) with (Z.of_nat (pos (b_st b) p)).
  destruct (done_at n b q m p H Em ltac:(lia)) as (d & -> & Hd). cbn [bind]. rewrite Hd.
  rewrite (pos_last n) by (assumption || lia).
  assert (E : np_mod (Z.of_nat (pos (b_st b) p) + (1 -
     (if qdone q p || (Z.of_nat (pos (b_st b) p) =? Z.of_nat (pos (b_st b) (size (b_st b) - 1)))%Z
      then 1 else 0))) (Z.of_nat (size (b_st b))) = zpos b (succ_of q p)).
  { unfold succ_of, zpos. rewrite Hl.
    destruct (Nat.eqb_spec (S p) (size (b_st b))) as [Ep|Ep]; cbn [orb].
    - replace (size (b_st b) - 1) with p by lia. rewrite Z.eqb_refl, orb_true_r.
      apply (pos_mod n); assumption.
    - destruct (Z.eqb_spec (Z.of_nat (pos (b_st b) p))
                  (Z.of_nat (pos (b_st b) (size (b_st b) - 1)))) as [Eq|Eq].
      { apply Nat2Z.inj in Eq. apply (pos_inj n) in Eq; [lia|assumption|lia|lia]. }
      rewrite orb_false_r. destruct (qdone q p).
      + apply (pos_mod n); assumption.
      + change (1 - 0)%Z with 1%Z. rewrite (pos_succ n) by assumption.
        destruct (Nat.eqb_spec (S p) (size (b_st b))); [contradiction|reflexivity]. }
  rewrite E. reflexivity.
Qed.

Lemma unfinished_ok n b q : inv n b q -> b_meta b <> None ->
  unfinished_index b = Ok (if (length q =? 0) || qdone q (length q - 1) then []
                           else [pos (b_st b) (length q - 1)]).
Proof.
  intros H Hm. unfold unfinished_index. destruct (b_meta b) as [m|] eqn:Em; [|contradiction].
  pose proof (i_s _ _ _ H) as Hs. pose proof (i_len _ _ _ H) as Hl. rewrite Hl.
  destruct (Nat.eqb_spec (size (b_st b)) 0) as [E|E]; cbn [orb negb].
  - pose proof (i_rows _ _ _ H) as Hr. rewrite Em in Hr. cbn [meta_rows] in Hr.
    pose proof (i_pos _ _ Hs). change 0%Z with (Z.of_nat 0).
    rewrite (zget_nat m 0 None) by lia. cbn [bind]. rewrite andb_false_r. reflexivity.
  - assert (E1 : ((Z.of_nat (ins (b_st b)) - 1) mod Z.of_nat (size (b_st b)))%Z
               = Z.of_nat (pos (b_st b) (size (b_st b) - 1))).
    { destruct Hs as [H1 H2 H3 H4 H5 H6 H7].
      destruct (Nat.ltb_spec (size (b_st b)) n) as [Hlt|Hge].
      - specialize (H5 Hlt). rewrite H5. rewrite zmod_case by lia.
        unfold pos. rewrite H5.
        destruct (Nat.ltb_spec (size (b_st b) + (size (b_st b) - 1)) (size (b_st b))); [lia|].
        destruct (Z.ltb_spec (Z.of_nat (size (b_st b)) - 1) 0); [lia|].
        destruct (Z.ltb_spec (Z.of_nat (size (b_st b)) - 1) (Z.of_nat (size (b_st b)))); lia.
      - rewrite zmod_case by lia. unfold pos.
        repeat match goal with
         | |- context [?a <? ?b] => destruct (Nat.ltb_spec a b)
         | |- context [(?a <? ?b)%Z] => destruct (Z.ltb_spec a b)
         end; lia. }
    rewrite E1. destruct (done_at n b q m (size (b_st b) - 1) H Em ltac:(lia)) as (d & -> & Hd).
    cbn [bind]. rewrite Hd, andb_true_r, Nat2Z.id. destruct (qdone q _); reflexivity.
Qed.

(** ** Stacking *)

(** [j] predecessor steps. *)
Fixpoint back (q : list slot) (j p : nat) : nat :=
  match j with 0 => p | S j => back q j (pred_of q p) end.

Lemma back_lt q j p : p < length q -> back q j p < length q.
Proof. revert p; induction j as [|j IH]; intros p Hp; simpl; [exact Hp|]. apply IH, pred_of_lt, Hp. Qed.

Lemma back_S q j p : back q (S j) p = pred_of q (back q j p).
Proof. revert p; induction j as [|j IH]; intros p; [reflexivity|]. change (back q (S (S j)) p) with (back q (S j) (pred_of q p)). rewrite IH. reflexivity. Qed.

Lemma first_of_le (q : list slot) p : first_of q p <= p.
Proof. induction p as [|p IH]; simpl; [lia|]. destruct (qdone q p); lia. Qed.

Lemma first_of_pred (q : list slot) p : first_of q (pred_of q p) = first_of q p.
Proof.
  unfold pred_of. destruct p as [|p]; [reflexivity|]. cbn [Nat.eqb orb]. rewrite Nat.sub_succ, Nat.sub_0_r.
  destruct (qdone q p) eqn:E; [reflexivity|]. simpl. rewrite E. reflexivity.
Qed.

Lemma pred_of_first (q : list slot) p : pred_of q p = Nat.max (first_of q p) (p - 1).
Proof.
  unfold pred_of. destruct p as [|p]; [reflexivity|]. cbn [Nat.eqb orb]. rewrite Nat.sub_succ, Nat.sub_0_r.
  simpl. destruct (qdone q p); [lia|]. pose proof (first_of_le q p). lia.
Qed.

Lemma back_first q j p : back q j p = Nat.max (first_of q p) (p - j).
Proof.
  induction j as [|j IH].
  - simpl. pose proof (first_of_le q p). lia.
  - rewrite back_S, pred_of_first, IH.
    assert (E : forall x, first_of q p <= x <= p -> first_of q x = first_of q p).
    { intros x [Hx1 Hx2]. clear IH. revert x Hx1 Hx2. induction p as [|p IHp]; intros x Hx1 Hx2.
      - replace x with 0 by lia. reflexivity.
      - simpl in *. destruct (qdone q p) eqn:Ed.
        + replace x with (S p) by lia. simpl. rewrite Ed. reflexivity.
        + destruct (Nat.eq_dec x (S p)) as [->|Hne]; [simpl; rewrite Ed; reflexivity|].
          apply IHp; lia. }
    rewrite E by (pose proof (first_of_le q p); lia). lia.
Qed.

Lemma get_loop_ok n b q : inv n b q -> q <> [] -> forall k ps stack,
  (forall p, In p ps -> p < length q) ->
  get_loop k b (map (zpos b) ps) stack
  = Ok (rev (map (fun j => map (fun p => nth_error q (back q j p)) ps) (seq 0 k)) ++ stack).
Proof.
  intros H Hne. induction k as [|k IH]; intros ps stack Hps; [reflexivity|].
  cbn [get_loop].
  pose proof (rows_at_stored n b q ps H Hne Hps) as Hrow. rewrite map_map in Hrow.
  unfold zpos at 1. rewrite Hrow. cbn [bind].
  rewrite (prev_ok n b q ps H Hne Hps). cbn [bind].
  rewrite <- (map_map (pred_of q) (zpos b)).
  rewrite IH.
  2:{ intros p Hp. apply in_map_iff in Hp as [p0 [<- Hp0]]. apply pred_of_lt, Hps, Hp0. }
  rewrite <- cons_seq, <- seq_shift. cbn [map rev]. rewrite map_map, <- app_assoc. cbn [app].
  f_equal. f_equal. f_equal. apply map_ext. intros j. rewrite map_map. reflexivity.
Qed.

Lemma nth_rev_seq {X} (f : nat -> X) k i : i < k ->
  nth_error (rev (map f (seq 0 k))) i = Some (f (k - 1 - i)).
Proof.
  intros Hi. rewrite (nth_error_nth' _ (f 0)) by (rewrite rev_length, map_length, seq_length; lia).
  rewrite rev_nth by (rewrite map_length, seq_length; lia).
  rewrite map_length, seq_length, map_nth, seq_nth by lia. do 2 f_equal. lia.
Qed.

Lemma map_rev_seq {X Y} (f : nat -> X) (g : X -> Y) k :
  map g (rev (map f (seq 0 k))) = map (fun j => g (f (k - 1 - j))) (seq 0 k).
Proof.
  apply nth_error_ext. intros i. rewrite nth_error_map_seq, nth_error_map.
  destruct (Nat.ltb_spec i k) as [Hi|Hi].
  - rewrite nth_rev_seq by exact Hi. reflexivity.
  - assert (E : nth_error (rev (map f (seq 0 k))) i = None)
      by (apply nth_error_None; rewrite rev_length, map_length, seq_length; lia).
    rewrite E. reflexivity.
Qed.

(** Stacked rows of queue position [p]: oldest first, clipped to the episode. *)
Definition frames (q : list slot) (k p : nat) : list (option slot) :=
  map (fun j => nth_error q (Nat.max (first_of q p) (p - (k - 1 - j)))) (seq 0 k).

Lemma get_rows_ok n b q k ps : inv n b q -> q <> [] -> 0 < k ->
  (forall p, In p ps -> p < length q) ->
  get_rows b k (map (zpos b) ps) = Ok (map (frames q k) ps).
Proof.
  intros H Hne Hk Hps. unfold get_rows.
  destruct (Nat.eqb_spec k 1) as [->|Hk1].
  - pose proof (rows_at_stored n b q ps H Hne Hps) as Hrow. rewrite map_map in Hrow.
    unfold zpos. rewrite Hrow. cbn [bind]. rewrite map_map. f_equal. apply map_ext_in.
    intros p Hp. unfold frames. cbn [seq map]. pose proof (first_of_le q p).
    do 2 f_equal. lia.
  - rewrite (get_loop_ok n b q H Hne k ps [] Hps). cbn [bind]. rewrite app_nil_r.
    f_equal. unfold transpose. rewrite map_length.
    apply nth_error_ext. intros i. rewrite nth_error_map_seq, nth_error_map.
    destruct (Nat.ltb_spec i (length ps)) as [Hi|Hi].
    + destruct (nth_error ps i) as [p|] eqn:Ep; [|apply nth_error_None in Ep; lia].
      cbn [option_map]. f_equal. rewrite map_rev_seq. unfold frames.
      apply map_ext. intros j. simpl (0 + i).
      rewrite (nth_indep _ None (nth_error q (back q (k - 1 - j) 0)))
        by (rewrite map_length; lia).
      rewrite (map_nth (fun p0 => nth_error q (back q (k - 1 - j) p0))).
      rewrite (nth_error_nth _ _ 0 Ep). rewrite back_first. reflexivity.
    + apply nth_error_None in Hi. rewrite Hi. reflexivity.
Qed.

(** ** Sampling *)

Lemma prev_n_ok n b q : inv n b q -> q <> [] -> forall k ps,
  (forall p, In p ps -> p < length q) ->
  prev_n b k (map (zpos b) ps) = Ok (map (fun p => zpos b (back q k p)) ps).
Proof.
  intros H Hne. induction k as [|k IH]; intros ps Hps; [reflexivity|].
  cbn [prev_n]. rewrite (prev_ok n b q ps H Hne Hps). cbn [bind].
  rewrite <- (map_map (pred_of q) (zpos b)). rewrite IH.
  - rewrite map_map. reflexivity.
  - intros p Hp. apply in_map_iff in Hp as [p0 [<- Hp0]]. apply pred_of_lt, Hps, Hp0.
Qed.

Lemma prev_nil (b : buf) : b_meta b <> None -> prev b [] = Ok [].
Proof. unfold prev. destruct (b_meta b); [reflexivity|contradiction]. Qed.

Lemma prev_n_nil (b : buf) k : b_meta b <> None -> prev_n b k [] = Ok [].
Proof. intros H. induction k as [|k IH]; [reflexivity|]. cbn [prev_n]. rewrite prev_nil by exact H. exact IH. Qed.

(** Positions with [k] stored transitions of their episode ending there. *)
Definition has_stack (q : list slot) (k p : nat) : bool := first_of q p + k <=? p + 1.

Lemma choice_in {T} rnd (l : list T) k r : choice rnd l k = Ok r -> length r = k /\ forall x, In x r -> In x l.
Proof.
  unfold choice. destruct (_ && _); [discriminate|]. intros H.
  split.
  - rewrite (mapM_length _ _ _ H), seq_length. reflexivity.
  - intros x Hx. apply In_nth_error in Hx as [i Hi].
    assert (Hlt : i < k).
    { apply (mapM_length _ _ _) in H. rewrite seq_length in H.
      assert (i < length r) by (apply nth_error_Some; congruence). lia. }
    assert (Hsq : nth_error (seq 0 k) i = Some i).
    { rewrite (nth_error_nth' _ 0) by (rewrite seq_length; lia). rewrite seq_nth by lia. reflexivity. }
    destruct (mapM_nth _ _ _ _ _ H Hsq) as (y & Hy & Hf). rewrite Hi in Hy. injection Hy as <-.
    destruct (nth_error l (rnd i mod length l)) as [z|] eqn:Ez; [|discriminate].
    injection Hf as ->. apply (nth_error_In _ _ Ez).
Qed.

Lemma choice_ok {T} rnd (l : list T) k : l <> [] -> exists r, choice rnd l k = Ok r.
Proof.
  intros Hl. unfold choice. destruct l as [|x l]; [contradiction|]. cbn [length Nat.eqb andb].
  eexists. apply (mapM_Ok _ (fun j => nth (rnd j mod S (length l)) (x :: l) x)).
  intros j _. rewrite (nth_error_nth' _ x); [reflexivity|].
  cbn [length]. pose proof (Nat.mod_upper_bound (rnd j) (S (length l))). lia.
Qed.

Lemma filter_combine_map {X} (f : nat -> bool) (g : nat -> X) (h1 h2 : nat -> Z) ps :
  (forall p, In p ps -> negb (h1 p =? h2 p)%Z = f p) ->
  map fst (filter (fun x => negb (fst (snd x) =? snd (snd x))%Z)
     (combine (map g ps) (combine (map h1 ps) (map h2 ps)))) = map g (filter f ps).
Proof.
  induction ps as [|p ps IH]; intros H; [reflexivity|]. cbn [map combine filter fst snd].
  rewrite (H p) by (left; reflexivity).
  destruct (f p); cbn [map]; rewrite IH by (intros p' Hp'; apply H; right; exact Hp'); reflexivity.
Qed.

(** The indices [sample_indices] chooses from. *)
Definition avail_positions (o : opts) (q : list slot) : list nat :=
  filter (fun p => (stack_num o =? 1) || negb (sample_avail o) || has_stack q (stack_num o) p)
    (seq 0 (length q)).

Lemma filter_true {X} (f : X -> bool) l : (forall x, In x l -> f x = true) -> filter f l = l.
Proof.
  induction l as [|x l IH]; intros H; [reflexivity|]. cbn [filter].
  rewrite (H x) by (left; reflexivity). f_equal. apply IH. intros y Hy. apply H. right. exact Hy.
Qed.

Lemma sample_zero_ok n b q o rnd : inv n b q -> 0 < stack_num o -> b_meta b <> None ->
  sample_indices o b rnd (Some 0%Z) = Ok (map (pos (b_st b)) (avail_positions o q))
  /\ (forall bs, (0 < bs)%Z ->
       sample_indices o b rnd (Some bs) = choice rnd
         (if (stack_num o =? 1) || negb (sample_avail o) then seq 0 (length q)
          else map (pos (b_st b)) (avail_positions o q)) (Z.to_nat bs)).
Proof.
  intros H Hk Hm. unfold sample_indices, avail_positions.
  pose proof (i_s _ _ _ H) as Hs. pose proof (i_len _ _ _ H) as Hl.
  destruct ((stack_num o =? 1) || negb (sample_avail o)) eqn:Eo.
  - split.
    + simpl (0 <? 0)%Z. simpl (0 =? 0)%Z. cbv iota.
      rewrite filter_true by reflexivity. rewrite (all_indices_pos n) by exact Hs. rewrite Hl. reflexivity.
    + intros bs Hbs. destruct (Z.ltb_spec 0 bs); [|lia]. rewrite Hl. reflexivity.
  - apply orb_false_iff in Eo as [Eo1 Eo2]. apply Nat.eqb_neq in Eo1.
    assert (F : let all := all_indices (b_st b) in
       exists pi pp, prev_n b (stack_num o - 2) (map Z.of_nat all) = Ok pi /\ prev b pi = Ok pp
         /\ map fst (filter (fun x => negb (fst (snd x) =? snd (snd x))%Z)
                          (combine all (combine pi pp)))
            = map (pos (b_st b)) (filter (fun p => false || has_stack q (stack_num o) p) (seq 0 (length q)))).
    { cbn zeta. rewrite (all_indices_pos n) by exact Hs. rewrite <- Hl.
      destruct q as [|x0 q0] eqn:Eq.
      - cbn [length seq map filter]. exists [], [].
        rewrite prev_n_nil, prev_nil by exact Hm. auto.
      - rewrite <- Eq in *. assert (Hne : q <> []) by (rewrite Eq; discriminate).
        assert (Hps : forall p, In p (seq 0 (length q)) -> p < length q)
          by (intros p Hp; apply in_seq in Hp; lia).
        rewrite map_map. change (fun x : nat => Z.of_nat (pos (b_st b) x)) with (zpos b).
        pose proof (prev_n_ok n b q H Hne (stack_num o - 2) (seq 0 (length q)) Hps) as E1.
        rewrite E1.
        assert (E2 : prev b (map (fun p => zpos b (back q (stack_num o - 2) p)) (seq 0 (length q)))
                     = Ok (map (fun p => zpos b (back q (S (stack_num o - 2)) p)) (seq 0 (length q)))).
        { rewrite <- (map_map (back q (stack_num o - 2)) (zpos b)).
          rewrite (prev_ok n b q _ H Hne).
          - rewrite map_map. f_equal. apply map_ext. intros p. rewrite back_S. reflexivity.
          - intros p Hp. apply in_map_iff in Hp as [p0 [<- Hp0]]. apply back_lt, Hps, Hp0. }
        do 2 eexists. split; [reflexivity|]. split; [exact E2|].
        apply filter_combine_map. intros p Hp. apply Hps in Hp.
        unfold zpos, has_stack. rewrite !back_first. cbn [orb].
        pose proof (first_of_le q p) as Hf.
        destruct (Nat.leb_spec (first_of q p + stack_num o) (p + 1)) as [Hle|Hgt].
        + apply negb_true_iff, Z.eqb_neq. intros E. apply Nat2Z.inj in E.
          apply (pos_inj n) in E; [lia|exact Hs|lia|lia].
        + apply negb_false_iff, Z.eqb_eq. do 2 f_equal. lia. }
    cbn zeta in F. destruct F as (pi & pp & E1 & E2 & E3). split.
    + simpl (0 <? 0)%Z. cbv iota. rewrite E1. cbn [bind]. rewrite E2. cbn [bind].
      rewrite E3. reflexivity.
    + intros bs Hbs. destruct (Z.ltb_spec bs 0); [lia|]. destruct (Z.ltb_spec 0 bs); [|lia].
      rewrite E1. cbn [bind]. rewrite E2. cbn [bind]. rewrite E3. reflexivity.
Qed.

End BufferWalk.
