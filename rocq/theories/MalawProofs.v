(** * Proofs: the multi-agent manager with policies that act row by row *)
From Verif Require Import Py PyLemmas MaModel MaProofs.
From Coq Require Import Permutation.
Open Scope nat_scope.

Lemma take_nth {X} (l : list X) : forall index r j i, take l index = Ok r -> nth_error index j = Some i -> nth_error r j = nth_error l i.
Proof.
  induction index as [|x index IH]; intros r j i H Hj; [destruct j; discriminate|]. unfold take in H. cbn [mapM] in H. destruct (nth_error l x) as [y|] eqn:E; [|discriminate]. cbn [bind] in H.
  destruct (mapM _ index) as [r'|] eqn:F; [|discriminate]. cbn [bind] in H. injection H as <-. destruct j as [|j]; cbn in Hj |- *; [injection Hj as <-; symmetry; exact E|]. apply (IH r' j i F Hj).
Qed.
Lemma rows_of_rank {X} ids (rows : list X) a i : length ids = length rows -> nth_error ids i = Some a -> nth_error (rows_of ids rows a) (rank ids a i) = nth_error rows i.
Proof. intros L H. exact (take_nth rows (agent_index ids a) _ _ i (take_rows ids rows a L) (index_rank ids a i H)). Qed.
Lemma combine_nth' {X Y} : forall (a : list X) (b : list Y) i, nth_error (combine a b) i = match nth_error a i, nth_error b i with Some x, Some y => Some (x, y) | _, _ => None end.
Proof. induction a as [|x a IH]; intros [|y b] [|i]; cbn; try reflexivity; [destruct (nth_error a i); reflexivity|apply IH]. Qed.

(** C334.  If every agent's policy acts row by row, so does the manager: row [i] gets what the
    policy of its agent does for it. *)
Lemma C334_rowwise_lemma : forall (Row Act St : Type) (policy : nat -> option (option St) -> list Row -> res (list Act * option St))
    (g : nat -> option (option St) -> Row -> Act) (agents ids : list nat) (rows : list Row) (state : option (nat -> option St)),
  NoDup agents -> length ids = length rows -> (forall a, In a ids -> In a agents) ->
  (forall a st rs, exists s, policy a st rs = Ok (map (g a st) rs, s)) ->
  exists sts, forward policy agents ids rows state = Ok (map (fun ar => g (fst ar) (option_map (fun st => st (fst ar)) state) (snd ar)) (combine ids rows), sts).
Proof.
  intros Row Act St policy g agents ids rows state Hn Hl Hin Hp.
  set (st := fun a => option_map (fun s : nat -> option St => s a) state).
  set (acts := fun a => map (g a (st a)) (rows_of ids rows a)).
  set (sts := fun a => match policy a (st a) (rows_of ids rows a) with Ok x => snd x | Err _ => None end).
  destruct (C43_forward_lemma Row Act St policy agents ids rows state acts sts Hn Hl Hin) as (act & E & L & G).
  { intros a Ha Hne. unfold acts, sts. fold (st a). destruct (Hp a (st a) (rows_of ids rows a)) as (s & Es). rewrite Es. split; [reflexivity|apply map_length]. }
  rewrite E. eexists. f_equal. f_equal. apply nth_error_ext. intros i. rewrite nth_error_map, combine_nth'.
  destruct (nth_error ids i) as [a|] eqn:Ea.
  - destruct (G i a Ea) as (x & X1 & X2). unfold acts in X2. rewrite nth_error_map, (rows_of_rank ids rows a i Hl Ea) in X2. rewrite X1. destruct (nth_error rows i) as [r|]; [|discriminate]. symmetry. exact X2.
  - apply nth_error_None. apply nth_error_None in Ea. lia.
Qed.
(** C334.  Hence rows in another order get their actions in that order. *)
Lemma C334_order_lemma : forall (Row Act St : Type) (policy : nat -> option (option St) -> list Row -> res (list Act * option St))
    (g : nat -> option (option St) -> Row -> Act) (agents agents' : list nat) (l l' : list (nat * Row)) (state : option (nat -> option St)) act sts,
  NoDup agents -> Permutation agents agents' -> (forall a, In a (map fst l) -> In a agents) ->
  (forall a st rs, exists s, policy a st rs = Ok (map (g a st) rs, s)) ->
  Permutation l l' -> forward policy agents (map fst l) (map snd l) state = Ok (act, sts) ->
  exists act' sts', forward policy agents' (map fst l') (map snd l') state = Ok (act', sts') /\ Permutation (combine l act) (combine l' act').
Proof.
  intros Row Act St policy g agents agents' l l' state act sts Hn Pa Hin Hp Pl E.
  assert (C : forall m : list (nat * Row), combine (map fst m) (map snd m) = m) by (induction m as [|[a r] m IH]; [reflexivity|cbn; rewrite IH; reflexivity]).
  destruct (C334_rowwise_lemma Row Act St policy g agents (map fst l) (map snd l) state Hn) as (sts1 & E1); [rewrite !map_length; reflexivity|exact Hin|exact Hp|].
  rewrite C, E in E1. injection E1 as -> _.
  destruct (C334_rowwise_lemma Row Act St policy g agents' (map fst l') (map snd l') state) as (sts2 & E2); [apply (Permutation_NoDup Pa), Hn|rewrite !map_length; reflexivity| |exact Hp|].
  { intros a Ha. apply (Permutation_in _ Pa), Hin. apply (Permutation_in _ (Permutation_sym (Permutation_map fst Pl))), Ha. }
  rewrite C in E2. eexists _, _. split; [exact E2|].
  set (f := fun ar : nat * Row => g (fst ar) (option_map (fun st => st (fst ar)) state) (snd ar)).
  assert (M : forall m, combine m (map f m) = map (fun x => (x, f x)) m) by (induction m as [|x m IH]; [reflexivity|cbn; rewrite IH; reflexivity]).
  rewrite !M. apply Permutation_map, Pl.
Qed.
(** C334.  And cutting the batch in two changes nothing. *)
Lemma C334_parts_lemma : forall (Row Act St : Type) (policy : nat -> option (option St) -> list Row -> res (list Act * option St))
    (g : nat -> option (option St) -> Row -> Act) (agents ids1 ids2 : list nat) (rows1 rows2 : list Row) (state : option (nat -> option St)) act1 act2 sts1 sts2,
  NoDup agents -> length ids1 = length rows1 -> length ids2 = length rows2 -> (forall a, In a (ids1 ++ ids2) -> In a agents) ->
  (forall a st rs, exists s, policy a st rs = Ok (map (g a st) rs, s)) ->
  forward policy agents ids1 rows1 state = Ok (act1, sts1) -> forward policy agents ids2 rows2 state = Ok (act2, sts2) ->
  exists sts, forward policy agents (ids1 ++ ids2) (rows1 ++ rows2) state = Ok (act1 ++ act2, sts).
Proof.
  intros Row Act St policy g agents ids1 ids2 rows1 rows2 state act1 act2 sts1 sts2 Hn L1 L2 Hin Hp E1 E2.
  destruct (C334_rowwise_lemma Row Act St policy g agents ids1 rows1 state Hn L1) as (s1 & F1); [intros a Ha; apply Hin, in_or_app; left; exact Ha|exact Hp|]. rewrite E1 in F1. injection F1 as -> _.
  destruct (C334_rowwise_lemma Row Act St policy g agents ids2 rows2 state Hn L2) as (s2 & F2); [intros a Ha; apply Hin, in_or_app; right; exact Ha|exact Hp|]. rewrite E2 in F2. injection F2 as -> _.
  destruct (C334_rowwise_lemma Row Act St policy g agents (ids1 ++ ids2) (rows1 ++ rows2) state Hn) as (s & F); [rewrite !app_length; congruence|exact Hin|exact Hp|].
  exists s. rewrite F. f_equal. f_equal. rewrite <- map_app. f_equal. clear - L1. revert rows1 L1. induction ids1 as [|a ids1 IH]; intros [|r rows1] H; try discriminate; [reflexivity|]. cbn. f_equal. apply IH. injection H; auto.
Qed.
