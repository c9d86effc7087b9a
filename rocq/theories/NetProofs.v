(** * Proofs about the networks *)
From Verif Require Import Py PyLemmas Num DqnModel DqnProofs StatModel StatProofs OfflineModel OfflineProofs QuantModel QuantProofs NetModel NetSpec.
Open Scope nat_scope.

(** ** Construction *)
Lemma last_cons {T} (x : T) l d : last (x :: l) d = last l x.
Proof. revert x d. induction l as [|y l IH]; intros x d; [reflexivity|]. change (last (x :: y :: l) d) with (last (y :: l) d). rewrite (IH y d), (IH y x). reflexivity. Qed.
Lemma last_app1 {T} (l : list T) x d : last (l ++ [x]) d = x.
Proof. revert d. induction l as [|y l IH]; intros d; [reflexivity|]. change ((y :: l) ++ [x]) with (y :: (l ++ [x])). rewrite last_cons. apply IH. Qed.
Lemma steps_cons x y l : steps (x :: y :: l) = (x, y) :: steps (y :: l).
Proof. reflexivity. Qed.
Lemma steps_snoc x l y : steps (x :: l ++ [y]) = steps (x :: l) ++ [(last l x, y)].
Proof.
  revert x. induction l as [|z l IH]; intros x; [reflexivity|].
  change (x :: (z :: l) ++ [y]) with (x :: z :: (l ++ [y])). rewrite steps_cons, IH, steps_cons, last_cons. reflexivity.
Qed.

Section C.
Context {Md A L : Type}.
Implicit Types (l : list (layer Md A L)) (k : L).
Lemma linears_app l m : linears (l ++ m) = linears l ++ linears m.
Proof. apply flat_map_app. Qed.
Lemma miniblock_ok i o (n : option (ctor Md)) (na : option (arg1 A)) a aa k b : miniblock i o n na a aa k = Ok b ->
  foldM layer_size b i = Ok o /\ linears b = [(k, (i, o))].
Proof.
  unfold miniblock. destruct n as [[m|]|]; cbn [call bind]; try discriminate; destruct a as [[m'|]|]; cbn [call bind]; try discriminate;
    intros E; injection E as <-; cbn [app foldM layer_size bind]; unfold guard; rewrite ?Nat.eqb_refl; cbn [bind layer_size]; unfold guard; rewrite ?Nat.eqb_refl; split; reflexivity.
Qed.
Lemma blocks_ok k hidden : forall i ns acts (b : list (layer Md A L)), blocks k i hidden ns acts = Ok b ->
  foldM layer_size b i = Ok (last hidden i) /\ linears b = map (pair k) (steps (i :: hidden)).
Proof.
  induction hidden as [|o hidden IH]; intros i ns acts b.
  - destruct ns, acts; cbn [blocks]; try discriminate; intros E; injection E as <-. split; reflexivity.
  - destruct ns as [|[n na] ns]; [cbn [blocks]; discriminate|]. destruct acts as [|[a aa] acts]; [cbn [blocks]; discriminate|].
    cbn [blocks]. destruct (miniblock i o n na a aa k) as [b1|] eqn:E1; cbn [bind]; [|discriminate].
    destruct (blocks k o hidden ns acts) as [b2|] eqn:E2; cbn [bind]; [|discriminate]. intros E; injection E as <-.
    destruct (miniblock_ok _ _ _ _ _ _ _ _ E1) as [S1 L1]. destruct (IH _ _ _ _ E2) as [S2 L2].
    split.
    + rewrite foldM_app, S1. cbn [bind]. rewrite S2, last_cons. reflexivity.
    + rewrite linears_app, L1, L2, steps_cons. reflexivity.
Qed.
Lemma expand_ok (l : lay Md) (g : args A) n : (exists r, expand l g n = Ok r /\ length (fst r) = n /\ length (snd r) = n /\ (n = 0 \/ ~ In (Some NotCallable) (fst r))) <-> accepted l g n.
Proof.
  unfold expand, accepted. destruct l as [|m|ms|ms]; cbn [truthy].
  - split; [trivial|]. intros _. eexists. split; [reflexivity|]. cbn [fst snd]. rewrite !repeat_length. repeat split. right. intros HI. apply repeat_spec in HI. discriminate.
  - split; [trivial|]. intros _. eexists. split; [reflexivity|]. cbn [fst snd]. rewrite !repeat_length. repeat split. right. intros HI. apply repeat_spec in HI. discriminate.
  - destruct ms as [|m ms].
    + cbn [length Nat.eqb negb]. split; [intros _; left; reflexivity|]. intros _. eexists. split; [reflexivity|]. cbn [fst snd]. rewrite !repeat_length. repeat split.
      right. intros HI. apply repeat_spec in HI. discriminate.
    + change (negb (length (m :: ms) =? 0)) with true. cbv iota. unfold guard. assert (NC : ~ In (Some NotCallable) (map (fun m0 : Md => Some (Cls m0)) (m :: ms))).
      { intros HI. apply in_map_iff in HI. destruct HI as [x [E _]]. discriminate. }
      destruct (length (m :: ms) =? n) eqn:E; [apply Nat.eqb_eq in E | apply Nat.eqb_neq in E].
      * destruct g as [|a|gs].
        -- split; [intros _; right; split; [exact E | exact Logic.I]|]. intros _. eexists. split; [reflexivity|]. cbn [fst snd]. rewrite map_length, repeat_length. cbn [length]. repeat split; [exact E | right; exact NC].
        -- split; [intros _; right; split; [exact E | exact Logic.I]|]. intros _. eexists. split; [reflexivity|]. cbn [fst snd]. rewrite map_length, repeat_length. cbn [length]. repeat split; [exact E | right; exact NC].
        -- destruct (length gs =? n) eqn:E'; [apply Nat.eqb_eq in E' | apply Nat.eqb_neq in E'].
           ++ split; [intros _; right; split; assumption|]. intros _. eexists. split; [reflexivity|]. cbn [fst snd]. rewrite map_length. cbn [length]. repeat split; [exact E | exact E' | right; exact NC].
           ++ split; [intros (r & H & _); discriminate|]. intros [H | [_ H]]; [discriminate | contradiction].
      * split; [intros (r & H & _); discriminate|]. intros [H | [H _]]; [discriminate | contradiction].
  - destruct ms as [|m ms].
    + cbn [length Nat.eqb negb]. split; [intros _; left; reflexivity|]. intros _. eexists. split; [reflexivity|]. cbn [fst snd]. rewrite !repeat_length. repeat split.
      right. intros HI. apply repeat_spec in HI. discriminate.
    + cbn [length Nat.eqb negb]. split.
      * intros (r & H & L1 & L2 & H0). injection H as <-. cbn [fst snd] in *. destruct n as [|n]; [right; reflexivity|]. exfalso. destruct H0 as [H0|H0]; [discriminate|]. apply H0. left. reflexivity.
      * intros [H|H]; [discriminate|]. subst n. eexists. split; [reflexivity|]. cbn. repeat split. left. reflexivity.
Qed.
Lemma blocks_total k hidden : forall i ns acts, length ns = length hidden -> length acts = length hidden ->
  (forall x, In x ns -> fst x <> Some NotCallable) -> (forall x, In x acts -> fst x <> Some NotCallable) ->
  exists b : list (layer Md A L), blocks k i hidden ns acts = Ok b.
Proof.
  induction hidden as [|o hidden IH]; intros i ns acts Ln La Hn Ha.
  - destruct ns; [|discriminate]. destruct acts; [|discriminate]. eexists. reflexivity.
  - destruct ns as [|[n na] ns]; [discriminate|]. destruct acts as [|[a aa] acts]; [discriminate|]. cbn [blocks].
    destruct (IH o ns acts) as [b E]; [cbn in Ln; lia | cbn in La; lia | intros x Hx; apply Hn; right; exact Hx | intros x Hx; apply Ha; right; exact Hx|].
    assert (N : n <> Some NotCallable) by (apply (Hn (n, na)); left; reflexivity).
    assert (N' : a <> Some NotCallable) by (apply (Ha (a, aa)); left; reflexivity).
    unfold miniblock. destruct n as [[m|]|]; [|congruence|]; (destruct a as [[m'|]|]; [|congruence|]); cbn [call bind]; rewrite E; cbn [bind]; eexists; reflexivity.
Qed.
Lemma blocks_bad k hidden : forall i ns acts, hidden <> [] ->
  ((exists na, hd_error ns = Some (Some NotCallable, na)) \/ (exists aa, hd_error acts = Some (Some NotCallable, aa))) ->
  is_ok (blocks (Md := Md) (A := A) k i hidden ns acts) = false.
Proof.
  intros i ns acts H0 H. destruct hidden as [|o hidden]; [congruence|]. destruct ns as [|[n na] ns]; [reflexivity|]. destruct acts as [|[a aa] acts]; [reflexivity|].
  cbn [blocks]. destruct H as [[x H]|[x H]]; cbn in H; injection H as -> ->; unfold miniblock; cbn [call bind]; [reflexivity|].
  destruct n as [[m|]|]; reflexivity.
Qed.
End C.
(** C176. Every MLP that can be built takes rows of [input_dim] to rows of its [output_dim], and its linear layers are the
    steps of the chain input, hidden sizes, output. *)
Lemma C176_sizes_lemma : forall (Md A L : Type) (k : L) (i o : nat) (hidden : list nat) (norm : lay Md) (nargs : args A)
    (act : lay Md) (aargs : args A) (fl : bool) (m : mlp Md A L),
  mlp_init k i o hidden norm nargs act aargs fl = Ok m ->
  layers_size i (m_layers m) = Ok (m_out m) /\
  linears (m_layers m) = map (pair k) (steps (i :: hidden ++ (if o =? 0 then [] else [o]))) /\
  m_out m = last (hidden ++ (if o =? 0 then [] else [o])) i /\ m_flat m = fl.
Proof.
  intros Md A L k i o hidden norm nargs act aargs fl m. unfold mlp_init.
  destruct (expand norm nargs (length hidden)) as [ns|] eqn:E1; cbn [bind]; [|discriminate].
  destruct (expand act aargs (length hidden)) as [xs|] eqn:E2; cbn [bind]; [|discriminate].
  destruct (blocks k i hidden (combine (fst ns) (snd ns)) (combine (fst xs) (snd xs))) as [b|] eqn:E3; cbn [bind]; [|discriminate].
  intros E; injection E as <-. cbn [m_layers m_out m_flat]. destruct (blocks_ok _ _ _ _ _ _ E3) as [S LN].
  unfold layers_size. rewrite foldM_app, S. cbn [bind]. rewrite linears_app, LN.
  destruct o as [|o]; cbn [Nat.ltb Nat.leb Nat.eqb].
  - rewrite !app_nil_r. repeat split.
  - cbn [foldM layer_size bind]. unfold guard. rewrite Nat.eqb_refl, steps_snoc, map_app. cbn. rewrite last_app1. repeat split.
Qed.
(** C176. An MLP can be built exactly from arguments whose lists have one entry per hidden layer; a tuple of classes is not a list. *)
Lemma C176_accepted_lemma : forall (Md A L : Type) (k : L) (i o : nat) (hidden : list nat) (norm : lay Md) (nargs : args A)
    (act : lay Md) (aargs : args A) (fl : bool),
  is_ok (mlp_init k i o hidden norm nargs act aargs fl) = true <->
  accepted norm nargs (length hidden) /\ accepted act aargs (length hidden).
Proof.
  intros Md A L k i o hidden norm nargs act aargs fl. unfold mlp_init. rewrite <- !expand_ok.
  assert (EX : forall (l : lay Md) (g : args A) r, expand l g (length hidden) = Ok r ->
    (length (fst r) = length hidden /\ length (snd r) = length hidden) /\
    ((length hidden = 0 \/ ~ In (Some NotCallable) (fst r)) \/ hd_error (fst r) = Some (Some NotCallable))).
  { clear. intros l g r. unfold expand. destruct l as [|m|ms|ms]; cbn [truthy].
    - intros E; injection E as <-. cbn [fst snd]. rewrite !repeat_length. split; [split; reflexivity|]. left. right. intros HI. apply repeat_spec in HI. discriminate.
    - intros E; injection E as <-. cbn [fst snd]. rewrite !repeat_length. split; [split; reflexivity|]. left. right. intros HI. apply repeat_spec in HI. discriminate.
    - destruct (negb (length ms =? 0)).
      + unfold guard. destruct (length ms =? length hidden) eqn:E; [|discriminate]. apply Nat.eqb_eq in E.
        destruct g as [|a|gs]; [| |destruct (length gs =? length hidden) eqn:E'; [apply Nat.eqb_eq in E'|discriminate]]; intros X; injection X as <-; cbn [fst snd];
          rewrite ?map_length, ?repeat_length; (split; [split; (assumption || reflexivity)|]); left; right; intros HI; apply in_map_iff in HI; destruct HI as [x [HE _]]; discriminate.
      + intros E; injection E as <-. cbn [fst snd]. rewrite !repeat_length. split; [split; reflexivity|]. left. right. intros HI. apply repeat_spec in HI. discriminate.
    - destruct (negb (length ms =? 0)).
      + intros E; injection E as <-. cbn [fst snd]. rewrite !repeat_length. split; [split; reflexivity|]. destruct (length hidden); [left; left; reflexivity | right; reflexivity].
      + intros E; injection E as <-. cbn [fst snd]. rewrite !repeat_length. split; [split; reflexivity|]. left. right. intros HI. apply repeat_spec in HI. discriminate. }
  assert (HC : forall (r : list (option (ctor Md)) * list (option (arg1 A))), (length hidden = 0 \/ ~ In (Some NotCallable) (fst r)) -> length hidden <> 0 ->
    forall x, In x (combine (fst r) (snd r)) -> fst x <> Some NotCallable).
  { clear. intros r [H|H] H0 [a b] HI; [contradiction|]. apply in_combine_l in HI. intros E. cbn in E. subst a. apply H. exact HI. }
  destruct (expand norm nargs (length hidden)) as [ns|] eqn:E1; cbn [bind]; [|split; [discriminate | intros ((r & H & _) & _); discriminate]].
  destruct (expand act aargs (length hidden)) as [xs|] eqn:E2; cbn [bind]; [|split; [discriminate | intros (_ & (r & H & _)); discriminate]].
  destruct (EX _ _ _ E1) as [[L1 L2] C1]. destruct (EX _ _ _ E2) as [[L3 L4] C2].
  assert (LN : length (combine (fst ns) (snd ns)) = length hidden) by (rewrite combine_length; lia).
  assert (LA : length (combine (fst xs) (snd xs)) = length hidden) by (rewrite combine_length; lia).
  split.
  - intros H. split.
    + exists ns. repeat split; try assumption. destruct C1 as [C1|C1]; [exact C1|]. destruct (Nat.eq_dec (length hidden) 0) as [Z|Z]; [left; exact Z|]. exfalso.
      assert (B' : is_ok (blocks k i hidden (combine (fst ns) (snd ns)) (combine (fst xs) (snd xs))) = false).
      { apply blocks_bad; [destruct hidden; [cbn in Z; congruence | discriminate]|]. left. destruct (fst ns) as [|c fn]; [discriminate|]. cbn in C1. injection C1 as ->.
        destruct (snd ns) as [|y sn]; [cbn in L1, L2; lia|]. exists y. reflexivity. }
      destruct (blocks k i hidden (combine (fst ns) (snd ns)) (combine (fst xs) (snd xs))); [discriminate B' | discriminate H].
    + exists xs. repeat split; try assumption. destruct C2 as [C2|C2]; [exact C2|]. destruct (Nat.eq_dec (length hidden) 0) as [Z|Z]; [left; exact Z|]. exfalso.
      assert (B' : is_ok (blocks k i hidden (combine (fst ns) (snd ns)) (combine (fst xs) (snd xs))) = false).
      { apply blocks_bad; [destruct hidden; [cbn in Z; congruence | discriminate]|]. right. destruct (fst xs) as [|c fn]; [discriminate|]. cbn in C2. injection C2 as ->.
        destruct (snd xs) as [|y sn]; [cbn in L3, L4; lia|]. exists y. reflexivity. }
      destruct (blocks k i hidden (combine (fst ns) (snd ns)) (combine (fst xs) (snd xs))); [discriminate B' | discriminate H].
  - intros [(r & R1 & _ & _ & H1) (r' & R2 & _ & _ & H2)]. injection R1 as <-. injection R2 as <-.
    assert (B : exists b : list (layer Md A L), blocks k i hidden (combine (fst ns) (snd ns)) (combine (fst xs) (snd xs)) = Ok b).
    { destruct (Nat.eq_dec (length hidden) 0) as [Z|Z].
      - apply blocks_total; try assumption; intros x Hx; exfalso; apply in_split in Hx; destruct Hx as (u & v & Hx); rewrite Hx, app_length in LN || rewrite Hx, app_length in LA; cbn in *; lia.
      - apply blocks_total; try assumption; apply HC; assumption. }
    destruct B as [b ->]. reflexivity.
Qed.
Lemma nth_cons_seq {T} (f : nat -> list T) n : flat_map f (seq 1 n) = flat_map (fun j => f (S j)) (seq 0 n).
Proof. rewrite <- seq_shift. rewrite flat_map_concat_map, map_map, <- flat_map_concat_map. reflexivity. Qed.
Lemma blocks_lists {Md A L : Type} (k : L) (d : Md) hidden : forall i (ms : list Md) (gs : list (option (arg1 A))) (xs : list Md) (hs : list (option (arg1 A))),
  length ms = length hidden -> length gs = length hidden -> length xs = length hidden -> length hs = length hidden ->
  blocks k i hidden (combine (map (fun m => Some (Cls m)) ms) gs) (combine (map (fun m => Some (Cls m)) xs) hs) =
  Ok (flat_map (fun j => [Linear k (nth j (i :: hidden) 0) (nth j hidden 0); Norm (nth j ms d) (nth j hidden 0) (nth j gs None); Act (nth j xs d) (nth j hs None)])
               (seq 0 (length hidden))).
Proof.
  induction hidden as [|o hidden IH]; intros i ms gs xs hs L1 L2 L3 L4.
  - destruct ms; [|discriminate]. destruct xs; [|discriminate]. reflexivity.
  - destruct ms as [|m ms]; [discriminate|]. destruct gs as [|g gs]; [discriminate|]. destruct xs as [|x xs]; [discriminate|]. destruct hs as [|h hs]; [discriminate|].
    cbn [map combine blocks]. unfold miniblock. cbn [call bind app].
    rewrite (IH o ms gs xs hs) by (cbn in *; lia). cbn [bind length seq flat_map app nth]. rewrite nth_cons_seq. reflexivity.
Qed.
(** C177. Lists of classes with lists of arguments: layer [j] is built from the entries [j]. *)
Lemma C177_lists_lemma : forall (Md A L : Type) (k : L) (d : Md) (i o : nat) (hidden : list nat) (ms xs : list Md) (gs hs : list (option (arg1 A))) (fl : bool),
  hidden <> [] -> length ms = length hidden -> length gs = length hidden -> length xs = length hidden -> length hs = length hidden ->
  exists m, mlp_init k i o hidden (LList ms) (GList gs) (LList xs) (GList hs) fl = Ok m /\
    m_layers m = flat_map (fun j => [Linear k (nth j (i :: hidden) 0) (nth j hidden 0); Norm (nth j ms d) (nth j hidden 0) (nth j gs None);
                                     Act (nth j xs d) (nth j hs None)]) (seq 0 (length hidden))
                 ++ (if o =? 0 then [] else [Linear k (last hidden i) o]).
Proof.
  intros Md A L k d i o hidden ms xs gs hs fl H0 L1 L2 L3 L4. unfold mlp_init, expand.
  assert (T1 : forall l : list Md, length l = length hidden -> truthy (LList l) = true).
  { intros l Hl. cbn [truthy]. rewrite Hl. destruct hidden; [congruence | reflexivity]. }
  rewrite (T1 ms L1), (T1 xs L3), L1, L2, L3, L4, Nat.eqb_refl. unfold guard. cbn [bind fst snd].
  rewrite (blocks_lists k d) by assumption. cbn [bind]. eexists. split; [reflexivity|]. cbn [m_layers]. destruct o; reflexivity.
Qed.
(** C177. A single class with its arguments (or none): every hidden layer has it, with these arguments. *)
Lemma C177_single_lemma : forall (Md A L : Type) (k : L) (i o : nat) (hidden : list nat) (m x : Md) (g h : option (arg1 A)) (fl : bool),
  let given g := match g with Some a => GOne a | None => GNone end in
  exists r, mlp_init k i o hidden (LOne m) (given g) (LOne x) (given h) fl = Ok r /\
    m_layers r = flat_map (fun j => [Linear k (nth j (i :: hidden) 0) (nth j hidden 0); Norm m (nth j hidden 0) g; Act x h]) (seq 0 (length hidden))
                 ++ (if o =? 0 then [] else [Linear k (last hidden i) o]).
Proof.
  intros Md A L k i o hidden m x g h fl given. unfold mlp_init, expand. cbn [truthy bind fst snd].
  assert (W : forall g, whole (given g) = g) by (intros [a|]; reflexivity). rewrite !W.
  assert (E : forall (c : Md), repeat (Some (Cls c)) (length hidden) = map (fun m => Some (Cls m)) (repeat c (length hidden))).
  { intro c. induction (length hidden) as [|n IH]; [reflexivity|]. cbn [repeat map]. rewrite IH. reflexivity. }
  rewrite !E, (blocks_lists k m) by (apply repeat_length). cbn [bind]. eexists. split; [reflexivity|]. cbn [m_layers].
  f_equal; [|destruct o; reflexivity]. rewrite !flat_map_concat_map. f_equal. apply map_ext_in. intros j Hj. apply in_seq in Hj.
  assert (N : forall (T : Type) (d y : T), nth j (repeat y (length hidden)) d = y).
  { intros T d y. assert (HI : In (nth j (repeat y (length hidden)) d) (repeat y (length hidden))) by (apply nth_In; rewrite repeat_length; lia).
    apply repeat_spec in HI. exact HI. }
  rewrite !N. reflexivity.
Qed.
(** C177. A list of arguments next to a single class is dropped without an error: the module is the one built without arguments. *)
Lemma C177_dropped_refuted_lemma : forall (Md A L : Type) (k : L) (i o : nat) (hidden : list nat) (m m' : Md) (gs hs : list (option (arg1 A))) (fl : bool),
  mlp_init k i o hidden (LOne m) (GList gs) (LOne m') (GList hs) fl = mlp_init k i o hidden (LOne m) GNone (LOne m') GNone fl /\
  is_ok (mlp_init k i o hidden (LOne m) (GList gs) (LOne m') (GList hs) fl) = true.
Proof. intros. split; [reflexivity|]. apply C176_accepted_lemma. split; exact Logic.I. Qed.
(** C177. A tuple of classes, of whatever length, raises a TypeError if there is a hidden layer. *)
Lemma C177_tuple_refuted_lemma : forall (Md A L : Type) (k : L) (i o : nat) (h : nat) (hidden : list nat) (m : Md) (ms : list Md) (g g' : args A) (fl : bool),
  mlp_init k i o (h :: hidden) (LTuple (m :: ms)) g LNone g' fl = Err TypeError /\
  mlp_init k i o (h :: hidden) LNone g (LTuple (m :: ms)) g' fl = Err TypeError.
Proof. intros. split; reflexivity. Qed.

(** ** Dueling *)
Lemma np_mean_shift l c : l <> [] -> np_mean (map (fun x => (x + c)%Qc) l) = (np_mean l + c)%Qc.
Proof.
  intros H. apply (Qc_cancel _ _ (sq (length l))); [apply sq_neq; destruct l; [congruence | cbn; lia]|].
  rewrite <- (map_length (fun x => (x + c)%Qc) l) at 1. rewrite mean_eq by (destruct l; [congruence | discriminate]).
  transitivity (np_mean l * sq (length l) + c * sq (length l))%Qc; [|ring]. rewrite mean_eq by exact H.
  clear H. induction l as [|x l IH]; [cbn [map qsum length]; replace (sq 0) with 0%Qc by (apply Qc_is_canon; reflexivity); ring|]. cbn [map qsum length]. rewrite IH, sq_S. ring.
Qed.
Lemma duel_eq (q : row) v : duel q [v] = Ok (map (fun x => (x - np_mean q + v)%Qc) q).
Proof.
  unfold duel, bcast. rewrite map_length. cbn [length Nat.eqb nth]. destruct q as [|x [|y q]].
  - reflexivity.
  - reflexivity.
  - cbn [length Nat.eqb]. rewrite map_map. reflexivity.
Qed.
(** C178. Dueling without atoms: the values differ as the advantages do, their mean is the state value and adding a constant to all
    advantages changes nothing; the greedy action is that of the advantages. *)
Lemma C178_dueling_lemma : forall (q : row) (v : Qc), q <> [] ->
  exists r, duel q [v] = Ok r /\ length r = length q /\ np_mean r = v /\
    (forall i j, i < length q -> j < length q -> (nth i r 0 - nth j r 0 = nth i q 0 - nth j q 0)%Qc) /\
    argmax r = argmax q /\
    (forall c, duel (map (fun x => (x + c)%Qc) q) [v] = Ok r).
Proof.
  intros q v H. rewrite duel_eq. eexists. split; [reflexivity|]. split; [apply map_length|].
  assert (M : map (fun x => (x - np_mean q + v)%Qc) q = map (fun x => (x + (v - np_mean q))%Qc) q) by (apply map_ext; intros; ring).
  assert (N : forall i, i < length q -> nth i (map (fun x => (x + (v - np_mean q))%Qc) q) 0%Qc = (nth i q 0 + (v - np_mean q))%Qc).
  { intros i Hi. rewrite (nth_indep _ 0%Qc (0 + (v - np_mean q))%Qc) by (rewrite map_length; exact Hi).
    exact (map_nth (fun x => (x + (v - np_mean q))%Qc) q 0%Qc i). }
  rewrite M. split; [rewrite np_mean_shift by exact H; ring|]. split; [intros i j Hi Hj; rewrite !N by assumption; ring|]. split.
  - clear M N. unfold argmax. destruct q as [|x q]; [reflexivity|]. cbn [map]. clear H. generalize (v - np_mean (x :: q))%Qc. intros c.
    assert (G : forall l best bi i, argmax_from (best + c)%Qc bi i (map (fun x => (x + c)%Qc) l) = argmax_from best bi i l).
    { induction l as [|y l IH]; intros best bi i; [reflexivity|]. cbn [map argmax_from].
      replace (Qcltb (best + c) (y + c)) with (Qcltb best y); [rewrite !IH; reflexivity|].
      destruct (Qcltb_spec best y), (Qcltb_spec (best + c) (y + c)); try reflexivity; exfalso; qclra. }
    apply G.
  - intros c. rewrite duel_eq, np_mean_shift by exact H. rewrite map_map. f_equal. rewrite <- M. apply map_ext. intros. ring.
Qed.
Lemma nth_map_seq0 {T} (f : nat -> T) n i d : i < n -> nth i (map f (seq 0 n)) d = f i.
Proof. intros Hi. rewrite (nth_indep _ d (f 0)) by (rewrite map_length, seq_length; exact Hi). rewrite map_nth, seq_nth by exact Hi. reflexivity. Qed.
Lemma list_seq {T} (l : list T) d : l = map (fun k => nth k l d) (seq 0 (length l)).
Proof. apply (nth_ext_len l _ d); [rewrite map_length, seq_length; reflexivity|]. intros i Hi. rewrite nth_map_seq0 by exact Hi. reflexivity. Qed.
Lemma col_len k m : length (col k m) = length m.
Proof. apply map_length. Qed.
Lemma duel_atoms_eq n (q : list row) (v : row) : wide n q -> length v = n ->
  duel_atoms n q [v] = Ok (map (fun r => map (fun k => (nth k r 0 - np_mean (col k q) + nth k v 0)%Qc) (seq 0 n)) q).
Proof.
  intros W LV. unfold duel_atoms. cbn [bind]. rewrite map_length.
  assert (G : forall r : row, map (fun y : Qc * Qc => (fst y + snd y)%Qc) (combine (map (fun k => (nth k r 0 - np_mean (col k q))%Qc) (seq 0 n)) v)
    = map (fun k => (nth k r 0 - np_mean (col k q) + nth k v 0)%Qc) (seq 0 n)).
  { intros r. assert (E := list_seq v 0%Qc). rewrite LV in E. rewrite E at 1. clear E. generalize (seq 0 n). intros l. induction l as [|k l IH]; [reflexivity|].
    cbn [map combine fst snd]. rewrite IH. reflexivity. }
  cbn [length nth]. destruct q as [|r [|r' q]].
  - reflexivity.
  - cbn [length Nat.eqb map combine fst snd]. rewrite G. reflexivity.
  - cbn [length Nat.eqb]. rewrite map_map. f_equal. apply map_ext. exact G.
Qed.
(** C178. With atoms: the mean over the actions of every atom is the value of that atom, and differences between actions are kept. *)
Lemma C178_atoms_lemma : forall (n : nat) (q : list row) (v : row), q <> [] -> wide n q -> length v = n ->
  exists r, duel_atoms n q [v] = Ok r /\ length r = length q /\ wide n r /\
    forall k, k < n -> np_mean (col k r) = nth k v 0%Qc /\
      forall i j, i < length q -> j < length q -> (nth i (col k r) 0 - nth j (col k r) 0 = nth i (col k q) 0 - nth j (col k q) 0)%Qc.
Proof.
  intros n q v H W LV. rewrite (duel_atoms_eq n q v W LV). eexists. split; [reflexivity|]. split; [apply map_length|]. split.
  { intros r HI. apply in_map_iff in HI. destruct HI as [x [<- _]]. rewrite map_length, seq_length. reflexivity. }
  intros k Hk.
  assert (C : col k (map (fun r => map (fun k => (nth k r 0 - np_mean (col k q) + nth k v 0)%Qc) (seq 0 n)) q) = map (fun x => (x + (nth k v 0 - np_mean (col k q)))%Qc) (col k q)).
  { unfold col. rewrite !map_map. apply map_ext. intros r. rewrite nth_map_seq0 by exact Hk. ring. }
  rewrite C. assert (H' : col k q <> []) by (destruct q; [congruence | discriminate]). split; [rewrite np_mean_shift by exact H'; ring|].
  intros i j Hi Hj. set (c := (nth k v 0 - np_mean (col k q))%Qc). clearbody c.
  assert (N : forall i, i < length q -> nth i (map (fun x => (x + c)%Qc) (col k q)) 0%Qc = (nth i (col k q) 0 + c)%Qc).
  { intros i0 H0. rewrite (nth_indep _ 0%Qc (0 + c)%Qc) by (rewrite map_length, col_len; exact H0). exact (map_nth (fun x => (x + c)%Qc) (col k q) 0%Qc i0). }
  rewrite !N by assumption. ring.
Qed.

(** ** Shapes of [Net] *)
Lemma groups_shape n : 0 < n -> forall a fuel (l : row), length l = a * n -> length l <= fuel ->
  length (groups fuel n l) = a /\ wide n (groups fuel n l) /\ concat (groups fuel n l) = l.
Proof.
  intros Hn a. induction a as [|a IH]; intros fuel l Hl Hf.
  - destruct l; [|discriminate]. destruct fuel; (split; [reflexivity|]; split; [intros r []|reflexivity]).
  - assert (G : n <= length l) by (rewrite Hl; cbn; lia).
    destruct fuel as [|fuel]; [lia|]. cbn [groups]. destruct l as [|x l]; [cbn in G; lia|].
    destruct (IH fuel (skipn n (x :: l))) as (I1 & I2 & I3); [rewrite skipn_length, Hl; cbn; lia | rewrite skipn_length; cbn [length] in *; lia|].
    cbn [length concat]. rewrite I1, I3, firstn_skipn. split; [reflexivity|]. split; [|reflexivity].
    intros r [<-|HI]; [rewrite firstn_length; lia | apply I2; exact HI].
Qed.
Lemma view_row_ok n a (l : row) : 0 < n -> length l = a * n -> exists m, view_row n l = Ok m /\ length m = a /\ wide n m.
Proof.
  intros Hn Hl. unfold view_row, guard. rewrite Hl, Nat.mod_mul by lia. cbn [Nat.eqb]. rewrite <- Hl. eexists. split; [reflexivity|].
  destruct (groups_shape n Hn a (length l) l Hl (le_n _)) as (G1 & G2 & _). split; assumption.
Qed.
Lemma mapM_all {X Y} (f : X -> res Y) (P : Y -> Prop) l : (forall x, In x l -> exists y, f x = Ok y /\ P y) ->
  exists r, mapM f l = Ok r /\ length r = length l /\ forall y, In y r -> P y.
Proof.
  induction l as [|x l IH]; intros H; [exists []; split; [reflexivity|]; split; [reflexivity | intros y []]|].
  destruct (H x (or_introl eq_refl)) as [y [E Py]]. destruct IH as (r & Er & Lr & Pr); [intros z Hz; apply H; right; exact Hz|].
  exists (y :: r). cbn [mapM]. rewrite E. cbn [bind]. rewrite Er. cbn [bind length]. rewrite Lr. split; [reflexivity|]. split; [reflexivity|].
  intros z [<-|Hz]; [exact Py | apply Pr; exact Hz].
Qed.
Lemma softmax_len e l : length (softmax e l) = length l.
Proof. apply map_length. Qed.
Lemma mlp_out {Md A L : Type} (k : L) i o hidden (norm : lay Md) (na : args A) act aa fl m : mlp_init k i o hidden norm na act aa fl = Ok m ->
  m_out m = if o =? 0 then last hidden i else o.
Proof. intros E. destruct (C176_sizes_lemma _ _ _ _ _ _ _ _ _ _ _ _ _ E) as (_ & _ & H & _). rewrite H. destruct o; cbn [Nat.eqb]; [rewrite app_nil_r; reflexivity | apply last_app1]. Qed.
Lemma duel_len (q : row) v : exists r, duel q [v] = Ok r /\ length r = length q.
Proof. rewrite duel_eq. eexists. split; [reflexivity | apply map_length]. Qed.
(** C179. A [Net] that is no critic maps a batch of observations to [batch, actions] or [batch, actions, atoms], with or without dueling
    heads, whatever the arguments of its layers. *)
Lemma C179_shape_lemma : forall (Md A L : Type) (dflt k : L) (state action hidden : list nat) (norm : lay Md) (nargs : args A) (act : lay Md)
    (aargs : args A) (N : nat) (dueling : option (head Md A L * head Md A L)) (n : net Md A L)
    (e : Qc -> Qc) (sm : bool) (f : row -> row) (qv : option ((row -> row) * (row -> row))) (obs : list row),
  net_init dflt k state action hidden norm nargs act aargs false N dueling = Ok n ->
  0 < prod action -> 0 < N -> obs <> [] -> wide (n_in n) obs ->
  (forall x, length x = n_in n -> length (f x) = m_out (n_model n)) ->
  match n_qv n, qv with
  | Some (q, v), Some (fq, fv) => forall x, length x = m_out (n_model n) -> length (fq x) = m_out q /\ length (fv x) = m_out v
  | None, None => True
  | _, _ => False end ->
  n_in n = prod state /\ n_out n = prod action * N /\
  exists out, net_forward e sm N f qv obs = Ok out /\ has_shape out (length obs) (prod action) N.
Proof.
  intros Md A L dflt k state action hidden norm nargs act aargs N dueling n e sm f qv obs HN HA H1 HO HW Hf Hq.
  unfold net_init in HN. cbn [negb] in HN.
  assert (SH : forall t, has_shape t (length obs) (prod action) N ->
    has_shape (if sm then match t with T2 m => T2 (map (softmax e) m) | T3 m => T3 (map (map (softmax e)) m) end else t) (length obs) (prod action) N).
  { intros t Ht. destruct sm; [|exact Ht]. destruct t as [m|m]; cbn [has_shape] in *.
    - destruct Ht as (T1 & T2 & T3). rewrite map_length. repeat split; try assumption. intros r HI. apply in_map_iff in HI. destruct HI as [x [<- HI]]. rewrite softmax_len. apply T3. exact HI.
    - destruct Ht as (T1 & T2 & T3). rewrite map_length. repeat split; try assumption.
      + apply in_map_iff in H. destruct H as [x [<- HI]]. rewrite map_length. apply T3. exact HI.
      + apply in_map_iff in H. destruct H as [x [<- HI]]. intros r0 H0. apply in_map_iff in H0. destruct H0 as [y [<- H0]]. rewrite softmax_len. apply (proj2 (T3 x HI)). exact H0. }
  destruct dueling as [[qh vh]|]; cbn [andb negb] in HN.
  - destruct (mlp_init k (prod state + 0) 0 hidden norm nargs act aargs true) as [m|] eqn:E1; cbn [bind] in HN; [|discriminate].
    destruct (head_init dflt qh (m_out m) (prod action * N)) as [q|] eqn:E2; cbn [bind] in HN; [|discriminate].
    destruct (head_init dflt vh (m_out m) N) as [v|] eqn:E3; cbn [bind] in HN; [|discriminate].
    injection HN as <-. cbn [n_in n_out n_qv n_model] in *. destruct qv as [[fq fv]|]; [|contradiction].
    unfold head_init in E2, E3. apply mlp_out in E2. apply mlp_out in E3.
    replace (prod action * N =? 0) with false in E2 by (symmetry; apply Nat.eqb_neq; nia). replace (N =? 0) with false in E3 by (symmetry; apply Nat.eqb_neq; lia).
    split; [lia|]. split; [exact E2|].
    assert (HQ : forall x, In x (map fq (map f obs)) -> length x = prod action * N).
    { intros x HI. apply in_map_iff in HI. destruct HI as [y [<- HI]]. apply in_map_iff in HI. destruct HI as [z [<- HI]]. rewrite <- E2. apply Hq. apply Hf. apply HW. exact HI. }
    assert (HV : forall x, In x (map fv (map f obs)) -> length x = 1 * N).
    { intros x HI. apply in_map_iff in HI. destruct HI as [y [<- HI]]. apply in_map_iff in HI. destruct HI as [z [<- HI]]. rewrite Nat.mul_1_l, <- E3. apply Hq. apply Hf. apply HW. exact HI. }
    unfold net_forward. destruct (1 <? N) eqn:EN; [apply Nat.ltb_lt in EN | apply Nat.ltb_ge in EN].
    + unfold guard. assert (LQ : length (map fq (map f obs)) <> 0) by (rewrite !map_length; destruct obs; [congruence | discriminate]).
      assert (LV : length (map fv (map f obs)) <> 0) by (rewrite !map_length; destruct obs; [congruence | discriminate]).
      apply Nat.eqb_neq in LQ. apply Nat.eqb_neq in LV. rewrite LQ, LV. cbn [negb bind].
      destruct (mapM_all (view_row N) (fun m => length m = prod action /\ wide N m) (map fq (map f obs))) as (rq & Rq & Lq & Pq).
      { intros x HI. apply view_row_ok; [lia | apply HQ; exact HI]. }
      destruct (mapM_all (view_row N) (fun m => length m = 1 /\ wide N m) (map fv (map f obs))) as (rv & Rv & Lv & Pv).
      { intros x HI. apply view_row_ok; [lia | apply HV; exact HI]. }
      rewrite Rq. cbn [bind]. rewrite Rv. cbn [bind]. rewrite !map_length in Lq, Lv.
      destruct (mapM_all (fun x : list row * list row => duel_atoms N (fst x) (snd x)) (fun m => length m = prod action /\ wide N m) (combine rq rv)) as (r & Rr & Lr & Pr).
      { intros [x y] HI. destruct (Pq x (in_combine_l _ _ _ _ HI)) as [X1 X2]. destruct (Pv y (in_combine_r _ _ _ _ HI)) as [Y1 Y2]. cbn [fst snd].
        destruct y as [|y0 [|]]; try discriminate. rewrite (duel_atoms_eq N x y0 X2 (Y2 y0 (or_introl eq_refl))). eexists. split; [reflexivity|]. rewrite map_length. split; [exact X1|].
        intros r0 H0. apply in_map_iff in H0. destruct H0 as [z [<- _]]. rewrite map_length, seq_length. reflexivity. }
      rewrite Rr. cbn [bind]. eexists. split; [reflexivity|]. apply (SH (T3 r)). cbn [has_shape]. rewrite combine_length, Lq, Lv, Nat.min_id in Lr. repeat split; try assumption; apply Pr; assumption.
    + assert (N = 1) by lia. clear E3. subst N. rewrite Nat.mul_1_r in HQ.
      destruct (mapM_all (fun x : row * row => duel (fst x) (snd x)) (fun m => length m = prod action) (combine (map fq (map f obs)) (map fv (map f obs)))) as (r & Rr & Lr & Pr).
      { intros [x y] HI. assert (X := HQ x (in_combine_l _ _ _ _ HI)). assert (Y := HV y (in_combine_r _ _ _ _ HI)). cbn [fst snd].
        destruct y as [|y0 [|]]; try discriminate. destruct (duel_len x y0) as (z & Z1 & Z2). exists z. split; [exact Z1 | congruence]. }
      rewrite Rr. cbn [bind]. eexists. split; [reflexivity|]. apply (SH (T2 r)). cbn [has_shape]. rewrite combine_length, !map_length, Nat.min_id in Lr. repeat split; assumption.
  - destruct (mlp_init k (prod state + 0) (prod action * N) hidden norm nargs act aargs true) as [m|] eqn:E1; cbn [bind] in HN; [|discriminate].
    injection HN as <-. cbn [n_in n_out n_qv n_model] in *. destruct qv; [contradiction|]. apply mlp_out in E1.
    replace (prod action * N =? 0) with false in E1 by (symmetry; apply Nat.eqb_neq; nia). split; [lia|]. split; [exact E1|].
    assert (HM : forall x, In x (map f obs) -> length x = prod action * N).
    { intros x HI. apply in_map_iff in HI. destruct HI as [y [<- HI]]. rewrite <- E1. apply Hf. apply HW. exact HI. }
    unfold net_forward. destruct (1 <? N) eqn:EN; [apply Nat.ltb_lt in EN | apply Nat.ltb_ge in EN].
    + unfold guard. assert (LQ : length (map f obs) <> 0) by (rewrite map_length; destruct obs; [congruence | discriminate]). apply Nat.eqb_neq in LQ. rewrite LQ. cbn [negb].
      destruct (mapM_all (view_row N) (fun m => length m = prod action /\ wide N m) (map f obs)) as (r & Rr & Lr & Pr).
      { intros x HI. apply view_row_ok; [lia | apply HM; exact HI]. }
      rewrite Rr. cbn [bind]. eexists. split; [reflexivity|]. apply (SH (T3 r)). cbn [has_shape]. rewrite map_length in Lr. repeat split; try assumption; apply Pr; assumption.
    + assert (N = 1) by lia. subst N. rewrite Nat.mul_1_r in HM. cbn [bind]. eexists. split; [reflexivity|]. apply (SH (T2 (map f obs))). cbn [has_shape]. rewrite map_length. repeat split. exact HM.
Qed.
(** C179. With [concat] the input is the state and the action; there is no output layer, so the width is the last hidden size. *)
Lemma C179_concat_lemma : forall (Md A L : Type) (dflt k : L) (state action hidden : list nat) (norm : lay Md) (nargs : args A) (act : lay Md)
    (aargs : args A) (N : nat) (n : net Md A L),
  net_init dflt k state action hidden norm nargs act aargs true N None = Ok n ->
  n_in n = prod state + prod action * N /\ n_out n = last hidden (n_in n) /\
  linears (m_layers (n_model n)) = map (pair k) (steps (n_in n :: hidden)).
Proof.
  intros Md A L dflt k state action hidden norm nargs act aargs N n HN. unfold net_init in HN. cbn [negb andb] in HN.
  destruct (mlp_init k (prod state + prod action * N) 0 hidden norm nargs act aargs true) as [m|] eqn:E1; cbn [bind] in HN; [|discriminate].
  injection HN as <-. cbn [n_in n_out n_model]. split; [reflexivity|]. split; [apply mlp_out in E1; exact E1|].
  destruct (C176_sizes_lemma _ _ _ _ _ _ _ _ _ _ _ _ _ E1) as (_ & H & _). rewrite H. cbn [Nat.eqb]. rewrite app_nil_r. reflexivity.
Qed.
Lemma kinds_of {Md A L : Type} (k : L) i o hidden (norm : lay Md) (na : args A) act aa fl m : mlp_init k i o hidden norm na act aa fl = Ok m ->
  (forall x, In x (linears (m_layers m)) -> fst x = k) /\ length (linears (m_layers m)) = length hidden + (if o =? 0 then 0 else 1).
Proof.
  intros E. destruct (C176_sizes_lemma _ _ _ _ _ _ _ _ _ _ _ _ _ E) as (_ & H & _). rewrite H. split.
  - intros x HI. apply in_map_iff in HI. destruct HI as [y [<- _]]. reflexivity.
  - rewrite map_length. unfold steps. rewrite combine_length. cbn [tl length]. rewrite app_length. destruct o; cbn [Nat.eqb length]; lia.
Qed.
(** C180. Without dueling heads every linear layer is made by [linear_layer]; so are those of a head whose dict names it. *)
Lemma C180_plain_lemma : forall (Md A L : Type) (dflt k : L) (state action hidden : list nat) (norm : lay Md) (nargs : args A) (act : lay Md)
    (aargs : args A) (c : bool) (N : nat) (dueling : option (head Md A L * head Md A L)) (n : net Md A L),
  net_init dflt k state action hidden norm nargs act aargs c N dueling = Ok n ->
  (forall x, In x (linears (m_layers (n_model n))) -> fst x = k) /\
  (n_qv n = None <-> dueling = None) /\
  (forall qh vh q v, dueling = Some (qh, vh) -> n_qv n = Some (q, v) -> h_linear qh = Some k -> h_linear vh = Some k ->
     (forall x, In x (linears (m_layers q) ++ linears (m_layers v)) -> fst x = k)).
Proof.
  intros Md A L dflt k state action hidden norm nargs act aargs c N dueling n HN. unfold net_init in HN.
  match type of HN with (let* m := ?M in _) = _ => destruct M as [m|] eqn:E1; cbn [bind] in HN; [|discriminate] end.
  destruct (kinds_of _ _ _ _ _ _ _ _ _ _ E1) as [K1 _]. destruct dueling as [[qh vh]|].
  - destruct (head_init dflt qh (m_out m) (if c then 0 else prod action * N)) as [q|] eqn:E2; cbn [bind] in HN; [|discriminate].
    destruct (head_init dflt vh (m_out m) (if c then 0 else N)) as [v|] eqn:E3; cbn [bind] in HN; [|discriminate].
    injection HN as <-. cbn [n_model n_qv]. split; [exact K1|]. split; [split; discriminate|].
    intros qh' vh' q' v' D1 D2 H1 H2 x HI. injection D1 as <- <-. injection D2 as <- <-. unfold head_init in E2, E3. rewrite H1 in E2. rewrite H2 in E3.
    apply in_app_iff in HI. destruct HI as [HI|HI]; [apply (proj1 (kinds_of _ _ _ _ _ _ _ _ _ _ E2)) | apply (proj1 (kinds_of _ _ _ _ _ _ _ _ _ _ E3))]; exact HI.
  - injection HN as <-. cbn [n_model n_qv]. split; [exact K1|]. split; [split; reflexivity|]. intros; discriminate.
Qed.
(** C180. [linear_layer] is not used in the dueling heads: all their linear layers, at least one in each, are [nn.Linear]. *)
Lemma C180_heads_refuted_lemma : forall (Md A L : Type) (dflt k : L) (state action hidden : list nat) (norm : lay Md) (nargs : args A) (act : lay Md)
    (aargs : args A) (N : nat) (qh vh : head Md A L) (n : net Md A L),
  h_linear qh = None -> h_linear vh = None -> 0 < prod action -> 0 < N ->
  net_init dflt k state action hidden norm nargs act aargs false N (Some (qh, vh)) = Ok n ->
  exists q v, n_qv n = Some (q, v) /\ linears (m_layers q) <> [] /\ linears (m_layers v) <> [] /\
    forall x, In x (linears (m_layers q) ++ linears (m_layers v)) -> fst x = dflt.
Proof.
  intros Md A L dflt k state action hidden norm nargs act aargs N qh vh n H1 H2 HA HN0 HN. unfold net_init in HN.
  match type of HN with (let* m := ?M in _) = _ => destruct M as [m|] eqn:E1; cbn [bind] in HN; [|discriminate] end.
  destruct (head_init dflt qh (m_out m) (prod action * N)) as [q|] eqn:E2; cbn [bind] in HN; [|discriminate].
  destruct (head_init dflt vh (m_out m) N) as [v|] eqn:E3; cbn [bind] in HN; [|discriminate].
  injection HN as <-. cbn [n_qv]. exists q, v. split; [reflexivity|]. unfold head_init in E2, E3. rewrite H1 in E2. rewrite H2 in E3.
  destruct (kinds_of _ _ _ _ _ _ _ _ _ _ E2) as [K2 L2]. destruct (kinds_of _ _ _ _ _ _ _ _ _ _ E3) as [K3 L3].
  replace (prod action * N =? 0) with false in L2 by (symmetry; apply Nat.eqb_neq; nia). replace (N =? 0) with false in L3 by (symmetry; apply Nat.eqb_neq; lia).
  split; [intros Z; rewrite Z in L2; cbn in L2; lia|]. split; [intros Z; rewrite Z in L3; cbn in L3; lia|].
  intros x HI. apply in_app_iff in HI. destruct HI as [HI|HI]; [apply K2 | apply K3]; exact HI.
Qed.

(** ** Branching networks, probabilities *)
(** C181. Every branch's values have the state value as their mean and differ as the branch's scores do. *)
Lemma C181_values_lemma : forall (value : row -> Qc) (branches : list (row -> row)) (common : row -> row) (obs : list row) (P : nat),
  branches <> [] -> 0 < P -> (forall b x, In b branches -> length (b x) = P) ->
  exists r, branching_forward value branches common obs = Ok r /\ length r = length obs /\
  forall i j, i < length obs -> j < length branches ->
    let o := common (nth i obs []) in let z := nth j (nth i r []) [] in let s := nth j branches (fun _ => []) o in
    length (nth i r []) = length branches /\ length z = P /\ np_mean z = value o /\
    forall a b, a < P -> b < P -> (nth a z 0 - nth b z 0 = nth a s 0 - nth b s 0)%Qc.
Proof.
  intros value branches common obs P HB HP HL. unfold branching_forward, guard.
  replace (length branches =? 0) with false by (symmetry; apply Nat.eqb_neq; destruct branches; [congruence | discriminate]). cbn [negb].
  eexists. split; [reflexivity|]. split; [apply map_length|]. intros i j Hi Hj.
  set (g := fun o : row => map (fun b : row -> row => map (fun x => (value (common o) + (x - np_mean (b (common o))))%Qc) (b (common o))) branches).
  assert (E : nth i (map g obs) [] = g (nth i obs [])).
  { rewrite (nth_indep _ [] (g [])) by (rewrite map_length; exact Hi). apply (map_nth g). }
  cbv zeta. fold g. rewrite E. set (o := common (nth i obs [])).
  assert (E2 : nth j (g (nth i obs [])) [] = map (fun x => (value o + (x - np_mean (nth j branches (fun _ => []) o)))%Qc) (nth j branches (fun _ => []) o)).
  { unfold g. fold o. set (h := fun b : row -> row => map (fun x => (value o + (x - np_mean (b o)))%Qc) (b o)).
    rewrite (nth_indep _ [] (h (fun _ => []))) by (rewrite map_length; exact Hj). apply (map_nth h). }
  rewrite E2. unfold g. rewrite !map_length.
  assert (LS : length (nth j branches (fun _ => []) o) = P) by (apply HL, nth_In; exact Hj).
  set (s := nth j branches (fun _ => []) o) in *. clearbody s. split; [reflexivity|]. split; [exact LS|].
  assert (M : map (fun x => (value o + (x - np_mean s))%Qc) s = map (fun x => (x + (value o - np_mean s))%Qc) s) by (apply map_ext; intros; ring).
  rewrite M. split; [rewrite np_mean_shift; [ring | destruct s; [cbn in LS; lia | discriminate]]|].
  intros a b Ha Hb. set (c := (value o - np_mean s)%Qc). clearbody c.
  assert (N : forall i, i < P -> nth i (map (fun x => (x + c)%Qc) s) 0%Qc = (nth i s 0 + c)%Qc).
  { intros i0 H0. rewrite (nth_indep _ 0%Qc (0 + c)%Qc) by (rewrite map_length; lia). exact (map_nth (fun x => (x + c)%Qc) s 0%Qc i0). }
  rewrite !N by assumption. ring.
Qed.
(** C181. A branching network that can be built: the common part maps the flattened state to its last hidden size, the value part maps
    that to one number and each branch to the number of actions. *)
Lemma C181_sizes_lemma : forall (Md A L : Type) (dflt : L) (state common : list nat) (nb per : nat) (value action : option (list nat)) (norm act : lay Md)
    (nargs aargs : args A) (c v : mlp Md A L) (bs : list (mlp Md A L)),
  branching_init dflt state nb per (Some common) value action norm nargs act aargs = Ok (c, v, bs) ->
  let sizes := fun o : option (list nat) => match o with Some l => l | None => [] end in
  let h := last common 0 in
  common <> [] /\ length bs = nb /\
  layers_size (prod state) (m_layers c) = Ok h /\ linears (m_layers c) = map (pair dflt) (steps (prod state :: common)) /\
  layers_size h (m_layers v) = Ok 1 /\ linears (m_layers v) = map (pair dflt) (steps (h :: sizes value ++ [1])) /\
  (0 < per -> forall b, In b bs -> layers_size h (m_layers b) = Ok per /\ linears (m_layers b) = map (pair dflt) (steps (h :: sizes action ++ [per]))).
Proof.
  intros Md A L dflt state common nb per value action norm act nargs aargs c v bs E sizes h. unfold branching_init in E. cbv zeta in E.
  change (match value with Some l => l | None => [] end) with (sizes value) in E. change (match action with Some l => l | None => [] end) with (sizes action) in E.
  destruct (mlp_init dflt (prod state) 0 common norm nargs act aargs true) as [c'|] eqn:E1; cbn [bind] in E; [|discriminate].
  destruct (rev common) as [|x l] eqn:R; cbn [bind] in E; [discriminate|].
  assert (HC : common = rev l ++ [x]) by (rewrite <- (rev_involutive common), R; reflexivity).
  assert (Hx : h = x) by (unfold h; rewrite HC; apply last_last).
  destruct (mlp_init dflt x 1 (sizes value) norm nargs act aargs true) as [v'|] eqn:E2; cbn [bind] in E; [|discriminate].
  destruct (mapM _ (seq 0 nb)) as [bs'|] eqn:E3; cbn [bind] in E; [|discriminate]. injection E as E4 E5 E6. subst c' v' bs'.
  destruct (C176_sizes_lemma _ _ _ _ _ _ _ _ _ _ _ _ _ E1) as (S1 & L1 & O1 & _). destruct (C176_sizes_lemma _ _ _ _ _ _ _ _ _ _ _ _ _ E2) as (S2 & L2 & O2 & _).
  cbn [Nat.eqb] in *. rewrite app_nil_r in *. rewrite Hx. split; [rewrite HC; destruct (rev l); discriminate|].
  split; [apply mapM_length in E3; rewrite seq_length in E3; exact E3|]. split.
  { rewrite S1, O1, HC, last_last. reflexivity. }
  split; [exact L1|]. split; [rewrite S2, O2, last_last; reflexivity|]. split; [exact L2|].
  intros HP b Hb. apply In_nth_error in Hb. destruct Hb as [j Hj].
  assert (EB : mlp_init dflt x per (sizes action) norm nargs act aargs true = Ok b).
  { clear - E3 Hj. revert bs E3 j Hj. generalize 0. induction nb as [|n IH]; intros s bs E3 j Hj; cbn [seq mapM] in E3.
    - injection E3 as <-. destruct j; discriminate.
    - destruct (mlp_init dflt x per (sizes action) norm nargs act aargs true) as [y|] eqn:E; cbn [bind] in E3; [|discriminate].
      destruct (mapM _ (seq (S s) n)) as [ys|] eqn:E'; cbn [bind] in E3; [|discriminate]. injection E3 as <-.
      destruct j as [|j]; [injection Hj as ->; reflexivity|]. apply (IH (S s) ys E' j Hj). }
  destruct (C176_sizes_lemma _ _ _ _ _ _ _ _ _ _ _ _ _ EB) as (S3 & L3 & O3 & _).
  destruct per as [|per]; [lia|]. cbn [Nat.eqb] in *. rewrite S3, O3, last_last. split; [reflexivity|exact L3].
Qed.
(** C181. With its default arguments (no common hidden sizes) the constructor raises an IndexError for every state shape, also when all
    other sizes are given; and without branches (the default) the forward pass raises. *)
Lemma C181_default_refuted_lemma : forall (Md A L : Type) (dflt : L) (state : list nat) (nb per : nat) (value action : option (list nat)) (norm act : lay Md)
    (nargs aargs : args A) (common : option (list nat)),
  (common = None \/ common = Some []) ->
  is_ok (branching_init dflt state nb per common value action norm nargs act aargs) = false /\
  (norm = LNone -> act = LNone -> branching_init dflt state nb per common value action norm nargs act aargs = Err IndexError).
Proof.
  intros Md A L dflt state nb per value action norm act nargs aargs common H.
  assert (G : exists e, branching_init dflt state nb per common value action norm nargs act aargs = Err e /\ (norm = LNone -> act = LNone -> e = IndexError)).
  { unfold branching_init. destruct H as [-> | ->]; cbn [rev].
    - destruct (mlp_init dflt (prod state) 0 [] norm nargs act aargs true) as [m|x] eqn:E; cbn [bind]; [eexists; split; [reflexivity | reflexivity]|].
      exists x. split; [reflexivity|]. intros -> ->. discriminate E.
    - destruct (mlp_init dflt (prod state) 0 [] norm nargs act aargs true) as [m|x] eqn:E; cbn [bind]; [eexists; split; [reflexivity | reflexivity]|].
      exists x. split; [reflexivity|]. intros -> ->. discriminate E. }
  destruct G as (e & G & G'). rewrite G. split; [reflexivity|]. intros H1 H2. rewrite (G' H1 H2). reflexivity.
Qed.
Lemma qsum_pos l : l <> [] -> (forall x, In x l -> (0 < x)%Qc) -> (0 < qsum l)%Qc.
Proof.
  induction l as [|x l IH]; intros H0 H; [congruence|]. cbn [qsum]. assert (Hx := H x (or_introl eq_refl)). destruct l as [|y l]; [cbn [qsum]; qclra|].
  assert (G : (0 < qsum (y :: l))%Qc) by (apply IH; [discriminate | intros z Hz; apply H; right; exact Hz]). qclra.
Qed.
Lemma qsum_scale (f : Qc -> Qc) (c : Qc) l : qsum (map (fun x => (f x / c)%Qc) l) = (qsum (map f l) / c)%Qc.
Proof. induction l as [|x l IH]; cbn [map qsum]; [unfold Qcdiv; ring | rewrite IH; unfold Qcdiv; ring]. Qed.
Lemma div_lt_iff a b c : (0 < c)%Qc -> (a < b)%Qc -> (a / c < b / c)%Qc.
Proof.
  intros Hc H. assert (C : c <> 0%Qc) by (intros ->; qclra). apply Qcnot_le_lt. intros G.
  assert (G' : (b / c * c <= a / c * c)%Qc) by (apply Qcmult_le_compat_r; [exact G | apply Qclt_le_weak; exact Hc]).
  assert (E : forall x, (x / c * c = x)%Qc) by (intros x; field; exact C). rewrite !E in G'. qclra.
Qed.
Lemma div_pos a c : (0 < c)%Qc -> (0 < a)%Qc -> (0 < a / c)%Qc.
Proof. intros Hc Ha. assert (H := div_lt_iff 0 a c Hc Ha). replace (0 / c)%Qc with 0%Qc in H by (unfold Qcdiv; ring). exact H. Qed.
Lemma div_self c : (0 < c)%Qc -> (c / c = 1)%Qc.
Proof. intros H. field. intros ->. qclra. Qed.
(** C182. The outputs of a discrete actor with softmax are a probability distribution, ordered as the logits. *)
Lemma C182_probs_lemma : forall (Ob S F : Type) (pre : Ob -> option S -> F * option S) (e : Qc -> Qc) (lst : F -> row) (o : Ob) (s : option S),
  (forall x, 0 < e x)%Qc -> (forall x y, x < y -> e x < e y)%Qc ->
  let z := lst (fst (pre o s)) in let p := fst (disc_forward pre e lst true o s) in
  z <> [] -> length p = length z /\ qsum p = 1%Qc /\ (forall x, In x p -> (0 < x)%Qc /\ (x <= 1)%Qc) /\
  forall i j, i < length z -> j < length z -> ((nth i z 0 < nth j z 0)%Qc <-> (nth i p 0 < nth j p 0)%Qc).
Proof.
  intros Ob S F pre e lst o s H1 H2. unfold disc_forward. destruct (pre o s) as [x h]. cbn [fst]. generalize (lst x). intros z H0. rewrite softmax_len. split; [reflexivity|].
  unfold softmax. assert (P : (0 < qsum (map e z))%Qc).
  { apply qsum_pos; [destruct z; [congruence | discriminate]|]. intros y HI. apply in_map_iff in HI. destruct HI as [w [<- _]]. apply H1. }
  set (t := qsum (map e z)) in *. assert (SM : qsum (map (fun x => (e x / t)%Qc) z) = 1%Qc) by (rewrite qsum_scale; apply div_self; exact P).
  split; [exact SM|]. split.
  - intros y HI. apply in_split in HI. destruct HI as (l & r & E).
    assert (PP : forall w, In w (map (fun x => (e x / t)%Qc) z) -> (0 < w)%Qc).
    { intros w HI. apply in_map_iff in HI. destruct HI as [v [<- _]]. apply div_pos; [exact P | apply H1]. }
    rewrite E in SM, PP. split; [apply PP; apply in_or_app; right; left; reflexivity|].
    assert (NN : forall m : list Qc, (forall w, In w m -> (0 < w)%Qc) -> (0 <= qsum m)%Qc).
    { intros m Hm. destruct m as [|a m]; [cbn [qsum]; qclra|]. apply Qclt_le_weak, qsum_pos; [discriminate | exact Hm]. }
    assert (A1 := NN l (fun w Hw => PP w (in_or_app _ _ _ (or_introl Hw)))). assert (A2 : (0 <= qsum r)%Qc) by (apply NN; intros w Hw; apply PP; apply in_or_app; right; right; exact Hw). assert (A3 := PP y (in_or_app l (y :: r) y (or_intror (or_introl eq_refl)))).
    rewrite qsum_app in SM. cbn [qsum] in SM. qclra.
  - intros i j Hi Hj.
    assert (N : forall i, i < length z -> nth i (map (fun x => (e x / t)%Qc) z) 0%Qc = (e (nth i z 0) / t)%Qc).
    { intros i0 H3. rewrite (nth_indep _ 0%Qc (e 0 / t)%Qc) by (rewrite map_length; exact H3). exact (map_nth (fun x => (e x / t)%Qc) z 0%Qc i0). }
    rewrite !N by assumption. set (a := nth i z 0%Qc). set (b := nth j z 0%Qc). clearbody a b. split; intros H.
    + apply div_lt_iff; [exact P | apply H2; exact H].
    + destruct (Qcltb_spec a b) as [L|L]; [exact L|]. exfalso. destruct (Qceqb_spec a b) as [E|E]; [subst; qclra|].
      assert (L' : (b < a)%Qc). { destruct (Qcltb_spec b a) as [G|G]; [exact G|]. exfalso. apply E. apply Qcle_antisym; assumption. }
      assert (X := div_lt_iff _ _ t P (H2 _ _ L')). qclra.
Qed.
(** C182. The probabilities of [RandomActor] are uniform. *)
Lemma C182_uniform_lemma : forall (n batch : nat), 0 < n ->
  length (random_probs n batch) = batch /\ forall r, In r (random_probs n batch) -> length r = n /\ qsum r = 1%Qc /\ forall x y, In x r -> In y r -> x = y.
Proof.
  intros n batch Hn. unfold random_probs. split; [apply repeat_length|]. intros r HI. apply repeat_spec in HI. subst r. split; [apply repeat_length|]. split.
  - assert (G : forall k c, qsum (repeat c k) = (sq k * c)%Qc).
    { intros k c. induction k as [|k IH]; [cbn [repeat qsum]; replace (sq 0) with 0%Qc by (apply Qc_is_canon; reflexivity); ring|]. cbn [repeat qsum]. rewrite IH, sq_S. ring. }
    rewrite G. change (qn n) with (sq n) || replace (qn n) with (sq n) by reflexivity. field. apply sq_neq. exact Hn.
  - intros x y Hx Hy. apply repeat_spec in Hx. apply repeat_spec in Hy. congruence.
Qed.

(** ** Ensembles *)
Lemma combine_seq {X Y} (a : list X) (b : list Y) da db : length a = length b -> combine a b = map (fun i => (nth i a da, nth i b db)) (seq 0 (length a)).
Proof.
  revert b. induction a as [|x a IH]; intros [|y b] H; try discriminate; [reflexivity|]. cbn [combine length seq map nth]. f_equal. rewrite (IH b) by (cbn in H; lia).
  rewrite <- seq_shift, map_map. reflexivity.
Qed.
Definition wd : list row * row := ([], []).
Lemma ens_linear3 ws xs : length xs = length ws ->
  ens_linear ws (E3 xs) = Ok (map (fun e => map (lin (fst (nth e ws wd)) (snd (nth e ws wd))) (nth e xs [])) (seq 0 (length ws))).
Proof.
  intros H. cbn [ens_linear]. rewrite H, Nat.eqb_refl. rewrite (combine_seq ws xs wd []) by congruence. rewrite map_map. reflexivity.
Qed.
Lemma ens_linear2 ws x : ens_linear ws (E2 x) = Ok (map (fun e => map (lin (fst (nth e ws wd)) (snd (nth e ws wd))) x) (seq 0 (length ws))).
Proof. cbn [ens_linear]. rewrite (list_seq ws wd) at 1. rewrite map_map. reflexivity. Qed.
Lemma ens_net_cons act ws ws' layers inp : ens_net act (ws :: ws' :: layers) inp = bind (ens_linear ws inp) (fun h => ens_net act (ws' :: layers) (E3 (map (map (map act)) h))).
Proof. reflexivity. Qed.
Lemma ens_net3 act E layers : forall xs, layers <> [] -> (forall ws, In ws layers -> length ws = E) -> length xs = E ->
  ens_net act layers (E3 xs) = Ok (map (fun e => map (plain_net act (map (fun ws => nth e ws wd) layers)) (nth e xs [])) (seq 0 E)).
Proof.
  induction layers as [|ws layers IH]; intros xs H0 HL HX; [congruence|]. assert (LW := HL ws (or_introl eq_refl)).
  destruct layers as [|ws' layers].
  - cbn [ens_net map plain_net]. rewrite ens_linear3 by congruence. rewrite LW. reflexivity.
  - rewrite ens_net_cons, ens_linear3 by congruence. cbn [bind]. rewrite map_map, IH.
    + f_equal. rewrite LW. apply map_ext_in. intros e He. apply in_seq in He. rewrite nth_map_seq0 by lia. rewrite !map_map. reflexivity.
    + discriminate.
    + intros w Hw. apply HL. right. exact Hw.
    + rewrite map_length, seq_length. exact LW.
Qed.
(** C183. A network of ensemble layers computes for member [e] what the plain network with the weights [e] computes; so the members do
    not influence each other. *)
Lemma C183_members_lemma : forall (act : Qc -> Qc) (E : nat) (layers : list (list (list row * row))) (x : list row),
  layers <> [] -> (forall ws, In ws layers -> length ws = E) ->
  ens_net act layers (E2 x) = Ok (map (fun e => map (plain_net act (map (fun ws => nth e ws ([], [])) layers)) x) (seq 0 E)).
Proof.
  intros act E layers x H0 HL. change (@nil row, @nil Qc) with wd. destruct layers as [|ws layers]; [congruence|]. assert (LW := HL ws (or_introl eq_refl)).
  destruct layers as [|ws' layers].
  - cbn [ens_net map plain_net]. rewrite ens_linear2, LW. reflexivity.
  - rewrite ens_net_cons, ens_linear2. cbn [bind]. rewrite map_map. rewrite (ens_net3 act E (ws' :: layers)).
    + f_equal. rewrite LW. apply map_ext_in. intros e He. apply in_seq in He. rewrite nth_map_seq0 by lia. rewrite !map_map. reflexivity.
    + discriminate.
    + intros w Hw. apply HL. right. exact Hw.
    + rewrite map_length, seq_length. exact LW.
Qed.

(** ** Dict observations *)
Lemma nat_eqb_list_spec a b : nat_eqb_list a b = true <-> a = b.
Proof.
  revert b. induction a as [|x a IH]; intros [|y b]; cbn [nat_eqb_list]; try (split; congruence). rewrite andb_true_iff, Nat.eqb_eq, IH. split; [intros [-> ->]; reflexivity | intros E; injection E as -> ->; split; reflexivity].
Qed.
Lemma chunk_len n w l : length (chunk n w l) = n.
Proof. revert l. induction n as [|n IH]; intros l; [reflexivity|]. cbn [chunk length]. rewrite IH. reflexivity. Qed.
Lemma skipn_add {T} a b (l : list T) : skipn a (skipn b l) = skipn (b + a) l.
Proof. revert l. induction b as [|b IH]; intros l; [reflexivity|]. destruct l as [|x l]; [rewrite !skipn_nil; reflexivity|]. cbn [Nat.add skipn]. apply IH. Qed.
Lemma chunk_nth n w : forall l b, b < n -> nth b (chunk n w l) [] = firstn w (skipn (b * w) l).
Proof.
  induction n as [|n IH]; intros l b Hb; [lia|]. destruct b as [|b]; [reflexivity|]. cbn [chunk nth]. rewrite IH by lia. rewrite skipn_add. reflexivity.
Qed.
Lemma reshape2_ok B w a : 0 < B -> length (a_data a) = B * w -> reshape2 B a = Ok (chunk B w (a_data a)).
Proof.
  intros HB HL. unfold reshape2, guard. replace (B =? 0) with false by (symmetry; apply Nat.eqb_neq; lia). cbn [negb].
  rewrite HL, Nat.mul_comm, Nat.mod_mul, Nat.div_mul by lia. reflexivity.
Qed.
Lemma hcat_fold B : forall ms acc, length acc = B -> (forall x, In x ms -> length x = B) ->
  exists m, foldM (fun acc x => guard (length acc =? length x) RuntimeError (Ok (map (fun p : row * row => fst p ++ snd p) (combine acc x)))) ms acc = Ok m /\
    length m = B /\ forall b, b < B -> nth b m [] = nth b acc [] ++ flat_map (fun x => nth b x []) ms.
Proof.
  induction ms as [|x ms IH]; intros acc HA H.
  - exists acc. split; [reflexivity|]. split; [exact HA|]. intros b Hb. cbn [flat_map]. rewrite app_nil_r. reflexivity.
  - assert (HX := H x (or_introl eq_refl)). cbn [foldM]. unfold guard at 1. rewrite HA, HX, Nat.eqb_refl. cbn [bind].
    destruct (IH (map (fun p : row * row => fst p ++ snd p) (combine acc x))) as (m & Em & Lm & Nm).
    { rewrite map_length, combine_length. lia. }
    { intros y Hy. apply H. right. exact Hy. }
    exists m. split; [exact Em|]. split; [exact Lm|]. intros b Hb. rewrite Nm by exact Hb. cbn [flat_map]. rewrite app_assoc. f_equal.
    rewrite (combine_seq acc x [] []) by congruence. rewrite map_map, HA, nth_map_seq0 by exact Hb. reflexivity.
Qed.
Lemma mapM_look {K V} (keq : K -> K -> bool) (d : list (K * V)) (g : K -> V) keys : (forall k, In k keys -> look keq d k = Ok (g k)) -> mapM (look keq d) keys = Ok (map g keys).
Proof. apply mapM_Ok. Qed.
Lemma wide_in {T} w (m : list (list T)) : (forall b, b < length m -> length (nth b m []) = w) -> wide w m.
Proof. intros H r HI. apply (In_nth _ _ []) in HI. destruct HI as (b & Hb & <-). apply H. exact Hb. Qed.
(** C184. A batch of dict observations becomes one row per observation: the flattened entries in the order of [keys]. *)
Lemma C184_batched_lemma : forall (K : Type) (keq : K -> K -> bool) (shapes : list (K * sshape)) (keys : list K) (obs : list (K * arr))
    (sg : K -> sshape) (og : K -> arr) (B : nat),
  keys <> [] -> 0 < B ->
  (forall k, In k keys -> look keq shapes k = Ok (sg k) /\ look keq obs k = Ok (og k) /\ a_shape (og k) = B :: sdims (sg k) /\
     length (a_data (og k)) = B * prod (sdims (sg k))) ->
  exists m W, preprocess_obs keq shapes keys obs = Ok (FMat m) /\ new_state_shape keq shapes keys = Ok W /\ length m = B /\ wide W m /\
    forall b, b < B -> nth b m [] = flat_map (fun k => let w := prod (sdims (sg k)) in firstn w (skipn (b * w) (a_data (og k)))) keys.
Proof.
  intros K keq shapes keys obs sg og B H0 HB H.
  assert (MS : mapM (look keq shapes) keys = Ok (map sg keys)) by (apply mapM_look; intros k Hk; apply (H k Hk)).
  assert (MO : mapM (look keq obs) keys = Ok (map og keys)) by (apply mapM_look; intros k Hk; apply (H k Hk)).
  set (rows := fun k => chunk B (prod (sdims (sg k))) (a_data (og k))).
  assert (MR : mapM (reshape2 B) (map og keys) = Ok (map rows keys)).
  { clear H0 MS MO. induction keys as [|k keys IH]; [reflexivity|]. cbn [map mapM]. rewrite (reshape2_ok B (prod (sdims (sg k)))) by (try exact HB; apply (H k (or_introl eq_refl))).
    cbn [bind]. rewrite IH by (intros k' Hk'; apply H; right; exact Hk'). reflexivity. }
  destruct keys as [|k0 keys]; [congruence|]. destruct (H k0 (or_introl eq_refl)) as (S0 & O0 & A0 & _).
  unfold preprocess_obs. rewrite S0. cbn [bind]. rewrite O0. cbn [bind].
  assert (NS : same_shape (sg k0) (a_shape (og k0)) = false).
  { rewrite A0. unfold same_shape. destruct (sg k0) as [n|l|l]; try reflexivity. cbn [sdims]. destruct (nat_eqb_list l (B :: l)) eqn:E; [|reflexivity].
    apply nat_eqb_list_spec in E. exfalso. apply (f_equal (@length nat)) in E. cbn in E. lia. }
  rewrite NS, A0, MO. cbn [bind]. rewrite MR. cbn [bind map hcat].
  destruct (hcat_fold B (map rows keys) (rows k0)) as (m & Em & Lm & Nm).
  { apply chunk_len. }
  { intros x HI. apply in_map_iff in HI. destruct HI as [k [<- _]]. apply chunk_len. }
  rewrite Em. cbn [bind]. exists m. eexists. split; [reflexivity|]. unfold new_state_shape. rewrite MS. cbn [bind]. split; [reflexivity|]. split; [exact Lm|].
  assert (NB : forall b, b < B -> nth b m [] = flat_map (fun k => firstn (prod (sdims (sg k))) (skipn (b * prod (sdims (sg k))) (a_data (og k)))) (k0 :: keys)).
  { intros b Hb. rewrite Nm by exact Hb. cbn [flat_map]. unfold rows at 1. rewrite chunk_nth by exact Hb. f_equal.
    rewrite flat_map_concat_map, map_map, <- flat_map_concat_map. clear - Hb. induction keys as [|k keys IH]; [reflexivity|]. cbn [flat_map]. rewrite IH. f_equal. apply chunk_nth. exact Hb. }
  split; [|exact NB]. apply wide_in. rewrite Lm. intros b Hb. rewrite NB by exact Hb. clear - H Hb. revert H. generalize (k0 :: keys). intros l H.
  induction l as [|k l IH]; [reflexivity|]. cbn [flat_map map fold_right]. rewrite app_length, IH by (intros k' Hk'; apply H; right; exact Hk'). f_equal.
  destruct (H k (or_introl eq_refl)) as (_ & _ & _ & HL). rewrite firstn_length, skipn_length, HL. nia.
Qed.
(** C184. One dict observation without a batch axis, all shapes the same tuple: the concatenation. *)
Lemma C184_single_partial_lemma : forall (K : Type) (keq : K -> K -> bool) (shapes : list (K * sshape)) (keys : list K) (obs : list (K * arr))
    (og : K -> arr) (sh : list nat),
  keys <> [] ->
  (forall k, In k keys -> look keq shapes k = Ok (STuple sh) /\ look keq obs k = Ok (og k) /\ a_shape (og k) = sh /\ length (a_data (og k)) = prod sh) ->
  exists v, preprocess_obs keq shapes keys obs = Ok (FVec v) /\ new_state_shape keq shapes keys = Ok (length v) /\ v = flat_map (fun k => a_data (og k)) keys.
Proof.
  intros K keq shapes keys obs og sh H0 H.
  assert (MS : mapM (look keq shapes) keys = Ok (map (fun _ => STuple sh) keys)) by (apply (mapM_look keq shapes (fun _ => STuple sh)); intros k Hk; apply (H k Hk)).
  assert (MO : mapM (look keq obs) keys = Ok (map og keys)) by (apply mapM_look; intros k Hk; apply (H k Hk)).
  assert (FL : length (flat_map (fun k => a_data (og k)) keys) = fold_right Nat.add 0 (map (fun s => prod (sdims s)) (map (fun _ => STuple sh) keys))).
  { clear H0 MS MO. induction keys as [|k keys IH]; [reflexivity|]. cbn [flat_map map fold_right sdims]. rewrite app_length, IH by (intros k' Hk'; apply H; right; exact Hk'). f_equal. apply (H k (or_introl eq_refl)). }
  assert (FA : forallb (fun a => nat_eqb_list (a_shape a) sh) (map og keys) = true).
  { apply forallb_forall. intros a HI. apply in_map_iff in HI. destruct HI as [k [<- Hk]]. apply nat_eqb_list_spec. apply (H k Hk). }
  exists (flat_map (fun k => a_data (og k)) keys). unfold new_state_shape. rewrite MS. cbn [bind]. rewrite FL. split; [|split; reflexivity].
  destruct keys as [|k0 keys]; [congruence|]. destruct (H k0 (or_introl eq_refl)) as (S0 & O0 & A0 & _).
  unfold preprocess_obs. rewrite S0. cbn [bind]. rewrite O0. cbn [bind same_shape]. rewrite A0. replace (nat_eqb_list sh sh) with true by (symmetry; apply nat_eqb_list_spec; reflexivity).
  rewrite MO. cbn [bind]. unfold guard. rewrite FA. rewrite flat_map_concat_map, map_map. reflexivity.
Qed.
(** C184. One dict observation whose entries have different shapes raises a ValueError. *)
Lemma C184_ragged_refuted_lemma : forall (K : Type) (keq : K -> K -> bool) (shapes : list (K * sshape)) (k0 : K) (keys : list K) (obs : list (K * arr))
    (og : K -> arr) (k : K),
  look keq shapes k0 = Ok (STuple (a_shape (og k0))) -> (forall k, In k (k0 :: keys) -> look keq obs k = Ok (og k)) ->
  In k keys -> a_shape (og k) <> a_shape (og k0) -> preprocess_obs keq shapes (k0 :: keys) obs = Err ValueError.
Proof.
  intros K keq shapes k0 keys obs og k S0 HO Hk HD. unfold preprocess_obs. rewrite S0. cbn [bind]. rewrite (HO k0 (or_introl eq_refl)). cbn [bind same_shape].
  replace (nat_eqb_list (a_shape (og k0)) (a_shape (og k0))) with true by (symmetry; apply nat_eqb_list_spec; reflexivity).
  rewrite (mapM_look keq obs og) by exact HO. cbn [bind]. unfold guard.
  destruct (forallb (fun a => nat_eqb_list (a_shape a) (a_shape (og k0))) (map og (k0 :: keys))) eqn:E; [|reflexivity]. exfalso.
  rewrite forallb_forall in E. assert (X := E (og k) (in_map og (k0 :: keys) k (in_cons k0 k keys Hk))). apply nat_eqb_list_spec in X. congruence.
Qed.
(** C184. If the shape is written as an int or a list, one observation of [n] numbers is taken for a batch of [n] observations. *)
Lemma C184_listshape_refuted_lemma : forall (K : Type) (keq : K -> K -> bool) (shapes : list (K * sshape)) (k : K) (obs : list (K * arr)) (n : nat) (a : arr),
  (look keq shapes k = Ok (SInt n) \/ look keq shapes k = Ok (SList [n])) -> look keq obs k = Ok a -> a_shape a = [n] -> length (a_data a) = n -> 0 < n ->
  exists m, preprocess_obs keq shapes [k] obs = Ok (FMat m) /\ length m = n /\ wide 1 m.
Proof.
  intros K keq shapes k obs n a HS HO HA HL Hn. exists (chunk n 1 (a_data a)). split.
  - unfold preprocess_obs. destruct HS as [-> | ->]; cbn [bind mapM]; rewrite HO; cbn [bind same_shape]; rewrite HA; cbn [bind mapM]; rewrite ?HO; cbn [bind mapM]; rewrite (reshape2_ok n 1) by lia; reflexivity.
  - split; [apply chunk_len|]. apply wide_in. rewrite chunk_len. intros b Hb. rewrite chunk_nth by exact Hb. rewrite firstn_length, skipn_length, HL. lia.
Qed.

(** ** [get_output_dim] *)
(** C185. If the attribute is present the alternative value must agree; the attribute wins. *)
Lemma C185_present_partial_lemma : forall (a : attr) (alt : option nat) (n : nat),
  get_output_dim a alt = Ok n <-> (a = Has n /\ (alt = None \/ alt = Some n)) \/ (a = IsNone /\ alt = Some n).
Proof.
  intros a alt n. destruct a as [| |v]; destruct alt as [w|]; cbn [get_output_dim].
  - split; [discriminate | intros [[H _]|[H _]]; discriminate].
  - split; [discriminate | intros [[H _]|[H _]]; discriminate].
  - split; [intros E; injection E as ->; right; split; reflexivity | intros [[H _]|[_ H]]; [discriminate | injection H as ->; reflexivity]].
  - split; [discriminate | intros [[H _]|[_ H]]; discriminate].
  - destruct (v =? w) eqn:E; [apply Nat.eqb_eq in E | apply Nat.eqb_neq in E].
    + split; [intros X; injection X as ->; left; split; [reflexivity | right; congruence] | intros [[X [Y|Y]]|[X _]]; [discriminate | congruence | discriminate]].
    + split; [discriminate | intros [[X [Y|Y]]|[X _]]; [discriminate | congruence | discriminate]].
  - split; [intros X; injection X as ->; left; split; [reflexivity | left; reflexivity] | intros [[X _]|[X _]]; [congruence | discriminate]].
Qed.
(** C185. The documented use of the alternative value fails: without the attribute an AttributeError is raised whatever is passed. *)
Lemma C185_missing_refuted_lemma : forall (alt : option nat), get_output_dim Missing alt = Err AttributeError.
Proof. reflexivity. Qed.

(** ** Recurrent networks *)
Section R.
Context {X H O Y : Type}.
Variable cell : X -> list H -> O * list H.
Variable zero : H.
Variable layers : nat.
Variable out : O -> Y.
Variable dO : O.
Hypothesis keep : forall x s, length s = layers -> length (snd (cell x s)) = layers.
Lemma transpose_len w (m : list (list H)) : length (transpose zero w m) = w.
Proof. unfold transpose. rewrite map_length, seq_length. reflexivity. Qed.
Lemma transpose_wide w (m : list (list H)) : wide (length m) (transpose zero w m).
Proof. intros r HI. unfold transpose in HI. apply in_map_iff in HI. destruct HI as [j [<- _]]. apply map_length. Qed.
Lemma transpose_twice w (m : list (list H)) : wide w m -> transpose zero (length m) (transpose zero w m) = m.
Proof.
  intros W. rewrite (list_seq m []) at 3. unfold transpose at 1. apply map_ext_in. intros b Hb. apply in_seq in Hb.
  unfold transpose. rewrite map_map. rewrite (list_seq (nth b m []) zero), (W (nth b m [])) by (apply nth_In; lia). apply map_ext_in. intros j Hj. apply in_seq in Hj.
  change zero with ((fun r : list H => nth j r zero) []) at 1 || idtac.
  rewrite (nth_indep _ zero (nth j (@nil H) zero)) by (rewrite map_length; lia). exact (map_nth (fun r : list H => nth j r zero) m [] b).
Qed.
Lemma run_len xs : forall s, length s = layers -> length (snd (run_row cell xs s)) = layers.
Proof.
  induction xs as [|x xs IH]; intros s Hs; [exact Hs|]. cbn [run_row]. assert (K := keep x s Hs). destruct (cell x s) as [o s1]. cbn [snd] in K.
  assert (J := IH s1 K). destruct (run_row cell xs s1) as [os s2]. exact J.
Qed.
Lemma run_outs xs : forall s, length (fst (run_row cell xs s)) = length xs.
Proof. induction xs as [|x xs IH]; intros s; [reflexivity|]. cbn [run_row]. destruct (cell x s) as [o s1]. assert (J := IH s1). destruct (run_row cell xs s1) as [os s2]. cbn [fst length] in *. lia. Qed.
(** What one call computes for every row. *)
Definition fin (p : list X * list H) : Y * list H := (out (last (fst (run_row cell (fst p) (snd p))) dO), snd (run_row cell (fst p) (snd p))).
Lemma mapM_last (l : list (list O)) : (forall os, In os l -> os <> []) ->
  mapM (fun os => match rev os with o :: _ => Ok (out o) | [] => Err IndexError end) l = Ok (map (fun os => out (last os dO)) l).
Proof.
  intros Hl. apply mapM_Ok. intros os HI. specialize (Hl os HI). destruct (exists_last Hl) as (l' & o & ->). rewrite rev_app_distr, last_app1. reflexivity.
Qed.
Lemma lstm_ok (x : list (list X)) (ss : list (list H)) : (forall r, In r x -> r <> []) -> length ss = length x -> wide layers ss ->
  lstm cell zero layers x (Some (transpose zero layers ss)) =
  Ok (map (fun p : list X * list H => fst (run_row cell (fst p) (snd p))) (combine x ss), transpose zero layers (map (fun p : list X * list H => snd (run_row cell (fst p) (snd p))) (combine x ss))).
Proof.
  intros Hx Hs W. unfold lstm, guard. replace (forallb (fun r => negb (length r =? 0)) x) with true.
  2: { symmetry. apply forallb_forall. intros r HI. apply Bool.negb_true_iff, Nat.eqb_neq. specialize (Hx r HI). destruct r; [congruence | discriminate]. }
  rewrite transpose_len, Nat.eqb_refl. cbn [andb].
  replace (forallb (fun r => length r =? length x) (transpose zero layers ss)) with true.
  2: { symmetry. apply forallb_forall. intros r HI. apply Nat.eqb_eq. rewrite <- Hs. apply (transpose_wide layers ss r HI). }
  cbn [bind]. rewrite <- Hs, transpose_twice by exact W. rewrite !map_map. reflexivity.
Qed.
Lemma fwd_st (x : list (list X)) (ss : list (list H)) : (forall r, In r x -> r <> []) -> length ss = length x -> wide layers ss ->
  rec_forward cell zero layers out (Seq x) (St ss) = Ok (map (fun p => fst (fin p)) (combine x ss), map (fun p => snd (fin p)) (combine x ss)).
Proof.
  intros Hx Hs W. unfold rec_forward. cbn [bind]. rewrite (lstm_ok x ss Hx Hs W). cbn [bind fst snd].
  rewrite mapM_last.
  2: { intros os HI. apply in_map_iff in HI. destruct HI as [[r s] [<- HI]]. intros Z. apply (f_equal (@length O)) in Z. rewrite run_outs in Z. cbn [fst length] in Z.
       apply in_combine_l in HI. specialize (Hx r HI). destruct r; [congruence | discriminate]. }
  cbn [bind]. f_equal. f_equal; [rewrite map_map; reflexivity|].
  set (m := map (fun p : list X * list H => snd (run_row cell (fst p) (snd p))) (combine x ss)).
  replace (length x) with (length m) by (unfold m; rewrite map_length, combine_length; lia). rewrite transpose_twice; [reflexivity|].
  intros r HI. unfold m in HI. apply in_map_iff in HI. destruct HI as [[a b] [<- HI]]. apply run_len. apply W. apply in_combine_r in HI. exact HI.
Qed.
Lemma fwd_none (x : list (list X)) : rec_forward cell zero layers out (Seq x) NoState = rec_forward cell zero layers out (Seq x) (St (repeat (repeat zero layers) (length x))).
Proof.
  unfold rec_forward. cbn [bind]. assert (E : lstm cell zero layers x None = lstm cell zero layers x (Some (transpose zero layers (repeat (repeat zero layers) (length x))))).
  { assert (T : transpose zero layers (repeat (repeat zero layers) (length x)) = repeat (repeat zero (length x)) layers).
    { unfold transpose. transitivity (map (fun _ : nat => repeat zero (length x)) (seq 0 layers)).
      - apply map_ext. intros j. assert (G : forall k, map (fun r : list H => nth j r zero) (repeat (repeat zero layers) k) = repeat zero k); [|apply G].
        induction k as [|k IH]; [reflexivity|]. cbn [repeat map]. rewrite IH. f_equal. apply nth_repeat.
      - clear. generalize 0. induction layers as [|n IH]; intros a; [reflexivity|]. cbn [seq map repeat]. rewrite IH. reflexivity. }
    unfold lstm. rewrite T. unfold guard. destruct (forallb (fun r => negb (length r =? 0)) x); [|reflexivity]. rewrite repeat_length, Nat.eqb_refl. cbn [andb].
    replace (forallb (fun r => length r =? length x) (repeat (repeat zero (length x)) layers)) with true; [reflexivity|].
    symmetry. apply forallb_forall. intros r HI. apply repeat_spec in HI. subst r. rewrite repeat_length. apply Nat.eqb_refl. }
  rewrite E. reflexivity.
Qed.
(** Feeding the columns one after the other, passing on the state. *)
Fixpoint feed (cols : list (list X)) (st : rstate) (ys : option (list Y)) : res (option (list Y) * @rstate H) :=
  match cols with
  | [] => Ok (ys, st)
  | c :: cols => let* r := rec_forward cell zero layers out (One c) st in feed cols (St (snd r)) (Some (fst r)) end.
Definition cols_of (dX : X) (T : nat) (seqs : list (list X)) : list (list X) := map (fun t => map (fun r => nth t r dX) seqs) (seq 0 T).
Lemma one_seq c st : rec_forward cell zero layers out (One c) st = rec_forward cell zero layers out (Seq (map (fun r => [r]) c)) st.
Proof. reflexivity. Qed.
Lemma feed_st dX T : forall seqs ss ys, 0 < T -> wide T seqs -> length ss = length seqs -> wide layers ss ->
  feed (cols_of dX T seqs) (St ss) ys = Ok (Some (map (fun p => fst (fin p)) (combine seqs ss)), St (map (fun p => snd (fin p)) (combine seqs ss))).
Proof.
  induction T as [|T IH]; intros seqs ss ys HT W Hs WS; [lia|].
  assert (C : cols_of dX (S T) seqs = map (fun r => nth 0 r dX) seqs :: cols_of dX T (map (@tl X) seqs)).
  { unfold cols_of. cbn [seq map]. f_equal. rewrite <- seq_shift, map_map. apply map_ext. intros t. rewrite map_map. apply map_ext_in. intros r Hr. specialize (W r Hr). destruct r; [discriminate | reflexivity]. }
  rewrite C. cbn [feed]. rewrite one_seq, fwd_st.
  2: { intros r HI. apply in_map_iff in HI. destruct HI as [z [<- _]]. discriminate. }
  2: { rewrite !map_length. exact Hs. }
  2: { exact WS. }
  cbn [bind fst snd]. rewrite map_map.
  set (s1 := map (fun p => snd (fin p)) (combine (map (fun x => [nth 0 x dX]) seqs) ss)).
  destruct T as [|T].
  - assert (CE : cols_of dX 0 (map (@tl X) seqs) = []) by reflexivity. rewrite CE. cbn [feed]. unfold s1.
    replace (map (fun x => [nth 0 x dX]) seqs) with seqs; [reflexivity|]. transitivity (map (fun x : list X => x) seqs); [symmetry; apply map_id|].
    apply map_ext_in. intros r Hr. specialize (W r Hr). destruct r as [|a [|]]; try discriminate. reflexivity.
  - assert (S1 : s1 = map (fun p : list X * list H => snd (cell (nth 0 (fst p) dX) (snd p))) (combine seqs ss)).
    { unfold s1. clear - Hs. revert ss Hs. induction seqs as [|r seqs IHs]; intros [|s ss] Hs; try discriminate; [reflexivity|]. cbn [map combine]. rewrite IHs by (cbn in Hs; lia). f_equal.
      unfold fin. cbn [fst snd run_row]. destruct (cell (nth 0 r dX) s). reflexivity. }
    rewrite IH.
    + rewrite S1. f_equal. f_equal.
      * f_equal. clear - Hs W. revert ss Hs. induction seqs as [|r seqs IHs]; intros [|s ss] Hs; try discriminate; [reflexivity|]. cbn [map combine].
        rewrite IHs by (try (intros z Hz; apply W; right; exact Hz); cbn in Hs; lia). f_equal. cbn [fst snd].
        assert (LR := W r (or_introl eq_refl)). destruct r as [|a [|b r]]; try discriminate. unfold fin. cbn [nth tl fst snd]. cbn [run_row]. destruct (cell a s) as [o s']. cbn [snd].
        destruct (cell b s') as [o2 s2]. destruct (run_row cell r s2) as [os s3]. cbn [fst]. rewrite !last_cons. reflexivity.
      * f_equal. clear - Hs W. revert ss Hs. induction seqs as [|r seqs IHs]; intros [|s ss] Hs; try discriminate; [reflexivity|]. cbn [map combine].
        rewrite IHs by (try (intros z Hz; apply W; right; exact Hz); cbn in Hs; lia). f_equal. cbn [fst snd].
        assert (LR := W r (or_introl eq_refl)). destruct r as [|a [|b r]]; try discriminate. unfold fin. cbn [nth tl fst snd]. cbn [run_row]. destruct (cell a s) as [o s']. cbn [snd].
        destruct (cell b s') as [o2 s2]. destruct (run_row cell r s2) as [os s3]. reflexivity.
    + lia.
    + intros r HI. apply in_map_iff in HI. destruct HI as [z [<- Hz]]. specialize (W z Hz). destruct z; [discriminate | cbn in *; lia].
    + rewrite S1, !map_length, combine_length. lia.
    + intros r HI. rewrite S1 in HI. apply in_map_iff in HI. destruct HI as [[a b] [<- HI]]. apply keep. apply WS. apply in_combine_r in HI. exact HI.
Qed.
End R.
(** C186. Passing a batch of sequences in one call gives the outputs and the state that feeding the observations one by one with the
    returned states gives, from no state or from any state. *)
Lemma C186_sequences_lemma : forall (X H O Y : Type) (cell : X -> list H -> O * list H) (zero : H) (layers : nat) (out : O -> Y) (dX : X)
    (T : nat) (seqs : list (list X)) (st : rstate),
  (forall x s, length s = layers -> length (snd (cell x s)) = layers) ->
  0 < T -> wide T seqs -> match st with NoState => True | BadKeys => False | St s => length s = length seqs /\ wide layers s end ->
  exists ys s, rec_forward cell zero layers out (Seq seqs) st = Ok (ys, s) /\ length ys = length seqs /\ length s = length seqs /\ wide layers s /\
    feed cell zero layers out (map (fun t => map (fun r => nth t r dX) seqs) (seq 0 T)) st None = Ok (Some ys, St s).
Proof.
  intros X H O Y cell zero layers out dX T seqs st keep HT W Hst.
  set (ss := match st with St s => s | _ => repeat (repeat zero layers) (length seqs) end).
  assert (LS : length ss = length seqs) by (unfold ss; destruct st; [apply repeat_length | contradiction | apply Hst]).
  assert (WS : wide layers ss). { unfold ss. destruct st; [|contradiction | apply Hst]. intros r HI. apply repeat_spec in HI. subst r. apply repeat_length. }
  set (dO := fst (cell dX (repeat zero layers))).
  assert (NE : forall r, In r seqs -> r <> []) by (intros r Hr; specialize (W r Hr); destruct r; [cbn in W; lia | discriminate]).
  assert (E : forall x, rec_forward cell zero layers out (Seq x) st = rec_forward cell zero layers out (Seq x) (St ss) \/ length x <> length seqs).
  { intros x. destruct (Nat.eq_dec (length x) (length seqs)) as [L|L]; [left | right; exact L]. unfold ss. destruct st; [|contradiction | reflexivity]. rewrite fwd_none, L. reflexivity. }
  exists (map (fun p => fst (fin cell out dO p)) (combine seqs ss)), (map (fun p => snd (fin cell out dO p)) (combine seqs ss)).
  split; [destruct (E seqs) as [-> | C]; [apply fwd_st; assumption | congruence]|].
  split; [rewrite map_length, combine_length; lia|]. split; [rewrite map_length, combine_length; lia|]. split.
  { intros r HI. apply in_map_iff in HI. destruct HI as [[a b] [<- HI]]. cbn [fin snd]. apply run_len; [exact keep|]. apply WS. apply in_combine_r in HI. exact HI. }
  assert (G := feed_st cell zero layers out dO keep dX T seqs ss None HT W LS WS). unfold cols_of in G. rewrite <- G.
  destruct T as [|T]; [lia|]. cbn [seq map feed]. rewrite !one_seq. destruct (E (map (fun r => [r]) (map (fun r => nth 0 r dX) seqs))) as [-> | C]; [reflexivity|]. rewrite !map_length in C. congruence.
Qed.
(** C186. A state without its keys is rejected. *)
Lemma C186_keys_lemma : forall (X H O Y : Type) (cell : X -> list H -> O * list H) (zero : H) (layers : nat) (out : O -> Y) (obs : robs),
  rec_forward cell zero layers out obs BadKeys = Err ValueError.
Proof. reflexivity. Qed.

(** ** Actors *)
(** C187. The deterministic and the discrete actor pass on the state of the preprocessing network: in a rollout the network sees in every
    step the state it returned in the step before. *)
Lemma C187_threads_lemma : forall (Ob S F : Type) (pre : Ob -> option S -> F * option S) (tanh e : Qc -> Qc) (lst : F -> row) (ma : Qc) (sm : bool)
    (os : list Ob) (s : option S),
  let states := fun k => fold_left (fun s o => snd (pre o s)) (firstn k os) s in
  snd (rollout (actor_forward pre tanh lst ma) os s) = states (length os) /\
  snd (rollout (disc_forward pre e lst sm) os s) = states (length os) /\
  (forall k o, nth_error os k = Some o ->
     nth_error (fst (rollout (actor_forward pre tanh lst ma) os s)) k = Some (map (fun y => (ma * tanh y)%Qc) (lst (fst (pre o (states k))))) /\
     nth_error (fst (rollout (disc_forward pre e lst sm) os s)) k = Some (if sm then softmax e (lst (fst (pre o (states k)))) else lst (fst (pre o (states k))))).
Proof.
  intros Ob S F pre tanh e lst ma sm os. induction os as [|o os IH]; intros s; cbv zeta.
  - split; [reflexivity|]. split; [reflexivity|]. intros [|k] o H; discriminate.
  - specialize (IH (snd (pre o s))). cbv zeta in IH. destruct IH as (I1 & I2 & I3). cbn [rollout length firstn fold_left].
    unfold actor_forward at 1 3. unfold disc_forward at 1 3. destruct (pre o s) as [x h] eqn:EP. cbn [snd] in *.
    destruct (rollout (actor_forward pre tanh lst ma) os h) as [r1 h1]. destruct (rollout (disc_forward pre e lst sm) os h) as [r2 h2]. cbn [fst snd] in *.
    split; [exact I1|]. split; [exact I2|]. intros [|k] o' Ho'.
    + cbn in Ho'. injection Ho' as <-. cbn [firstn fold_left nth_error]. rewrite EP. split; reflexivity.
    + cbn [nth_error firstn fold_left] in *. rewrite EP. cbn [snd]. apply I3. exact Ho'.
Qed.
(** C187. [ActorProb] returns the state it was given: in a rollout every action is computed from the first state, and the state after it
    is the first state. *)
Lemma C187_prob_refuted_lemma : forall (Ob S F : Type) (pre : Ob -> option S -> F * option S) (tanh e : Qc -> Qc) (mu : F -> row) (sg : sig) (ub : bool) (ma : Qc)
    (os : list Ob) (s : option S),
  rollout (prob_forward pre tanh e mu sg ub ma) os s = (map (fun o => fst (prob_forward pre tanh e mu sg ub ma o s)) os, s).
Proof.
  intros Ob S F pre tanh e mu sg ub ma os s. assert (G : forall o, snd (prob_forward pre tanh e mu sg ub ma o s) = s) by (intros o; unfold prob_forward; destruct (pre o s); reflexivity).
  induction os as [|o os IH]; [reflexivity|]. cbn [rollout map]. specialize (G o). destruct (prob_forward pre tanh e mu sg ub ma o s) as [r s1] eqn:E. cbn [snd] in G. subst s1.
  rewrite IH. reflexivity.
Qed.
Lemma scaled_bound m t : (0 <= m)%Qc -> (- (1) <= t)%Qc -> (t <= 1)%Qc -> (- m <= m * t)%Qc /\ (m * t <= m)%Qc.
Proof.
  intros Hm H1 H2. assert (A := Qcmult_le_compat_r _ _ m H1 Hm). assert (B := Qcmult_le_compat_r _ _ m H2 Hm).
  replace (m * t)%Qc with (t * m)%Qc by ring. replace (- (1) * m)%Qc with (- m)%Qc in A by ring. replace (1 * m)%Qc with m in B by ring. split; assumption.
Qed.
Lemma clampq_in lo hi x : (lo <= hi)%Qc -> (lo <= clampq lo hi x)%Qc /\ (clampq lo hi x <= hi)%Qc.
Proof. intros Hl. unfold clampq, Qcminb, Qcmaxb. destruct (Qcleb_spec lo x); destruct (Qcleb_spec hi lo) ; destruct (Qcleb_spec hi x); split; qclra. Qed.
(** C188. The actions of [Actor], of a bounded [ActorProb] and of the decoder lie in the range; a conditioned sigma lies between its
    limits; an unbounded [ActorProb] ignores [max_action]. *)
Lemma C188_bounded_lemma : forall (Ob S F : Type) (pre : Ob -> option S -> F * option S) (tanh e : Qc -> Qc) (lst : F -> row) (f : F -> row) (ma : Qc) (o : Ob) (s : option S),
  (0 <= ma)%Qc -> (forall x, - (1) <= tanh x /\ tanh x <= 1)%Qc -> (forall x y, x <= y -> e x <= e y)%Qc ->
  (forall a, In a (fst (actor_forward pre tanh lst ma o s)) -> (- ma <= a)%Qc /\ (a <= ma)%Qc) /\
  (forall sg a, In a (fst (fst (prob_forward pre tanh e lst sg false ma o s))) -> (- ma <= a)%Qc /\ (a <= ma)%Qc) /\
  (forall ub a, In a (snd (fst (prob_forward pre tanh e lst (SNet f) ub ma o s))) -> (e (Q2Qc (-20 # 1)) <= a)%Qc /\ (a <= e (Q2Qc (2 # 1)))%Qc) /\
  (forall sg ma', prob_forward pre tanh e lst sg true ma o s = prob_forward pre tanh e lst sg true ma' o s /\
     fst (fst (prob_forward pre tanh e lst sg true ma o s)) = lst (fst (pre o s))) /\
  (forall dec st z noise a, In a (vae_decode dec tanh ma st z noise) -> (- ma <= a)%Qc /\ (a <= ma)%Qc).
Proof.
  intros Ob S F pre tanh e lst f ma o s Hm HT HE. unfold actor_forward, prob_forward, vae_decode, prob_max. destruct (pre o s) as [x h]. cbn [fst snd]. repeat split.
  - apply in_map_iff in H. destruct H as [y [<- _]]. apply scaled_bound; try assumption; apply HT.
  - apply in_map_iff in H. destruct H as [y [<- _]]. apply scaled_bound; try assumption; apply HT.
  - apply in_map_iff in H. destruct H as [y [<- _]]. apply scaled_bound; try assumption; apply HT.
  - apply in_map_iff in H. destruct H as [y [<- _]]. apply scaled_bound; try assumption; apply HT.
  - apply in_map_iff in H. destruct H as [y [<- _]]. apply HE. apply (clampq_in sigma_min sigma_max y). discriminate.
  - apply in_map_iff in H. destruct H as [y [<- _]]. apply HE. apply (clampq_in sigma_min sigma_max y). discriminate.
  - apply in_map_iff in H. destruct H as [y [<- _]]. apply scaled_bound; try assumption; apply HT.
  - apply in_map_iff in H. destruct H as [y [<- _]]. apply scaled_bound; try assumption; apply HT.
Qed.
(** C188. The perturbed action lies in the range and, if the action does, within [phi * max_action] of it. *)
Lemma C188_perturb_lemma : forall (net : row -> row) (tanh : Qc -> Qc) (phi ma : Qc) (state action : row),
  (0 <= ma)%Qc -> (0 <= phi)%Qc -> (forall x, - (1) <= tanh x /\ tanh x <= 1)%Qc -> length (net (state ++ action)) = length action ->
  exists r, perturb net tanh phi ma state action = Ok r /\ length r = length action /\
    forall i, i < length action -> (- ma <= nth i r 0)%Qc /\ (nth i r 0 <= ma)%Qc /\
      ((- ma <= nth i action 0)%Qc -> (nth i action 0 <= ma)%Qc ->
       (nth i action 0 - phi * ma <= nth i r 0)%Qc /\ (nth i r 0 <= nth i action 0 + phi * ma)%Qc).
Proof.
  intros net tanh phi ma state action Hm Hp HT HL. unfold perturb, bcast. rewrite map_length, HL, Nat.eqb_refl. cbn [bind]. eexists. split; [reflexivity|].
  set (z := net (state ++ action)) in *. split; [rewrite !map_length, combine_length, map_length; lia|]. intros i Hi.
  rewrite (combine_seq _ action 0%Qc 0%Qc) by (rewrite map_length; exact HL). rewrite !map_map, nth_map_seq0 by (rewrite map_length; lia). cbn [fst snd].
  rewrite (nth_indep _ 0%Qc (phi * ma * tanh 0)%Qc) by (rewrite map_length; lia). rewrite (map_nth (fun y => (phi * ma * tanh y)%Qc)).
  set (a := nth i action 0%Qc). set (t := tanh (nth i z 0%Qc)). assert (T := HT (nth i z 0%Qc)). fold t in T. destruct T as [T1 T2]. clearbody a t.
  assert (PM : (0 <= phi * ma)%Qc). { assert (A := Qcmult_le_compat_r _ _ ma Hp Hm). replace (0 * ma)%Qc with 0%Qc in A by ring. exact A. }
  destruct (scaled_bound _ t PM T1 T2) as [B1 B2]. set (n := (phi * ma * t)%Qc) in *. set (pm := (phi * ma)%Qc) in *. clearbody n pm.
  unfold clampq, Qcminb, Qcmaxb. destruct (Qcleb_spec (- ma) (n + a)); destruct (Qcleb_spec ma (n + a)); try destruct (Qcleb_spec ma (- ma)); repeat split; intros; qclra.
Qed.

(** ** [Critic] *)
(** C189. A critic whose preprocessing network takes observation and action, or observation only when no action is passed, works whenever
    the sizes fit. *)
Lemma C189_fits_lemma : forall (pre lst : row -> row) (pin lin_ : nat) (obs : row) (act : option row),
  (forall x, length x = pin -> length (pre x) = lin_) ->
  (length obs + length (match act with Some a => a | None => [] end) = pin ->
     critic_forward pre lst pin lin_ false obs act = Ok (lst (pre (obs ++ match act with Some a => a | None => [] end)))) /\
  (act = None -> length obs = pin -> critic_forward pre lst pin lin_ true obs act = Ok (lst (pre obs))).
Proof.
  intros pre lst pin lin_ obs act HP. split.
  - intros HL. unfold critic_forward, guard. cbn [bind]. destruct act as [a|].
    + rewrite app_length, HL, Nat.eqb_refl. cbn [bind]. rewrite HP by (rewrite app_length; exact HL). rewrite Nat.eqb_refl. reflexivity.
    + cbn [length] in HL. rewrite Nat.add_0_r in HL. rewrite HL, Nat.eqb_refl. cbn [bind]. rewrite HP by exact HL. rewrite Nat.eqb_refl, app_nil_r. reflexivity.
  - intros -> HL. unfold critic_forward, guard. rewrite HL, Nat.eqb_refl. cbn [bind]. rewrite HP by exact HL. rewrite Nat.eqb_refl. reflexivity.
Qed.
(** C189. With [apply_preprocess_net_to_obs_only] a critic of observation and action cannot be evaluated: its last network is built for
    the width of the preprocessing network alone. *)
Lemma C189_obs_only_refuted_lemma : forall (pre lst : row -> row) (pin lin_ : nat) (obs act : row),
  (forall x, length x = pin -> length (pre x) = lin_) -> act <> [] ->
  critic_forward pre lst pin lin_ true obs (Some act) = Err RuntimeError.
Proof.
  intros pre lst pin lin_ obs act HP HA. unfold critic_forward, guard. destruct (length obs =? pin) eqn:E; [|reflexivity]. apply Nat.eqb_eq in E. cbn [bind].
  rewrite app_length, (HP obs E). replace (lin_ + length act =? lin_) with false; [reflexivity|]. symmetry. apply Nat.eqb_neq. destruct act; [congruence | cbn; lia].
Qed.

(** ** Noisy layers *)
Lemma dotp_noisy (mu sg p : row) (q : Qc) : forall x, length sg = length mu -> length p = length mu -> length x = length mu ->
  dotp (map (fun y : (Qc * Qc) * Qc => (fst (fst y) + snd (fst y) * (q * snd y))%Qc) (combine (combine mu sg) p)) x
  = (dotp mu x + q * dotp (map (fun y : Qc * Qc => (fst y * snd y)%Qc) (combine sg p)) x)%Qc.
Proof.
  unfold dotp. revert sg p. induction mu as [|m mu IH]; intros [|s sg] [|p0 p] [|x0 x] H1 H2 H3; try discriminate; [cbn; ring|].
  cbn [map combine qsum fst snd]. rewrite IH by (cbn in *; lia). ring.
Qed.
(** C190. In training a noisy layer is the plain layer plus the noise of the output times (the weighted noise of the inputs plus the bias'
    deviation); in evaluation, or with noise zero, it is the plain layer. *)
Lemma C190_noisy_lemma : forall (n : noisy) (I O : nat) (x : row),
  length (nl_mu n) = O -> length (nl_sigma n) = O -> length (nl_mub n) = O -> length (nl_sigb n) = O -> length (nl_q n) = O -> length (nl_p n) = I ->
  wide I (nl_mu n) -> wide I (nl_sigma n) -> length x = I ->
  length (noisy_forward true n x) = O /\ noisy_forward false n x = lin (nl_mu n) (nl_mub n) x /\
  forall j, j < O ->
    (nth j (noisy_forward true n x) 0 = nth j (noisy_forward false n x) 0 +
       nth j (nl_q n) 0 * (dotp (map (fun y : Qc * Qc => (fst y * snd y)%Qc) (combine (nth j (nl_sigma n) []) (nl_p n))) x + nth j (nl_sigb n) 0))%Qc.
Proof.
  intros n I O x L1 L2 L3 L4 L5 L6 W1 W2 LX. cbn [noisy_forward].
  set (w := map (fun r : (row * row) * Qc => map (fun y : (Qc * Qc) * Qc => (fst (fst y) + snd (fst y) * (snd r * snd y))%Qc) (combine (combine (fst (fst r)) (snd (fst r))) (nl_p n)))
             (combine (combine (nl_mu n) (nl_sigma n)) (nl_q n))).
  set (b := map (fun y : (Qc * Qc) * Qc => (fst (fst y) + snd (fst y) * snd y)%Qc) (combine (combine (nl_mub n) (nl_sigb n)) (nl_q n))).
  assert (LW : length w = O) by (unfold w; rewrite map_length, !combine_length; lia).
  assert (LB : length b = O) by (unfold b; rewrite map_length, !combine_length; lia).
  assert (G : forall (w : list row) (b : row), length w = O -> length b = O -> lin w b x = map (fun j => (dotp (nth j w []) x + nth j b 0)%Qc) (seq 0 O)).
  { intros w0 b0 H1 H2. unfold lin. rewrite (combine_seq w0 b0 [] 0%Qc) by congruence. rewrite map_map, H1. reflexivity. }
  rewrite (G w b LW LB), (G (nl_mu n) (nl_mub n) L1 L3). split; [rewrite map_length, seq_length; reflexivity|]. split; [reflexivity|].
  intros j Hj. rewrite !nth_map_seq0 by exact Hj.
  assert (NW : nth j w [] = map (fun y : (Qc * Qc) * Qc => (fst (fst y) + snd (fst y) * (nth j (nl_q n) 0 * snd y))%Qc) (combine (combine (nth j (nl_mu n) []) (nth j (nl_sigma n) [])) (nl_p n))).
  { unfold w. rewrite (combine_seq (combine (nl_mu n) (nl_sigma n)) (nl_q n) ([], []) 0%Qc) by (rewrite combine_length; lia). rewrite map_map, nth_map_seq0 by (rewrite combine_length; lia).
    cbn [fst snd]. rewrite combine_nth by congruence. reflexivity. }
  assert (NB : nth j b 0%Qc = (nth j (nl_mub n) 0 + nth j (nl_sigb n) 0 * nth j (nl_q n) 0)%Qc).
  { unfold b. rewrite (combine_seq (combine (nl_mub n) (nl_sigb n)) (nl_q n) (0%Qc, 0%Qc) 0%Qc) by (rewrite combine_length; lia). rewrite map_map, nth_map_seq0 by (rewrite combine_length; lia).
    cbn [fst snd]. rewrite combine_nth by congruence. reflexivity. }
  rewrite NW, NB, dotp_noisy.
  - ring.
  - rewrite (W1 (nth j (nl_mu n) [])), (W2 (nth j (nl_sigma n) [])); [reflexivity | apply nth_In; lia | apply nth_In; lia].
  - rewrite (W1 (nth j (nl_mu n) [])); [exact L6 | apply nth_In; lia].
  - rewrite (W1 (nth j (nl_mu n) [])); [exact LX | apply nth_In; lia].
Qed.

(** ** Quantile networks *)
Lemma flat_nth {U V} (f : U -> list V) n d : forall l b k u, (forall x, In x l -> length (f x) = n) -> nth_error l b = Some u -> k < n ->
  nth (b * n + k) (flat_map f l) d = nth k (f u) d.
Proof.
  induction l as [|x l IH]; intros b k u HL Hb Hk; [destruct b; discriminate|]. cbn [flat_map]. assert (LX := HL x (or_introl eq_refl)). destruct b as [|b].
  - cbn in Hb. injection Hb as ->. rewrite app_nth1 by (cbn; lia). reflexivity.
  - rewrite app_nth2 by (cbn; lia). replace (S b * n + k - length (f x)) with (b * n + k) by (cbn; lia). apply IH; [intros y Hy; apply HL; right; exact Hy | exact Hb | exact Hk].
Qed.
(** C191. Entry [b, a, n] of an implicit quantile network is the output for action [a] at fraction [n] of observation [b], and depends on
    nothing else. *)
Lemma C191_entries_lemma : forall (embed : Qc -> row) (lst : row -> row) (actions sample_size : nat) (logits taus : list row),
  length taus = length logits -> wide sample_size taus ->
  let r := iqn_forward embed lst actions sample_size logits taus in
  length r = length logits /\
  forall b a n, b < length logits -> a < actions -> n < sample_size ->
    length (nth b r []) = actions /\ length (nth a (nth b r []) []) = sample_size /\
    nth n (nth a (nth b r []) []) 0%Qc =
      nth a (lst (map (fun y : Qc * Qc => (fst y * snd y)%Qc) (combine (nth b logits []) (embed (nth n (nth b taus []) 0%Qc))))) 0%Qc.
Proof.
  intros embed lst actions sample_size logits taus HL W r. unfold r, iqn_forward. clear r. split; [rewrite map_length, seq_length; reflexivity|].
  intros b a n Hb Ha Hn. rewrite nth_map_seq0 by exact Hb. split; [rewrite map_length, seq_length; reflexivity|]. rewrite nth_map_seq0 by exact Ha.
  split; [rewrite map_length, seq_length; reflexivity|]. rewrite nth_map_seq0 by exact Hn.
  set (g := fun p : row * row => map (fun t => map (fun y : Qc * Qc => (fst y * snd y)%Qc) (combine (fst p) (embed t))) (snd p)).
  assert (LG : forall x, In x (combine logits taus) -> length (g x) = sample_size).
  { intros [u v] HI. unfold g. rewrite map_length. apply W. apply in_combine_r in HI. exact HI. }
  assert (NE : nth_error (combine logits taus) b = Some (nth b logits [], nth b taus [])).
  { rewrite <- combine_nth by congruence. apply nth_error_nth'. rewrite combine_length. lia. }
  assert (TL : n < length (nth b taus [])) by (rewrite (W (nth b taus [])) by (apply nth_In; lia); exact Hn).
  assert (FL : b * sample_size + n < length (flat_map g (combine logits taus))).
  { clear - HL W Hb Hn LG. assert (E : length (flat_map g (combine logits taus)) = length (combine logits taus) * sample_size).
    { induction (combine logits taus) as [|x l IH]; [reflexivity|]. cbn [flat_map length]. rewrite app_length, IH by (intros y Hy; apply LG; right; exact Hy). rewrite (LG x (or_introl eq_refl)). reflexivity. }
    rewrite E, combine_length. nia. }
  rewrite (nth_indep _ [] (lst [])) by (rewrite map_length; exact FL). rewrite map_nth. f_equal. f_equal.
  rewrite (flat_nth g sample_size [] _ b n _ LG NE Hn). unfold g. cbn [fst snd].
  rewrite (nth_indep _ [] ((fun t => map (fun y : Qc * Qc => (fst y * snd y)%Qc) (combine (nth b logits []) (embed t))) 0%Qc)) by (rewrite map_length; exact TL).
  rewrite (map_nth (fun t => map (fun y : Qc * Qc => (fst y * snd y)%Qc) (combine (nth b logits []) (embed t)))). reflexivity.
Qed.
(** C192. The curiosity of a transition is non-negative, zero exactly if the forward model predicts the next features, and an action out
    of range raises. *)
Lemma C192_curiosity_lemma : forall (feat fwd inv : row -> row) (n : nat) (s1 s2 : row) (a : nat) (h : row),
  h = map (fun i => if i =? a then 1%Qc else 0%Qc) (seq 0 n) -> length (fwd (feat s1 ++ h)) = length (feat s2) ->
  (a < n -> exists l r, icm_module feat fwd inv n s1 a s2 = Ok (l, r) /\ r = inv (feat s1 ++ feat s2) /\ (0 <= l)%Qc /\ (l = 0%Qc <-> fwd (feat s1 ++ h) = feat s2)) /\
  (n <= a -> icm_module feat fwd inv n s1 a s2 = Err RuntimeError).
Proof.
  intros feat fwd inv n s1 s2 a h Hh HL. unfold icm_module, one_hot, guard. split.
  - intros Ha. apply Nat.ltb_lt in Ha. rewrite Ha. cbn [bind]. rewrite <- Hh. unfold bcast. rewrite HL, Nat.eqb_refl. cbn [bind].
    eexists. eexists. split; [reflexivity|]. split; [reflexivity|].
    set (u := fwd (feat s1 ++ h)) in *. set (v := feat s2) in *. clearbody u v. rewrite map_map.
    assert (G : forall u v : row, length u = length v -> (0 <= qsum (map (fun x : Qc * Qc => ((fst x - snd x) * (fst x - snd x))%Qc) (combine u v)))%Qc /\
       (qsum (map (fun x : Qc * Qc => ((fst x - snd x) * (fst x - snd x))%Qc) (combine u v)) = 0%Qc <-> u = v)).
    { clear. induction u as [|x u IH]; intros [|y v] HL; try discriminate; [cbn [combine map qsum]; split; [discriminate | split; reflexivity]|].
      cbn [combine map qsum fst snd]. destruct (IH v) as [I1 I2]; [cbn in HL; lia|]. set (t := qsum (map (fun x : Qc * Qc => ((fst x - snd x) * (fst x - snd x))%Qc) (combine u v))) in *. clearbody t.
      assert (SQ : (0 <= (x - y) * (x - y))%Qc) by (generalize (x - y)%Qc; intros d; qcnra).
      split; [qclra|]. split.
      - intros Z. assert (Z1 : ((x - y) * (x - y) = 0)%Qc) by qclra. assert (Z2 : t = 0%Qc) by qclra. apply I2 in Z2. subst v. f_equal.
        apply Qcmult_integral in Z1. destruct Z1 as [Z1|Z1]; qclra.
      - intros E. injection E as -> ->. assert (Z : t = 0%Qc) by (apply I2; reflexivity). rewrite Z. ring. }
    destruct (G u v HL) as [G1 G2]. set (t := qsum _) in *. clearbody t. unfold half. split; [qclra|]. rewrite <- G2. split; intros Z; [qclra | rewrite Z; ring].
  - intros Ha. apply Nat.ltb_ge in Ha. rewrite Ha. reflexivity.
Qed.

(** C188. Without a given latent vector the VAE decodes one within [-1/2, 1/2]: the noise, as far as it is in that range. *)
Lemma C188_latent_lemma : forall (dec : row -> row) (tanh : Qc -> Qc) (ma : Qc) (state noise : row),
  exists z, vae_decode dec tanh ma state None noise = vae_decode dec tanh ma state (Some z) noise /\ length z = length noise /\
    (forall x, In x z -> (- half <= x)%Qc /\ (x <= half)%Qc) /\
    ((forall x, In x noise -> (- half <= x)%Qc /\ (x <= half)%Qc) -> z = noise).
Proof.
  intros dec tanh ma state noise. exists (map (clampq (- half) half) noise). split; [reflexivity|]. split; [apply map_length|]. split.
  - intros x Hx. apply in_map_iff in Hx. destruct Hx as (y & <- & _). apply clampq_in. vm_compute. discriminate.
  - intro H. rewrite <- (map_id noise) at 2. apply map_ext_in. intros x Hx. destruct (H x Hx) as [H1 H2]. unfold clampq, Qcminb, Qcmaxb.
    destruct (Qcleb_spec (- half) x) as [L|L]; [|qclra]. destruct (Qcleb_spec half x) as [L'|L']; [|reflexivity]. now apply Qcle_antisym.
Qed.

(** C192. The loss of the forward model is half the squared distance between the predicted and the actual features. *)
Lemma C192_loss_lemma : forall (feat fwd inv : row -> row) (k : nat) (s1 s2 : row) (a : nat) (l : Qc) (p : row) (h : row),
  one_hot k a = Ok h -> length (fwd (feat s1 ++ h)) = length (feat s2) ->
  icm_module feat fwd inv k s1 a s2 = Ok (l, p) ->
  (l + l = sqdist (fwd (feat s1 ++ h)) (feat s2))%Qc /\ p = inv (feat s1 ++ feat s2).
Proof.
  intros feat fwd inv k s1 s2 a l p h Hh Hl E. unfold icm_module in E. rewrite Hh in E. cbn [bind] in E. unfold bcast in E.
  rewrite Hl, Nat.eqb_refl in E. cbn [bind] in E. injection E as <- <-. split; [|reflexivity].
  generalize dependent (fwd (feat s1 ++ h)). intros u Hl.
  assert (H2 : (half + half = 1)%Qc) by (apply Qc_is_canon; vm_compute; reflexivity).
  assert (E : qsum (map (fun x => x * x)%Qc (map (fun x : Qc * Qc => (fst x - snd x)%Qc) (combine u (feat s2)))) = sqdist u (feat s2)).
  { clear. generalize (feat s2) as v. induction u as [|x u IH]; intros [|y v]; try reflexivity. cbn [combine map qsum fold_right fst snd sqdist]. now rewrite <- IH. }
  rewrite E. replace (half * sqdist u (feat s2) + half * sqdist u (feat s2))%Qc with ((half + half) * sqdist u (feat s2))%Qc by ring. rewrite H2. ring.
Qed.
