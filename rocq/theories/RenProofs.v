(** * Proofs: PSRL does not depend on the numbering of states *)
From Coq Require Import Permutation.
From Verif Require Import Py Num PyLemmas TatSpec PsrlModel RenSpec.
Open Scope nat_scope.
Open Scope list_scope.

(** ** Learning *)
Section Learn.
Variables (f g : nat -> nat) (ns na : nat).
Hypotheses (Hf : renumbers ns f) (Hg : renumbers na g).
Lemma f_eqb x y : (f x =? f y) = (x =? y).
Proof. destruct (Nat.eqb_spec x y) as [->|N]; [apply Nat.eqb_refl|]. apply Nat.eqb_neq. intros E. apply N. exact (proj1 Hf _ _ E). Qed.
Lemma g_eqb x y : (g x =? g y) = (x =? y).
Proof. destruct (Nat.eqb_spec x y) as [->|N]; [apply Nat.eqb_refl|]. apply Nat.eqb_neq. intros E. apply N. exact (proj1 Hg _ _ E). Qed.
Lemma f_ltb x : (f x <? ns) = (x <? ns).
Proof. destruct (Nat.ltb_spec x ns) as [L|L]; [apply Nat.ltb_lt, (proj2 Hf x), L|]. apply Nat.ltb_ge. destruct (Nat.lt_ge_cases (f x) ns) as [E|E]; [|exact E]. apply (proj2 Hf x) in E. lia. Qed.
Lemma g_ltb x : (g x <? na) = (x <? na).
Proof. destruct (Nat.ltb_spec x na) as [L|L]; [apply Nat.ltb_lt, (proj2 Hg x), L|]. apply Nat.ltb_ge. destruct (Nat.lt_ge_cases (g x) na) as [E|E]; [|exact E]. apply (proj2 Hg x) in E. lia. Qed.
Definition alike_stats (t t' : stats) : Prop :=
  alike3 f g (t_tc t) (t_tc t') /\ alike2 f g (t_rs t) (t_rs t') /\ alike2 f g (t_rq t) (t_rq t') /\ alike2 f g (t_rc t) (t_rc t').
Lemma inc2_alike t t' i j x : alike2 f g t t' -> alike2 f g (inc2 t i j x) (inc2 t' (f i) (g j) x).
Proof. intros H s a. unfold inc2. rewrite f_eqb, g_eqb, H. reflexivity. Qed.
Lemma inc3_alike t t' i j k x : alike3 f g t t' -> alike3 f g (inc3 t i j k x) (inc3 t' (f i) (g j) (f k) x).
Proof. intros H s a u. unfold inc3. rewrite !f_eqb, g_eqb, H. reflexivity. Qed.
Lemma row_alike loop t t' w : alike_stats t t' ->
  match learn_row ns na loop t w, learn_row ns na loop t' (rename_row f g w) with
  | Ok u, Ok u' => alike_stats u u' | Err e, Err e' => e = e' | _, _ => False end.
Proof.
  intros (A1 & A2 & A3 & A4). unfold learn_row. cbn [rename_row w_obs w_act w_next w_rew w_done]. rewrite !f_ltb, g_ltb.
  destruct ((w_obs w <? ns) && (w_act w <? na) && (w_next w <? ns)); [|reflexivity].
  destruct (loop && w_done w); unfold alike_stats; cbn [t_tc t_rs t_rq t_rc].
  - split; [|split; [apply inc2_alike, A2|split; [apply inc2_alike, A3|]]].
    + intros s a u. rewrite !f_eqb. rewrite (inc3_alike _ _ (w_obs w) (w_act w) (w_next w) 1 A1 s a u). reflexivity.
    + intros s a. rewrite !f_eqb. rewrite (inc2_alike _ _ (w_obs w) (w_act w) 1 A4 s a). reflexivity.
  - split; [apply inc3_alike, A1|]. split; [apply inc2_alike, A2|]. split; apply inc2_alike; assumption.
Qed.
Lemma rows_alike loop rows : forall t t', alike_stats t t' ->
  match foldM (learn_row ns na loop) rows t, foldM (learn_row ns na loop) (map (rename_row f g) rows) t' with
  | Ok u, Ok u' => alike_stats u u' | Err e, Err e' => e = e' | _, _ => False end.
Proof.
  induction rows as [|w rows IH]; intros t t' A; [exact A|]. cbn [map foldM]. pose proof (row_alike loop t t' w A) as R.
  destruct (learn_row ns na loop t w) as [u|e]; destruct (learn_row ns na loop t' (rename_row f g w)) as [u'|e']; try contradiction; [apply IH, R|exact R].
Qed.
Lemma zero_alike : alike_stats zero_stats zero_stats.
Proof. repeat split. Qed.
End Learn.

(** C359. Learning from rows with renumbered states and actions gives the same posterior with renumbered states and actions, and raises in the same cases. *)
Lemma C359_learn_lemma : forall (f g : nat -> nat) (fe : Qc) (loop : bool) (hm hm' : store * psrl) (rows : list row),
  renumbers (ps_ns (snd hm)) f -> renumbers (ps_na (snd hm)) g -> alike_model f g hm hm' ->
  match learn fe loop hm rows, learn fe loop hm' (map (rename_row f g) rows) with
  | Ok x, Ok x' => alike_model f g x x' | Err e, Err e' => e = e' | _, _ => False end.
Proof.
  intros f g fe loop [h m] [h' m'] rows Hf Hg [A1 A2 A3 A4 A5 A6 A7 A8]. cbn [fst snd] in *. unfold learn. cbn [fst snd]. rewrite A1, A2.
  pose proof (rows_alike f g (ps_ns m) (ps_na m) Hf Hg loop rows zero_stats zero_stats (zero_alike f g)) as R.
  destruct (foldM (learn_row (ps_ns m) (ps_na m) loop) rows zero_stats) as [u|e]; destruct (foldM (learn_row (ps_ns m) (ps_na m) loop) (map (rename_row f g) rows) zero_stats) as [u'|e']; try contradiction; [|exact R].
  destruct R as (R1 & R2 & R3 & R4). cbn [bind]. unfold observe. constructor; cbn [fst snd ps_ns ps_na ps_trans ps_mean ps_var ps_sq ps_count ps_var_prior]; try assumption.
  - intros s a v. rewrite !Nat.eqb_refl. rewrite A3, R1. reflexivity.
  - intros s a. rewrite A4, A7, R2, R4. reflexivity.
  - intros s a. rewrite A4, A6, A7, A8, R2, R3, R4. reflexivity.
  - intros s a. rewrite A6, R3. reflexivity.
  - intros s a. rewrite A7, R4. reflexivity.
Qed.

(** ** Value iteration *)
Section Vi.
Variables (n : nat) (sigma : list nat).
Hypothesis Ps : Permutation sigma (seq 0 n).
Lemma sigma_lt i : In i sigma -> i < n.
Proof. intros H. apply (Permutation_in _ Ps) in H. apply in_seq in H. lia. Qed.
Lemma sigma_len : length sigma = n.
Proof. rewrite (Permutation_length Ps), seq_length. reflexivity. Qed.
Lemma reindex_len {X} (d : X) l : length (reindex sigma d l) = n.
Proof. unfold reindex. rewrite map_length. apply sigma_len. Qed.
Lemma seq_nth_id {X} (d : X) : forall l, map (fun i => nth i l d) (seq 0 (length l)) = l.
Proof. induction l as [|x l IH]; [reflexivity|]. cbn [length seq map nth]. rewrite <- seq_shift, map_map. f_equal. exact IH. Qed.
Lemma reindex_perm {X} (d : X) l : length l = n -> Permutation (reindex sigma d l) l.
Proof. intros L. unfold reindex. rewrite (Permutation_map _ Ps). rewrite <- L, seq_nth_id. reflexivity. Qed.
Lemma nth_combine {X Y} (dx : X) (dy : Y) : forall l m i, length l = length m -> nth i (combine l m) (dx, dy) = (nth i l dx, nth i m dy).
Proof. intros. apply combine_nth. assumption. Qed.
Lemma reindex_combine {X Y} (dx : X) (dy : Y) l m : length l = n -> length m = n ->
  combine (reindex sigma dx l) (reindex sigma dy m) = reindex sigma (dx, dy) (combine l m).
Proof.
  intros L M. unfold reindex. clear Ps. induction sigma as [|i s IH]; [reflexivity|]. cbn [map combine]. rewrite nth_combine by congruence. f_equal. exact IH.
Qed.
Lemma reindex_map {X Y} (F : X -> Y) (dx : X) (dy : Y) l : length l = n -> map F (reindex sigma dx l) = reindex sigma dy (map F l).
Proof.
  intros L. unfold reindex. rewrite map_map. apply map_ext_in. intros i Hi. apply sigma_lt in Hi. rewrite (nth_indep (map F l) dy (F dx)) by (rewrite map_length; lia). symmetry. apply map_nth.
Qed.
Lemma vdot_sum : forall p v, vdot p v = fold_right Qcplus 0%Qc (map (fun ab => (fst ab * snd ab)%Qc) (combine p v)).
Proof. induction p as [|a p IH]; intros [|b v]; try reflexivity. cbn. rewrite IH. reflexivity. Qed.
Lemma sum_perm l l' : Permutation l l' -> fold_right Qcplus 0%Qc l = fold_right Qcplus 0%Qc l'.
Proof. induction 1; cbn [fold_right]; [reflexivity|congruence|ring|congruence]. Qed.
Lemma vdot_reindex p v : length p = n -> length v = n -> vdot (reindex sigma 0%Qc p) (reindex sigma 0%Qc v) = vdot p v.
Proof.
  intros Lp Lv. rewrite !vdot_sum. apply sum_perm, Permutation_map. rewrite reindex_combine by assumption. apply reindex_perm. rewrite combine_length. lia.
Qed.
Lemma forallb_perm {X} (t : X -> bool) l l' : Permutation l l' -> forallb t l = forallb t l'.
Proof. induction 1; cbn [forallb]; [reflexivity|congruence| |congruence]. rewrite !andb_assoc. f_equal. apply andb_comm. Qed.
Lemma allclose_reindex atol rtol a b : length a = n -> length b = n -> allclose atol rtol (reindex sigma 0%Qc a) (reindex sigma 0%Qc b) = allclose atol rtol a b.
Proof.
  intros La Lb. unfold allclose. rewrite reindex_combine by assumption.
  assert (P : Permutation (reindex sigma (0%Qc, 0%Qc) (combine a b)) (combine a b)) by (apply reindex_perm; rewrite combine_length; lia).
  apply forallb_perm, P.
Qed.
Variables (P : list (list (list Qc))) (rew : list (list Qc)) (g : Qc).
Hypotheses (LP : length P = n) (LR : length rew = n) (HP : over n P).
Lemma q_len v : length (q_table P rew g v) = n.
Proof. unfold q_table. rewrite map_length, combine_length. lia. Qed.
Lemma q_reindex v : length v = n -> q_table (restate sigma P) (reindex sigma [] rew) g (reindex sigma 0%Qc v) = reindex sigma [] (q_table P rew g v).
Proof.
  intros Lv. unfold q_table, restate. rewrite reindex_combine by (rewrite ?map_length; assumption).
  set (F := fun v (sr : list (list Qc) * list Qc) => map (fun ar => (snd ar + g * vdot (fst ar) v)%Qc) (combine (fst sr) (snd sr))).
  change (map (F (reindex sigma 0%Qc v)) (reindex sigma ([], []) (combine (map (map (reindex sigma 0%Qc)) P) rew)) = reindex sigma [] (map (F v) (combine P rew))).
  rewrite (reindex_map (F (reindex sigma 0%Qc v)) ([], []) []) by (rewrite combine_length, map_length; lia). f_equal.
  clear LP LR. revert rew. induction P as [|s Q IH]; intros [|r R]; try reflexivity. cbn [map combine]. f_equal; [|apply IH; intros s0 a Hs; apply HP; right; exact Hs].
  unfold F. cbn [fst snd]. assert (Hs : forall a, In a s -> length a = n) by (intros a Ha; apply (HP s a); [left; reflexivity|exact Ha]).
  clear - Hs Lv Ps. revert r. induction s as [|a s IH]; intros [|x r]; try reflexivity. cbn [map combine fst snd]. f_equal; [|apply IH; intros b Hb; apply Hs; right; exact Hb].
  rewrite vdot_reindex; [reflexivity|apply Hs; left; reflexivity|exact Lv].
Qed.
Lemma max_err l e : row_max l = Err e -> e = ValueError.
Proof. destruct l; cbn; intros H; [injection H as <-; reflexivity|discriminate]. Qed.
Lemma mapM_max_ok Q v : mapM row_max Q = Ok v -> v = map (fun l => match row_max l with Ok x => x | Err _ => 0%Qc end) Q /\ forall l, In l Q -> l <> [].
Proof.
  revert v. induction Q as [|l Q IH]; intros v H; cbn [mapM] in H; [injection H as <-; split; [reflexivity|intros l []]|].
  destruct (row_max l) as [x|] eqn:E; [|discriminate]. cbn [bind] in H. destruct (mapM row_max Q) as [r|]; [|discriminate]. cbn [bind] in H. injection H as <-.
  destruct (IH r eq_refl) as [-> G]. cbn [map]. rewrite E. split; [reflexivity|]. intros l' [<-|Hl]; [intros ->; discriminate E|apply G, Hl].
Qed.
Lemma mapM_max_total Q : (forall l, In l Q -> l <> []) -> mapM row_max Q = Ok (map (fun l => match row_max l with Ok x => x | Err _ => 0%Qc end) Q).
Proof.
  induction Q as [|l Q IH]; intros H; [reflexivity|]. cbn [mapM map]. destruct l as [|x l]; [exfalso; apply (H []); [left; reflexivity|reflexivity]|]. cbn [row_max bind].
  rewrite IH by (intros l' Hl; apply H; right; exact Hl). reflexivity.
Qed.
Lemma mapM_max_err Q e : mapM row_max Q = Err e -> e = ValueError /\ In [] Q.
Proof.
  induction Q as [|l Q IH]; intros H; cbn [mapM] in H; [discriminate|]. destruct l as [|x l]; cbn [row_max bind] in H; [injection H as <-; split; [reflexivity|left; reflexivity]|].
  destruct (mapM row_max Q) as [r|e0]; [discriminate|]. cbn [bind] in H. injection H as <-. destruct (IH eq_refl) as [-> I]. split; [reflexivity|right; exact I].
Qed.
Lemma max_reindex Q : length Q = n -> mapM row_max (reindex sigma [] Q) = rmap (reindex sigma 0%Qc) (mapM row_max Q).
Proof.
  intros L. pose proof (reindex_perm [] Q L) as R. destruct (mapM row_max Q) as [v|e] eqn:E.
  - apply mapM_max_ok in E as [-> G]. cbn [rmap]. rewrite mapM_max_total; [|intros l Hl; apply G; eapply Permutation_in; eassumption]. f_equal. apply reindex_map, L.
  - apply mapM_max_err in E as [-> I]. cbn [rmap]. destruct (mapM row_max (reindex sigma [] Q)) as [v|e] eqn:E.
    + apply mapM_max_ok in E as [_ G]. exfalso. apply (G []); [|reflexivity]. eapply Permutation_in; [symmetry; exact R|exact I].
    + apply mapM_max_err in E as [-> _]. reflexivity.
Qed.
Lemma max_len Q v : mapM row_max Q = Ok v -> length v = length Q.
Proof. intros H. apply mapM_max_ok in H as [-> _]. apply map_length. Qed.
Lemma loop_reindex atol eps fuel : forall value nv Q, length value = n -> length nv = n -> length Q = n ->
  vi_loop fuel (restate sigma P) (reindex sigma [] rew) g atol eps (reindex sigma 0%Qc value) (reindex sigma 0%Qc nv) (reindex sigma [] Q)
  = rmap (fun x => (reindex sigma [] (fst x), reindex sigma 0%Qc (snd x))) (vi_loop fuel P rew g atol eps value nv Q)
  /\ (forall Q' v', vi_loop fuel P rew g atol eps value nv Q = Ok (Q', v') -> length Q' = n).
Proof.
  induction fuel as [|fuel IH]; intros value nv Q Lv Ln LQ; cbn [vi_loop]; rewrite allclose_reindex by assumption; destruct (allclose atol eps nv value).
  - split; [reflexivity|]. intros Q' v' H. injection H as <- _. exact LQ.
  - split; [reflexivity|discriminate].
  - split; [reflexivity|]. intros Q' v' H. injection H as <- _. exact LQ.
  - rewrite q_reindex by exact Ln. rewrite max_reindex by apply q_len. destruct (mapM row_max (q_table P rew g nv)) as [w|e] eqn:E; cbn [rmap bind]; [|split; [reflexivity|discriminate]].
    apply IH; [exact Ln| |apply q_len]. rewrite (max_len _ _ E). apply q_len.
Qed.
End Vi.

(** C359. Value iteration with renumbered states gives the same values and the same actions, with renumbered states, after the same number of sweeps. *)
Lemma C359_values_lemma : forall (n : nat) (sigma : list nat) (fuel : nat) (P : list (list (list Qc))) (rew : list (list Qc)) (g atol eps : Qc) (value : list Qc) (noise : list (list Qc)),
  Permutation sigma (seq 0 n) -> length P = n -> length rew = n -> over n P -> length value = n -> length noise = n ->
  value_iteration fuel (restate sigma P) (reindex sigma [] rew) g atol eps (reindex sigma 0%Qc value) (reindex sigma [] noise)
  = rmap (fun x => (reindex sigma 0 (fst x), reindex sigma 0%Qc (snd x))) (value_iteration fuel P rew g atol eps value noise).
Proof.
  intros n sigma fuel P rew g atol eps value noise Ps LP LR HP Lv Ln. unfold value_iteration.
  rewrite (q_reindex n sigma Ps P rew g LP LR HP value Lv). rewrite (max_reindex n sigma Ps _ (q_len n P rew g LP LR value)).
  destruct (mapM row_max (q_table P rew g value)) as [nv|e] eqn:E; [|reflexivity]. cbn [rmap bind].
  destruct (loop_reindex n sigma Ps P rew g LP LR HP atol eps fuel value nv (q_table P rew g value) Lv) as [-> K].
  - rewrite (max_len _ _ E). apply q_len; assumption.
  - apply q_len; assumption.
  - destruct (vi_loop fuel P rew g atol eps value nv (q_table P rew g value)) as [[Q' v']|e]; [|reflexivity]. cbn [rmap bind fst snd]. specialize (K Q' v' eq_refl).
    do 2 f_equal. rewrite (reindex_combine n sigma) by assumption.
    rewrite (reindex_map n sigma Ps _ ([], []) []) by (rewrite combine_length; lia). apply (reindex_map n sigma Ps). rewrite map_length, combine_length. lia.
Qed.
