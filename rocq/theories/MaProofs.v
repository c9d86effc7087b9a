(** * Proofs about the multi-agent policy manager *)
From Verif Require Import Py PyLemmas MaModel.
From Coq Require Import Permutation.
Open Scope nat_scope.

(** ** Specification: the rows of an agent and a row's rank among them *)
Definition rows_of {X} (ids : list nat) (rows : list X) (agent : nat) : list X :=
  map snd (filter (fun ir => fst ir =? agent) (combine ids rows)).
Definition rank (ids : list nat) (agent i : nat) : nat := length (filter (Nat.eqb agent) (firstn i ids)).

Lemma filter_ext_in' {A} (f g : A -> bool) l : (forall x, In x l -> f x = g x) -> filter f l = filter g l.
Proof. induction l as [|a l IH]; intros H; [reflexivity|]. cbn. rewrite (H a) by (left; reflexivity). rewrite IH by (intros x Hx; apply H; right; exact Hx). reflexivity. Qed.

Lemma index_in ids agent i : In i (agent_index ids agent) <-> nth_error ids i = Some agent.
Proof.
  unfold agent_index. rewrite filter_In, in_seq. split.
  - intros [H1 H2]. apply Nat.eqb_eq in H2. rewrite (nth_error_nth' ids agent) by lia. f_equal. exact H2.
  - intros H. pose proof (proj1 (nth_error_Some ids i) ltac:(congruence)) as Hl. split; [lia|]. apply Nat.eqb_eq. apply nth_error_nth. exact H.
Qed.
Lemma index_nodup ids agent : NoDup (agent_index ids agent).
Proof. apply NoDup_filter, seq_NoDup. Qed.

(** agent_index from the front. *)
Lemma index_snoc ids x agent : agent_index (ids ++ [x]) agent = agent_index ids agent ++ (if x =? agent then [length ids] else []).
Proof.
  unfold agent_index. rewrite app_length. cbn [length]. rewrite Nat.add_1_r, seq_S, filter_app. cbn [Nat.add filter].
  rewrite app_nth2 by lia. rewrite Nat.sub_diag. cbn [nth]. f_equal.
  apply filter_ext_in'. intros i Hi. apply in_seq in Hi. rewrite app_nth1 by lia. reflexivity.
Qed.
Lemma index_rank ids agent i : nth_error ids i = Some agent -> nth_error (agent_index ids agent) (rank ids agent i) = Some i.
Proof.
  revert i. induction ids as [|x ids IH] using rev_ind; intros i H; [destruct i; discriminate|].
  pose proof (proj1 (nth_error_Some (ids ++ [x]) i) ltac:(congruence)) as Hi. rewrite app_length in Hi. cbn in Hi.
  rewrite index_snoc. destruct (Nat.eq_dec i (length ids)) as [->|N].
  - rewrite nth_error_app2 in H by lia. rewrite Nat.sub_diag in H. injection H as ->. rewrite Nat.eqb_refl.
    assert (E : rank (ids ++ [agent]) agent (length ids) = length (agent_index ids agent)).
    { unfold rank. rewrite firstn_app, firstn_all, Nat.sub_diag. cbn [firstn]. rewrite app_nil_r. clear IH Hi.
      induction ids as [|y ids IH] using rev_ind; [reflexivity|]. rewrite filter_app, app_length, index_snoc, app_length, IH. cbn [filter]. rewrite (Nat.eqb_sym agent y). destruct (y =? agent); reflexivity. }
    rewrite E, nth_error_app2, Nat.sub_diag by lia. reflexivity.
  - rewrite nth_error_app1 in H by lia. specialize (IH i H).
    assert (E : rank (ids ++ [x]) agent i = rank ids agent i).
    { unfold rank. rewrite firstn_app. replace (i - length ids) with 0 by lia. cbn [firstn]. rewrite app_nil_r. reflexivity. }
    rewrite E, nth_error_app1; [exact IH|]. apply nth_error_Some. congruence.
Qed.
Lemma take_rows {X} ids (rows : list X) agent : length ids = length rows -> take rows (agent_index ids agent) = Ok (rows_of ids rows agent).
Proof.
  revert rows. induction ids as [|x ids IH] using rev_ind; intros rows Hl; [destruct rows; [reflexivity|discriminate]|].
  rewrite app_length in Hl. cbn in Hl. destruct rows as [|r0 rows0] using rev_ind; [cbn in Hl; lia|]. clear IHrows0. rewrite app_length in Hl. cbn in Hl.
  assert (Hl' : length ids = length rows0) by lia. specialize (IH rows0 Hl').
  unfold rows_of. assert (Ec : combine (ids ++ [x]) (rows0 ++ [r0]) = combine ids rows0 ++ [(x, r0)]).
  { clear IH Hl. revert rows0 Hl'. induction ids as [|y ids IH]; intros [|r rows0] H; try discriminate; [reflexivity|]. cbn. f_equal. apply IH. injection H; auto. }
  rewrite Ec, filter_app, map_app. cbn [filter fst]. rewrite index_snoc.
  assert (E1 : take (rows0 ++ [r0]) (agent_index ids agent) = Ok (rows_of ids rows0 agent)).
  { rewrite <- IH. unfold take. assert (Hin : forall i, In i (agent_index ids agent) -> i < length rows0).
    { intros i Hi. apply index_in in Hi. rewrite <- Hl'. apply nth_error_Some. congruence. }
    clear - Hin. revert Hin. generalize (agent_index ids agent). intros l. induction l as [|i l IHl]; intros Hin; [reflexivity|]. cbn [mapM]. rewrite nth_error_app1 by (apply Hin; left; reflexivity).
    rewrite IHl by (intros j Hj; apply Hin; right; exact Hj). reflexivity. }
  assert (Happ : forall (l1 l2 : list nat) r1 r2, take (rows0 ++ [r0]) l1 = Ok r1 -> take (rows0 ++ [r0]) l2 = Ok r2 -> take (rows0 ++ [r0]) (l1 ++ l2) = Ok (r1 ++ r2)).
  { unfold take. induction l1 as [|i l1 IHl]; intros l2 r1 r2 H1 H2; cbn [mapM app] in *; [injection H1 as <-; exact H2|].
    destruct (nth_error (rows0 ++ [r0]) i) as [y|]; cbn [bind] in *; [|discriminate]. destruct (mapM _ l1) as [l|]; cbn [bind] in *; [|discriminate]. injection H1 as <-.
    rewrite (IHl l2 l r2 eq_refl H2). reflexivity. }
  apply Happ; [exact E1|]. destruct (x =? agent); [|reflexivity]. unfold take. cbn [mapM]. rewrite nth_error_app2 by lia. rewrite Hl', Nat.sub_diag. reflexivity.
Qed.
Lemma rows_of_length {X} ids (rows : list X) agent : length ids = length rows -> length (rows_of ids rows agent) = length (agent_index ids agent).
Proof.
  intros H. pose proof (take_rows ids rows agent H) as E. unfold take in E. revert E. generalize (rows_of ids rows agent). generalize (agent_index ids agent). clear.
  intros l. induction l as [|i l IH]; intros r E; cbn [mapM] in E; [injection E as <-; reflexivity|]. destruct (match nth_error rows i with Some _ => _ | None => _ end) as [y|]; [|discriminate].
  cbn [bind] in E. destruct (mapM _ l) as [l'|] eqn:El; [|discriminate]. cbn [bind] in E. injection E as <-. cbn. f_equal. apply IH. reflexivity.
Qed.

(** ** put *)
Lemma fold_upd_nth {X} : forall (index : list nat) (vals l : list X) i, NoDup index -> length vals = length index ->
  (forall k, nth_error index k = Some i -> i < length l -> nth_error (fold_left (fun l iv => upd l (fst iv) (snd iv)) (combine index vals) l) i = nth_error vals k)
  /\ (~ In i index -> nth_error (fold_left (fun l iv => upd l (fst iv) (snd iv)) (combine index vals) l) i = nth_error l i).
Proof.
  induction index as [|j index IH]; intros vals l i Hn Hl.
  - split; [intros k Hk; destruct k; discriminate|reflexivity].
  - destruct vals as [|v vals]; [discriminate|]. cbn [combine fold_left fst snd]. inversion Hn as [|? ? Hj Hn']; subst.
    destruct (IH vals (upd l j v) i Hn' ltac:(injection Hl; auto)) as [I1 I2]. split.
    + intros k Hk Hi. destruct k as [|k]; cbn [nth_error] in *.
      * injection Hk as <-. rewrite I2 by exact Hj. rewrite nth_error_upd_same by exact Hi. reflexivity.
      * apply I1; [exact Hk|rewrite upd_length; exact Hi].
    + intros Hi. rewrite I2 by (intros F; apply Hi; right; exact F). apply nth_error_upd_other. intros ->. apply Hi. left. reflexivity.
Qed.
Lemma fold_upd_length {X} : forall (index : list nat) (vals l : list X), length (fold_left (fun l iv => upd l (fst iv) (snd iv)) (combine index vals) l) = length l.
Proof. induction index as [|j index IH]; intros [|v vals] l; cbn [combine fold_left]; try reflexivity. rewrite IH. apply upd_length. Qed.
Lemma put_ok {X} (l : list X) index vals : NoDup index -> (forall i, In i index -> i < length l) -> length vals = length index -> index <> [] ->
  exists l', put l index vals = Ok l' /\ length l' = length l
    /\ (forall k i, nth_error index k = Some i -> nth_error l' i = nth_error vals k)
    /\ (forall i, ~ In i index -> nth_error l' i = nth_error l i).
Proof.
  intros Hn Hin Hl Hne. unfold put.
  assert (E : forallb (fun i => i <? length l) index = true) by (apply forallb_forall; intros i Hi; apply Nat.ltb_lt, Hin, Hi). rewrite E. cbn [negb].
  assert (Ev : match vals with [v] => map (fun _ => v) index | _ => vals end = vals).
  { destruct vals as [|v [|w vals]]; try reflexivity. destruct index as [|i [|j index]]; try discriminate. reflexivity. }
  rewrite Ev, (proj2 (Nat.eqb_eq _ _) Hl). eexists. split; [reflexivity|]. split; [apply fold_upd_length|]. split.
  - intros k i Hk. apply (proj1 (fold_upd_nth index vals l i Hn Hl) k Hk). apply Hin. eapply nth_error_In; exact Hk.
  - intros i Hi. apply (proj2 (fold_upd_nth index vals l i Hn Hl) Hi).
Qed.

(** Writing, for every agent in turn, its values to its rows. *)
Lemma dispatch {X} ids (new : nat -> list X) agents : NoDup agents -> (forall a, In a agents -> length (new a) = length (agent_index ids a)) ->
  forall (put_one : list X -> nat -> res (list X)) l0, length ids = length l0 ->
  (forall l a, In a agents -> length l = length ids -> (forall i, nth_error ids i = Some a -> nth_error l i = nth_error l0 i) ->
     put_one l a = if length (agent_index ids a) =? 0 then Ok l else put l (agent_index ids a) (new a)) ->
  exists l', foldM put_one agents l0 = Ok l' /\ length l' = length l0
    /\ (forall i a, nth_error ids i = Some a -> nth_error l' i = if existsb (Nat.eqb a) agents then nth_error (new a) (rank ids a i) else nth_error l0 i).
Proof.
  intros Hn Hlen put_one l0 H0 Hput.
  assert (G : forall done todo l, agents = done ++ todo -> length l = length ids ->
     (forall i a, nth_error ids i = Some a -> nth_error l i = if existsb (Nat.eqb a) done then nth_error (new a) (rank ids a i) else nth_error l0 i) ->
     exists l', foldM put_one todo l = Ok l' /\ length l' = length l0
       /\ (forall i a, nth_error ids i = Some a -> nth_error l' i = if existsb (Nat.eqb a) agents then nth_error (new a) (rank ids a i) else nth_error l0 i)).
  { intros done todo. revert done. induction todo as [|b todo IH]; intros done l Ea Hl Hinv.
    - rewrite app_nil_r in Ea. subst done. exists l. split; [reflexivity|]. split; [congruence|exact Hinv].
    - cbn [foldM]. assert (Hb : ~ In b done /\ In b agents).
      { rewrite Ea in Hn. apply NoDup_remove in Hn as [_ Hn]. split; [intros F; apply Hn, in_or_app; left; exact F|rewrite Ea; apply in_or_app; right; left; reflexivity]. }
      assert (Hbd : existsb (Nat.eqb b) done = false).
      { destruct (existsb (Nat.eqb b) done) eqn:E; [|reflexivity]. apply existsb_exists in E as (c & Hc & E). apply Nat.eqb_eq in E. subst c. destruct Hb as [Hb _]. contradiction. }
      rewrite (Hput l b (proj2 Hb) Hl).
      2: { intros i Hi. rewrite (Hinv i b Hi), Hbd. reflexivity. }
      assert (Hstep : exists l1, (if length (agent_index ids b) =? 0 then Ok l else put l (agent_index ids b) (new b)) = Ok l1 /\ length l1 = length ids
         /\ (forall i a, nth_error ids i = Some a -> nth_error l1 i = if existsb (Nat.eqb a) (done ++ [b]) then nth_error (new a) (rank ids a i) else nth_error l0 i)).
      { destruct (Nat.eqb_spec (length (agent_index ids b)) 0) as [Z|Z].
        - exists l. split; [reflexivity|]. split; [exact Hl|]. intros i a Hi. rewrite existsb_app. cbn [existsb]. destruct (Nat.eqb_spec a b) as [->|N].
          + apply index_in in Hi. destruct (agent_index ids b); [destruct Hi|discriminate].
          + rewrite !orb_false_r. apply Hinv, Hi.
        - destruct (put_ok l (agent_index ids b) (new b) (index_nodup ids b)) as (l1 & E & L1 & P1 & P2).
          + intros i Hi. apply index_in in Hi. rewrite Hl. apply nth_error_Some. congruence.
          + apply Hlen, Hb.
          + intros F. rewrite F in Z. apply Z. reflexivity.
          + exists l1. split; [exact E|]. split; [congruence|]. intros i a Hi. rewrite existsb_app. cbn [existsb]. destruct (Nat.eqb_spec a b) as [->|N].
            * cbn [orb]. rewrite orb_true_r. apply P1. apply index_rank, Hi.
            * rewrite !orb_false_r. rewrite P2; [apply Hinv, Hi|]. intros F. apply index_in in F. congruence. }
      destruct Hstep as (l1 & E & L1 & I1). rewrite E. cbn [bind]. apply (IH (done ++ [b]) l1); [rewrite <- app_assoc; exact Ea|exact L1|exact I1]. }
  apply (G [] agents l0 eq_refl ltac:(congruence)). intros i a _. reflexivity.
Qed.
Lemma existsb_In a agents : In a agents -> existsb (Nat.eqb a) agents = true.
Proof. intros H. apply existsb_exists. exists a. split; [exact H|apply Nat.eqb_refl]. Qed.

(** The number of rows of known agents is the number of rows. *)
Lemma count_rows ids agents : NoDup agents -> (forall a, In a ids -> In a agents) ->
  length (flat_map (fun a => agent_index ids a) agents) = length ids.
Proof.
  intros Hn Hin. transitivity (length (seq 0 (length ids))); [|apply seq_length]. apply Permutation_length. apply NoDup_Permutation; [| apply seq_NoDup|].
  - clear Hin. induction agents as [|a agents IH]; [constructor|]. inversion Hn as [|? ? Ha Hn']; subst. cbn [flat_map].
    specialize (IH Hn'). revert IH. generalize (index_nodup ids a). 
    assert (Hd : forall i, In i (agent_index ids a) -> ~ In i (flat_map (fun a => agent_index ids a) agents)).
    { intros i Hi F. apply in_flat_map in F as (b & Hb & Fi). apply index_in in Hi, Fi. congruence. }
    revert Hd. generalize (agent_index ids a), (flat_map (fun a => agent_index ids a) agents). clear. intros l m Hd Hl Hm.
    induction l as [|i l IH]; [exact Hm|]. inversion Hl as [|? ? Hi Hl']; subst. cbn. constructor.
    + intros F. apply in_app_or in F as [F|F]; [contradiction|]. apply (Hd i); [left; reflexivity|exact F].
    + apply IH; [intros j Hj; apply Hd; right; exact Hj|exact Hl'].
  - intros i. rewrite in_flat_map, in_seq. split.
    + intros (a & _ & Hi). apply index_in in Hi. pose proof (proj1 (nth_error_Some ids i) ltac:(congruence)). lia.
    + intros Hi. destruct (nth_error ids i) as [a|] eqn:E; [|apply nth_error_None in E; lia]. exists a. split; [apply Hin; eapply nth_error_In; exact E|apply index_in, E].
Qed.

(** C43.  For every batch whose rows belong to known agents, with policies that return one action
    per row: the action of row i is the action its own agent's policy returned, on that agent's
    rows in order, at the position of row i among them; the state dict holds every agent's
    state. *)
Lemma C43_forward_lemma : forall (Row Act St : Type) (policy : nat -> option (option St) -> list Row -> res (list Act * option St)) agents ids rows state acts sts,
  NoDup agents -> length ids = length rows -> (forall a, In a ids -> In a agents) ->
  (forall a, In a agents -> rows_of ids rows a <> [] -> policy a (option_map (fun st => st a) state) (rows_of ids rows a) = Ok (acts a, sts a) /\ length (acts a) = length (rows_of ids rows a)) ->
  exists act, forward policy agents ids rows state = Ok (act, map (fun a => (a, if length (rows_of ids rows a) =? 0 then None else sts a)) agents)
    /\ length act = length rows
    /\ (forall i a, nth_error ids i = Some a -> exists x, nth_error act i = Some x /\ nth_error (acts a) (rank ids a i) = Some x).
Proof.
  intros Row Act St policy agents ids rows state acts sts Hn Hl Hin Hp.
  set (f := fun a : nat => if length (agent_index ids a) =? 0 then (None, None) else (Some (agent_index ids a, acts a), sts a)).
  assert (Hres : mapM (forward_one policy (ids, rows) state) agents = Ok (map f agents)).
  { clear Hn Hin. induction agents as [|a agents IH]; [reflexivity|]. cbn [mapM map].
    rewrite IH by (intros b Hb; apply Hp; right; exact Hb). assert (Ef : f a = if length (agent_index ids a) =? 0 then (None, None) else (Some (agent_index ids a, acts a), sts a)) by reflexivity. rewrite Ef. clear Ef. unfold forward_one. destruct (Nat.eqb_spec (length (agent_index ids a)) 0) as [Z|Z]; [reflexivity|].
    rewrite (take_rows ids rows a Hl). cbn [bind]. destruct (Hp a ltac:(left; reflexivity)) as [E _].
    - intros F. rewrite <- (rows_of_length ids rows a Hl), F in Z. apply Z. reflexivity.
    - rewrite E. reflexivity. }
  unfold forward. rewrite Hres. cbn [bind].
  set (new := fun a : nat => if length (agent_index ids a) =? 0 then [] else acts a).
  assert (Hnew : forall a, In a agents -> length (new a) = length (agent_index ids a)).
  { intros a Ha. unfold new. destruct (Nat.eqb_spec (length (agent_index ids a)) 0) as [Z|Z]; [symmetry; exact Z|].
    rewrite <- (rows_of_length ids rows a Hl). apply (Hp a Ha). intros F. rewrite <- (rows_of_length ids rows a Hl), F in Z. apply Z. reflexivity. }
  assert (Hcat : acts_of (map f agents) = flat_map new agents).
  { unfold acts_of. clear. induction agents as [|a agents IH]; [reflexivity|]. cbn [map flat_map]. rewrite IH. f_equal. unfold f, new. destruct (length (agent_index ids a) =? 0); reflexivity. }
  assert (Hlen : length (acts_of (map f agents)) = length ids).
  { rewrite Hcat. rewrite <- (count_rows ids agents Hn Hin). clear - Hnew. induction agents as [|a agents IH]; [reflexivity|]. cbn [flat_map]. rewrite !app_length, IH by (intros b Hb; apply Hnew; right; exact Hb).
    f_equal. apply Hnew. left. reflexivity. }
  set (h := fun act a => match fst (f a) with Some (index, x) => put act index x | None => Ok act end).
  assert (Hfold : forall l, foldM (fun (act : list Act) (r : option (list nat * list Act) * option St) => match fst r with Some (index, a) => put act index a | None => Ok act end) (map f agents) l = foldM h agents l).
  { clear. induction agents as [|a agents IH]; intros l; [reflexivity|]. cbn [map foldM]. unfold h at 1. destruct (fst (f a)) as [[index x]|]; [destruct (put l index x)|]; cbn [bind]; try reflexivity; apply IH. }
  rewrite Hfold.
  destruct (dispatch ids new agents Hn Hnew h (acts_of (map f agents)) ltac:(congruence)) as (act & E & L & G).
  { intros l a Ha _ _. unfold h, f, new. destruct (length (agent_index ids a) =? 0); reflexivity. }
  rewrite E. cbn [bind]. exists act. split.
  - f_equal. f_equal. rewrite map_map. clear - Hl. induction agents as [|a agents IH]; [reflexivity|]. cbn [map combine]. rewrite IH. f_equal. unfold f. rewrite (rows_of_length ids rows a Hl). destruct (_ =? 0); reflexivity.
  - split; [congruence|]. intros i a Hi. pose proof (G i a Hi) as Gi. assert (Ha : In a agents) by (apply Hin; eapply nth_error_In; exact Hi).
    rewrite (existsb_In a agents Ha) in Gi. pose proof (index_rank ids a i Hi) as Hr.
    assert (Hlt : rank ids a i < length (agent_index ids a)) by (apply nth_error_Some; congruence).
    unfold new in Gi. destruct (Nat.eqb_spec (length (agent_index ids a)) 0) as [Z|Z]; [lia|].
    destruct (nth_error (acts a) (rank ids a i)) as [x|] eqn:Ex; [exists x; split; [exact Gi|reflexivity]|].
    apply nth_error_None in Ex. pose proof (Hnew a Ha) as F. unfold new in F. destruct (Nat.eqb_spec (length (agent_index ids a)) 0); lia.
Qed.

(** C43.  exploration_noise replaces the action of every row of a known agent by what the agent's
    policy makes of its own rows, and leaves the others unchanged. *)
Lemma C43_noise_lemma : forall (Row Act : Type) (noise : nat -> list Act -> list Row -> res (list Act)) agents ids rows act new,
  NoDup agents -> length ids = length rows -> length ids = length act ->
  (forall a, In a agents -> rows_of ids rows a <> [] -> noise a (rows_of ids act a) (rows_of ids rows a) = Ok (new a) /\ length (new a) = length (rows_of ids rows a)) ->
  exists act', exploration noise agents ids rows act = Ok act' /\ length act' = length act
    /\ (forall i a, nth_error ids i = Some a -> nth_error act' i = if existsb (Nat.eqb a) agents then nth_error (new a) (rank ids a i) else nth_error act i).
Proof.
  intros Row Act noise agents ids rows act new Hn Hl Hla Hp. unfold exploration.
  set (new' := fun a : nat => if length (agent_index ids a) =? 0 then [] else new a).
  destruct (dispatch ids new' agents Hn) with (put_one := fun (act : list Act) agent => if length (agent_index ids agent) =? 0 then Ok act else
      let* a := take act (agent_index ids agent) in let* tmp := take rows (agent_index ids agent) in let* nw := noise agent a tmp in put act (agent_index ids agent) nw) (l0 := act) as (act' & E & L & G).
  - intros a Ha. unfold new'. destruct (Nat.eqb_spec (length (agent_index ids a)) 0) as [Z|Z]; [symmetry; exact Z|].
    rewrite <- (rows_of_length ids rows a Hl). apply (Hp a Ha). intros F. rewrite <- (rows_of_length ids rows a Hl), F in Z. apply Z. reflexivity.
  - exact Hla.
  - intros l a Ha Ll Hsame. unfold new'. destruct (Nat.eqb_spec (length (agent_index ids a)) 0) as [Z|Z]; [reflexivity|].
    assert (Et : take l (agent_index ids a) = Ok (rows_of ids act a)).
    { rewrite <- (take_rows ids act a Hla). unfold take. assert (Hi : forall i, In i (agent_index ids a) -> nth_error l i = nth_error act i) by (intros i Hi; apply Hsame, index_in, Hi).
      revert Hi. generalize (agent_index ids a). clear. induction l0 as [|i l0 IH]; intros H; [reflexivity|]. cbn [mapM]. rewrite (H i) by (left; reflexivity). rewrite IH by (intros j Hj; apply H; right; exact Hj). reflexivity. }
    rewrite Et. cbn [bind]. rewrite (take_rows ids rows a Hl). cbn [bind]. destruct (Hp a Ha) as [En _].
    + intros F. rewrite <- (rows_of_length ids rows a Hl), F in Z. apply Z. reflexivity.
    + rewrite En. reflexivity.
  - exists act'. split; [exact E|]. split; [exact L|]. intros i a Hi. rewrite (G i a Hi). destruct (existsb (Nat.eqb a) agents); [|reflexivity].
    unfold new'. destruct (Nat.eqb_spec (length (agent_index ids a)) 0) as [Z|Z]; [|reflexivity]. apply index_in in Hi. destruct (agent_index ids a); [destruct Hi|discriminate].
Qed.

(** C43.  process_fn hands every agent exactly its own rows, its own reward column of these rows
    and of the whole buffer, and its own indices; agents without rows get nothing; afterwards the
    buffer has its original reward array. *)
Lemma C43_process_lemma : forall (Row R X : Type) agent_idx (pf : nat -> list Row -> list R -> list nat -> list R -> res X) agents ids rows rews indice save trew brew x,
  length ids = length rows -> length ids = length rews -> length ids = length indice ->
  (forall a, In a agents -> rows_of ids rows a <> [] ->
     map Some (trew a) = map (fun r => nth_error r (agent_idx a)) (rows_of ids rews a)
     /\ map Some (brew a) = map (fun r => nth_error r (agent_idx a)) save
     /\ pf a (rows_of ids rows a) (trew a) (rows_of ids indice a) (brew a) = Ok (x a)) ->
  process agent_idx pf agents ids rows rews indice save
    = (RFull save, Ok (map (fun a => (a, match rows_of ids rows a with [] => None | _ => Some (x a) end)) agents)).
Proof.
  intros Row R X agent_idx pf agents ids rows rews indice save trew brew x H1 H2 H3 Hp. unfold process.
  assert (Hcol : forall c l m, map Some m = map (fun r : list R => nth_error r c) l -> column c l = Ok m).
  { clear. intros c. induction l as [|r l IH]; intros [|y m] H; try discriminate; [reflexivity|]. cbn in H. injection H as H0 H. unfold column. cbn [mapM]. rewrite <- H0.
    unfold column in IH. rewrite (IH m H). reflexivity. }
  assert (G : forall cur, exists cur', process_loop agent_idx pf agents ids rows rews indice save cur
     = (cur', Ok (map (fun a => (a, match rows_of ids rows a with [] => None | _ => Some (x a) end)) agents))).
  { induction agents as [|a agents IH]; intros cur; [exists cur; reflexivity|]. cbn [process_loop map]. unfold process_one.
    assert (IH' := fun cur => IH ltac:(intros b Hb; apply Hp; right; exact Hb) cur). clear IH.
    rewrite <- (rows_of_length ids rows a H1). destruct (rows_of ids rows a) as [|r0 rs] eqn:Er.
    - cbn [length Nat.eqb]. destruct (IH' cur) as [cur' E]. rewrite E. exists cur'. reflexivity.
    - cbn [length Nat.eqb]. destruct (Hp a ltac:(left; reflexivity) ltac:(rewrite Er; discriminate)) as (T1 & T2 & T3).
      rewrite (take_rows ids rows a H1), (take_rows ids rews a H2), (take_rows ids indice a H3). cbn [bind].
      rewrite (Hcol _ _ _ T1), (Hcol _ _ _ T2). cbn [bind]. rewrite T3. destruct (IH' (RCol (brew a))) as [cur' E]. rewrite E. exists cur'. reflexivity. }
  destruct (G REmpty) as [cur' E]. rewrite E. reflexivity.
Qed.

(** C43.  learn hands every agent with data exactly its own batch. *)
Lemma C43_learn_lemma : forall (X Stats : Type) (learn_fn : nat -> X -> res Stats) results st,
  (forall a x, In (a, Some x) results -> learn_fn a x = Ok (st a)) ->
  ma_learn learn_fn results = Ok (map (fun ax => (fst ax, st (fst ax))) (filter (fun ax => match snd ax with Some _ => true | None => false end) results)).
Proof.
  intros X Stats learn_fn results st H. unfold ma_learn.
  assert (G : exists l, mapM (fun ax : nat * option X => match snd ax with None => Ok [] | Some x => let* s := learn_fn (fst ax) x in Ok [(fst ax, s)] end) results = Ok l
     /\ concat l = map (fun ax => (fst ax, st (fst ax))) (filter (fun ax => match snd ax with Some _ => true | None => false end) results)).
  { induction results as [|[a [x|]] results IH]; [exists []; split; reflexivity| |]; cbn [mapM filter map fst snd].
    - destruct IH as (l & E & C); [intros b y Hb; apply (H b y); right; exact Hb|]. rewrite (H a x) by (left; reflexivity). cbn [bind]. rewrite E. cbn [bind]. eexists. split; [reflexivity|]. cbn. rewrite C. reflexivity.
    - destruct IH as (l & E & C); [intros b y Hb; apply (H b y); right; exact Hb|]. cbn [bind]. rewrite E. cbn [bind]. eexists. split; [reflexivity|]. exact C. }
  destruct G as (l & E & C). rewrite E. cbn [bind]. rewrite C. reflexivity.
Qed.

(** C78.  The state of an agent without rows in a call is dropped: the next call gives its policy
    an empty state although it had one. *)
Lemma C78_state_dropped_refuted_lemma : exists (policy : nat -> option (option nat) -> list nat -> res (list nat * option nat)) st0 st1 st2 act1 act2,
  (forall a st rows, exists s acts, policy a st rows = Ok (acts, Some s) /\ length acts = length rows)
  /\ forward policy [1; 2] [1; 2] [10; 20] None = Ok (act1, st0) /\ In (1, Some 1) st0
  /\ forward policy [1; 2] [2; 2] [10; 20] (Some (fun a => match find (fun p => fst p =? a) st0 with Some p => snd p | None => None end)) = Ok (act2, st1)
  /\ In (1, st2) st1 /\ st2 = None.
Proof.
  exists (fun a st rows => Ok (rows, Some a)). do 5 eexists. split; [intros a st rows; exists a, rows; split; reflexivity|].
  split; [reflexivity|]. split; [left; reflexivity|]. split; [reflexivity|]. split; [left; reflexivity|reflexivity].
Qed.

(** C78 (restricted to agents that have rows).  Their new state is stored. *)
Lemma C78_state_kept_partial_lemma : forall (Row Act St : Type) (policy : nat -> option (option St) -> list Row -> res (list Act * option St)) agents ids rows state acts sts a,
  NoDup agents -> length ids = length rows -> (forall a, In a ids -> In a agents) ->
  (forall a, In a agents -> rows_of ids rows a <> [] -> policy a (option_map (fun st => st a) state) (rows_of ids rows a) = Ok (acts a, sts a) /\ length (acts a) = length (rows_of ids rows a)) ->
  In a ids -> exists act d, forward policy agents ids rows state = Ok (act, d) /\ In (a, sts a) d /\ (forall s, In (a, s) d -> s = sts a).
Proof.
  intros Row Act St policy agents ids rows state acts sts a Hn Hl Hin Hp Ha.
  destruct (C43_forward_lemma Row Act St policy agents ids rows state acts sts Hn Hl Hin Hp) as (act & E & _). eexists _, _. split; [exact E|].
  assert (Hne : length (rows_of ids rows a) =? 0 = false).
  { apply In_nth_error in Ha as [i Hi]. pose proof (index_rank ids a i Hi) as Hr. rewrite (rows_of_length ids rows a Hl). apply Nat.eqb_neq. intros Z. destruct (agent_index ids a); [destruct (rank ids a i); discriminate|discriminate]. }
  split.
  - apply in_map_iff. exists a. rewrite Hne. split; [reflexivity|apply Hin, Ha].
  - intros s Hs. apply in_map_iff in Hs as (b & Eb & _). injection Eb as -> Es. rewrite Hne in Es. symmetry. exact Es.
Qed.

(** C79.  If a sub-policy's process_fn raises, the buffer is left with that agent's reward column. *)
Lemma C79_reward_lost_refuted_lemma : exists (pf : nat -> list nat -> list nat -> list nat -> list nat -> res nat) save e,
  process (fun a => a - 1) pf [1; 2] [1; 2] [0; 0] [[5; 6]; [7; 8]] [0; 1] save = (RCol [6; 8], Err e) /\ save = [[5; 6]; [7; 8]].
Proof. exists (fun a _ _ _ _ => if a =? 2 then Err ValueError else Ok 0), [[5; 6]; [7; 8]]. eexists. split; reflexivity. Qed.

(** C80.  A training step of the manager does not put its sub-policies into a training step: a
    sub-policy sees is_within_training_step = False. *)
Lemma C80_sub_not_within_refuted_lemma : exists m : manager, m_within m = false /\ map s_within (m_subs m) = [false; false]
  /\ snd (ma_within true (fun m => (m, map s_within (m_subs m))) m) = [false; false].
Proof. exists (mkMa true false [mkSub true false; mkSub true false]). repeat split; reflexivity. Qed.
(** C80.  torch_train_mode on the manager does not restore the sub-policies' mode: sub-policies in
    eval mode are in train mode afterwards. *)
Lemma C80_mode_not_restored_refuted_lemma : exists m : manager,
  (exists m0, m = ma_train false m0) /\ map s_training (m_subs m) = [false; false]
  /\ map s_training (m_subs (fst (ma_train_mode false (fun m => (m, tt)) m))) = [true; true].
Proof. exists (ma_train false (mkMa true false [mkSub true false; mkSub true false])). split; [eexists; reflexivity|]. split; reflexivity. Qed.
(** C80 (restricted to sub-policies in the manager's own mode).  During the block all sub-policies
    have the requested mode and afterwards all have the original one, for every body that keeps
    the manager's mode. *)
Lemma C80_mode_partial_lemma : forall (T : Type) enabled (body : manager -> manager * T) m,
  (forall s, In s (m_subs m) -> s_training s = m_training m) ->
  (forall m', length (m_subs (fst (body m'))) = length (m_subs m')) ->
  (exists m1, ma_train_mode enabled body m = (ma_train (m_training m) (fst (body m1)), snd (body m1))
     /\ (forall s, In s (m_subs m1) -> s_training s = enabled) /\ map s_within (m_subs m1) = map s_within (m_subs m))
  /\ map s_training (m_subs (fst (ma_train_mode enabled body m))) = map s_training (m_subs m).
Proof.
  intros T enabled body m Hm Hb. unfold ma_train_mode. destruct (body (ma_train enabled m)) as [m' t] eqn:E. split.
  - exists (ma_train enabled m). rewrite E. split; [reflexivity|]. split.
    + intros s Hs. cbn in Hs. apply in_map_iff in Hs as (s0 & <- & _). reflexivity.
    + cbn. rewrite map_map. reflexivity.
  - cbn [fst ma_train m_subs]. pose proof (Hb (ma_train enabled m)) as Hl. rewrite E in Hl. cbn in Hl. rewrite map_length in Hl. rewrite map_map. cbn [s_training].
    revert Hl Hm. generalize (m_subs m), (m_subs m'), (m_training m). clear. induction l as [|s l IH]; intros [|s' l'] b Hl Hm; try discriminate; [reflexivity|]. cbn. f_equal.
    + symmetry. apply Hm. left. reflexivity.
    + apply IH; [injection Hl; auto|]. intros x Hx. apply Hm. right. exact Hx.
Qed.
