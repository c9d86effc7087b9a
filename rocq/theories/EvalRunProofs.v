From Verif Require Import Py PyLemmas Num StatModel StatProofs EvalModel EvalSpec.
Open Scope nat_scope.
Open Scope list_scope.

(** ** LoggedCollectStats *)
(** C222. Data of known fields only: every field gets its value, dictionaries become summaries. *)
Lemma C222_fields_lemma : forall data, (forall k v, In (k, v) data -> known k = true /\ v <> EDict) ->
  exists s, from_data_dict data = Ok s /\ length s = length data /\
    forall i k v, nth_error data i = Some (k, v) -> exists x, conv v = Some x /\ nth_error s i = Some (k, x).
Proof.
  unfold from_data_dict. induction data as [|[k v] data IH]; intros H.
  - exists []. split; [reflexivity|]. split; [reflexivity|]. intros [|i] k v; discriminate.
  - destruct (H k v (or_introl eq_refl)) as [Hk Hv]. destruct IH as (s & E & L & A); [intros k' v' H'; apply H; right; exact H'|].
    destruct v as [l|a b c d|]; [| |contradiction].
    + exists ((k, VArray l) :: s). cbn [from_data_loop]. rewrite Hk, E. split; [reflexivity|]. split; [cbn; congruence|].
      intros [|i] k' v' H'; [|exact (A i k' v' H')]. cbn in H'. injection H' as <- <-. exists (VArray l). split; reflexivity.
    + exists ((k, VSummary a b c d) :: s). cbn [from_data_loop]. rewrite Hk. cbn [negb orb]. rewrite E. split; [reflexivity|]. split; [cbn; congruence|].
      intros [|i] k' v' H'; [|exact (A i k' v' H')]. cbn in H'. injection H' as <- <-. exists (VSummary a b c d). split; reflexivity.
Qed.
Lemma loop_bad data : is_ok (from_data_loop data true) = false.
Proof.
  induction data as [|[k [l|a b c d|]] data IH]; cbn; [reflexivity| | |reflexivity].
  - destruct (known k); [|reflexivity]. destruct (from_data_loop data true); [discriminate IH|reflexivity].
  - destruct (from_data_loop data true); [discriminate IH|reflexivity].
Qed.
(** C222. "Ignores fields that are not present": a single unknown key makes the conversion fail. The statistics of
    the standard deviations of Gaussian policies (a dictionary by dimension) are of this kind. *)
Lemma C222_unknown_refuted_lemma : forall data n v, In (FUnknown n, v) data -> is_ok (from_data_dict data) = false.
Proof.
  unfold from_data_dict. intros data n v. induction data as [|[k v'] data IH]; intros H; [destruct H|]. destruct H as [[= -> ->]|H].
  - destruct v as [l|a b c d|]; cbn; try reflexivity. pose proof (loop_bad data) as B. destruct (from_data_loop data true); [discriminate B|reflexivity].
  - specialize (IH H). destruct v' as [l|a b c d|]; cbn; [| |reflexivity].
    + destruct (known k); [|reflexivity]. destruct (from_data_loop data false); [discriminate IH|reflexivity].
    + destruct (negb (known k)); [pose proof (loop_bad data) as B; destruct (from_data_loop data true); [discriminate B|reflexivity]|].
      destruct (from_data_loop data false); [discriminate IH|reflexivity].
Qed.

(** ** Loading several runs *)
Lemma scope_data_rets log : rets log <> [] -> scope_data log = [(FEnvStep, EArr (map fst log)); (FReturns, EStat (rets log) (rets log) (rets log) (rets log))].
Proof. intros H. unfold scope_data. fold (rets log). destruct (rets log); [contradiction|reflexivity]. Qed.
Lemma scope_data_nil log : rets log = [] -> scope_data log = [(FEnvStep, EArr (map fst log))].
Proof. intros H. unfold scope_data. fold (rets log). rewrite H. reflexivity. Qed.
Lemma load_run_of a test train : rets test <> [] -> load_run a (run_of test train) =
  Ok (match rets train with
      | [] => mkA (a_test a ++ [rets test]) (a_train a) (Some (map fst test)) (a_train_step a)
      | _ => mkA (a_test a ++ [rets test]) (a_train a ++ [rets train]) (Some (map fst test)) (Some (map fst train))
      end).
Proof.
  intros H. unfold load_run, run_of. cbn [d_skip run_data d_data bind look scope_eqb]. rewrite (scope_data_rets test H).
  destruct (rets train) as [|x l] eqn:E.
  - rewrite (scope_data_nil train E). reflexivity.
  - rewrite (scope_data_rets train) by congruence. rewrite E. reflexivity.
Qed.
Definition both (r : list (Qc * option Qc) * list (Qc * option Qc)) : Prop := rets (fst r) <> [] /\ rets (snd r) <> [].
Lemma last_default {X} (l : list X) d d' : l <> [] -> last l d = last l d'.
Proof. induction l as [|x l IH]; intros H; [contradiction|]. destruct l; [reflexivity|]. cbn [last] in *. apply IH. discriminate. Qed.
Lemma load_runs runs : (forall r, In r runs -> both r) -> forall a, runs <> [] ->
  foldM load_run (runs_of runs) a = Ok (mkA (a_test a ++ map (fun r => rets (fst r)) runs) (a_train a ++ map (fun r => rets (snd r)) runs)
    (Some (map fst (fst (last runs ([], []))))) (Some (map fst (snd (last runs ([], [])))))).
Proof.
  induction runs as [|r runs IH]; intros H a Hr; [contradiction|]. destruct (H r (or_introl eq_refl)) as [H1 H2].
  cbn [runs_of map foldM]. fold (runs_of runs). rewrite (load_run_of a (fst r) (snd r) H1). destruct (rets (snd r)) as [|x l] eqn:E; [contradiction|]. cbn [bind].
  destruct runs as [|r' runs].
  - cbn. reflexivity.
  - rewrite IH; [|intros r0 H0; apply H; right; exact H0|discriminate]. cbn [a_test a_train]. rewrite <- !app_assoc.
    change (last (r :: r' :: runs) ([], [])) with (last (r' :: runs) (([], []) : list (Qc * option Qc) * list (Qc * option Qc))). cbn [app]. rewrite <- E. reflexivity.
Qed.
Lemma min_len_spec {X} (l : list (list X)) : l <> [] -> exists n, min_len l = Ok n /\ (forall x, In x l -> n <= length x) /\ exists x, In x l /\ n = length x.
Proof.
  destruct l as [|x l]; [contradiction|]. intros _. unfold min_len. eexists. split; [reflexivity|].
  assert (G : forall (l : list (list X)) m, let n := fold_left (fun m y => Nat.min m (length y)) l m in n <= m /\ (forall x, In x l -> n <= length x) /\ (n = m \/ exists x, In x l /\ n = length x)).
  { clear. induction l as [|y l IH]; intros m; cbn; [split; [lia|split; [intros x []|left; reflexivity]]|].
    destruct (IH (Nat.min m (length y))) as (A & B & C). split; [lia|]. split; [intros x [<-|Hx]; [lia|exact (B x Hx)]|].
    destruct C as [C|(x & Hx & C)]; [|right; exists x; split; [right; exact Hx|exact C]].
    destruct (Nat.min_spec m (length y)) as [[Q1 Q2]|[Q1 Q2]]; [left; lia|right; exists y; split; [left; reflexivity|lia]]. }
  destruct (G l (length x)) as (A & B & C). split; [intros z [<-|Hz]; [exact A|exact (B z Hz)]|].
  destruct C as [C|(z & Hz & C)]; [exists x; split; [left; reflexivity|exact C]|exists z; split; [right; exact Hz|exact C]].
Qed.
Lemma search_le l x : searchsorted l x <= length l.
Proof. induction l as [|y l IH]; cbn; [lia|]. destruct (Qcleb x y); lia. Qed.
Lemma search_lt l x s : In s (firstn (searchsorted l x) l) -> (s < x)%Qc.
Proof.
  induction l as [|y l IH]; cbn; [intros []|]. destruct (Qcleb_spec x y) as [H|H]; [intros []|]. intros [<-|Hs]; [exact H|exact (IH Hs)].
Qed.
Lemma rets_len log : length (rets log) <= length (map fst log).
Proof. unfold rets. induction log as [|[s [r|]] log IH]; cbn in *; lia. Qed.
Lemma last_In {X} (l : list X) d : l <> [] -> In (last l d) l.
Proof. induction l as [|x l IH]; intros H; [contradiction|]. destruct l as [|y l]; [left; reflexivity|]. right. apply IH. discriminate. Qed.
(** What the truncation does to one scope. *)
Definition cols (max : option nat) (n : nat) (steps : list Qc) : nat :=
  match max with Some (S m) => searchsorted (firstn (cut max n) steps) (sq (S m)) | _ => cut max n end.
Lemma load_eq runs max : runs <> [] -> (forall r, In r runs -> both r) -> exists nte ntr,
  min_len (map (fun r => rets (fst r)) runs) = Ok nte /\ min_len (map (fun r => rets (snd r)) runs) = Ok ntr /\
  let ste := map fst (fst (last runs ([], []))) in let str := map fst (snd (last runs ([], []))) in
  load (runs_of runs) max = Ok (mkRes (map (fun r => firstn (cols max nte ste) (rets (fst r))) runs) (firstn (cols max nte ste) (firstn (cut max nte) ste))
    (map (fun r => firstn (cols max ntr str) (rets (snd r))) runs) (firstn (cols max ntr str) (firstn (cut max ntr) str))).
Proof.
  intros Hr H. destruct (min_len_spec (map (fun r => rets (fst r)) runs)) as (nte & E1 & _); [destruct runs; [contradiction|discriminate]|].
  destruct (min_len_spec (map (fun r => rets (snd r)) runs)) as (ntr & E2 & _); [destruct runs; [contradiction|discriminate]|].
  exists nte, ntr. split; [exact E1|]. split; [exact E2|]. cbn zeta. unfold load. rewrite (load_runs runs H _ Hr). cbn [bind a_test a_train a_test_step a_train_step app].
  rewrite E1, E2. destruct runs as [|r runs]; [contradiction|]. cbn [map negb andb bind].
  set (ste := map fst (fst (last (r :: runs) ([], [])))). set (str := map fst (snd (last (r :: runs) ([], [])))). clearbody ste str.
  assert (M : forall n (f : list (Qc * option Qc) * list (Qc * option Qc) -> list Qc), map (firstn n) (map f runs) = map (fun r => firstn n (f r)) runs) by (intros; apply map_map).
  rewrite !M. unfold cols. destruct max as [[|m]|]; cbn [map]; rewrite ?firstn_firstn, ?Nat.min_id; reflexivity.
Qed.
Lemma cols_facts max n steps : n <= length steps -> let c := cols max n steps in
  c <= n /\ length (firstn c (firstn (cut max n) steps)) = c /\ firstn c (firstn (cut max n) steps) = firstn c steps /\
  (max = None -> c = n) /\ (forall m, max = Some (S m) -> forall s, In s (firstn c steps) -> (s < sq (S m))%Qc).
Proof.
  intros H. cbn zeta. unfold cols. destruct max as [[|m]|]; cbn [cut].
  - rewrite Nat.min_0_r. split; [lia|]. split; [reflexivity|]. split; [reflexivity|]. split; [discriminate|intros m [=]].
  - set (k := Nat.min n (S m)). set (l := firstn k steps). pose proof (search_le l (sq (S m))) as L. assert (Ll : length l <= n) by (unfold l, k; rewrite firstn_length; lia).
    assert (E : firstn (searchsorted l (sq (S m))) l = firstn (searchsorted l (sq (S m))) steps).
    { unfold l at 2. rewrite firstn_firstn. f_equal. apply Nat.min_l. unfold l in L at 2. rewrite firstn_length in L. lia. }
    split; [lia|]. split; [rewrite firstn_length; lia|]. split; [exact E|]. split; [discriminate|].
    intros m' [= <-] s Hs. rewrite <- E in Hs. exact (search_lt _ _ _ Hs).
  - split; [lia|]. split; [rewrite firstn_length, firstn_length; lia|]. split; [rewrite firstn_firstn, Nat.min_id; reflexivity|]. split; [reflexivity|intros m [=]].
Qed.
(** C223. Runs that have test and training returns: every row holds the first columns of a run, the steps are
    those of the last run, as many columns as every run has (without a bound, as the shortest run has), and with a
    bound only steps below it. *)
Lemma C223_columns_lemma : forall runs max, runs <> [] -> (forall r, In r runs -> rets (fst r) <> [] /\ rets (snd r) <> []) ->
  exists r n m, load (runs_of runs) max = Ok r /\
    r_test r = map (fun run => firstn n (rets (fst run))) runs /\ r_steps r = firstn n (map fst (fst (last runs ([], [])))) /\
    r_train r = map (fun run => firstn m (rets (snd run))) runs /\ r_steps_train r = firstn m (map fst (snd (last runs ([], [])))) /\
    length (r_steps r) = n /\ length (r_steps_train r) = m /\
    (forall run, In run runs -> n <= length (rets (fst run)) /\ m <= length (rets (snd run))) /\
    (max = None -> (exists run, In run runs /\ n = length (rets (fst run))) /\ exists run, In run runs /\ m = length (rets (snd run))) /\
    (forall b, max = Some (S b) -> forall s, In s (r_steps r) \/ In s (r_steps_train r) -> (s < sq (S b))%Qc).
Proof.
  intros runs max Hr H. destruct (load_eq runs max Hr H) as (nte & ntr & E1 & E2 & E). cbn zeta in E.
  set (ste := map fst (fst (last runs ([], [])))) in *. set (str := map fst (snd (last runs ([], [])))) in *.
  assert (Hm : forall f : list (Qc * option Qc) * list (Qc * option Qc) -> list Qc, map f runs <> []) by (intros f; destruct runs; [contradiction|discriminate]).
  destruct (min_len_spec _ (Hm (fun r => rets (fst r)))) as (n1 & F1 & B1 & D1). assert (n1 = nte) by congruence. subst n1.
  destruct (min_len_spec _ (Hm (fun r => rets (snd r)))) as (n2 & F2 & B2 & D2). assert (n2 = ntr) by congruence. subst n2.
  pose proof (last_In runs ([], []) Hr) as Il.
  assert (L1 : nte <= length ste). { transitivity (length (rets (fst (last runs ([], []))))); [apply B1, (in_map (fun r => rets (fst r)) _ _ Il)|apply rets_len]. }
  assert (L2 : ntr <= length str). { transitivity (length (rets (snd (last runs ([], []))))); [apply B2, (in_map (fun r => rets (snd r)) _ _ Il)|apply rets_len]. }
  destruct (cols_facts max nte ste L1) as (P1 & P2 & P3 & P4 & P5). destruct (cols_facts max ntr str L2) as (Q1 & Q2 & Q3 & Q4 & Q5).
  eexists _, (cols max nte ste), (cols max ntr str). split; [exact E|]. cbn [r_test r_steps r_train r_steps_train].
  split; [reflexivity|]. split; [exact P3|]. split; [reflexivity|]. split; [exact Q3|]. split; [exact P2|]. split; [exact Q2|]. split; [|split].
  - intros run Hrun. pose proof (B1 _ (in_map (fun r => rets (fst r)) _ _ Hrun)) as X. pose proof (B2 _ (in_map (fun r => rets (snd r)) _ _ Hrun)) as Y. cbn beta in X, Y. lia.
  - intros Hn. rewrite (P4 Hn), (Q4 Hn). destruct D1 as (x & Hx & ->). destruct D2 as (y & Hy & ->). apply in_map_iff in Hx, Hy.
    destruct Hx as (rx & <- & Hx). destruct Hy as (ry & <- & Hy). split; [exists rx|exists ry]; auto.
  - intros b Hb s [Hs|Hs]; [rewrite P3 in Hs; exact (P5 b Hb s Hs)|rewrite Q3 in Hs; exact (Q5 b Hb s Hs)].
Qed.
Lemma rets_full log : rets (full log) = map snd log.
Proof. induction log as [|[s r] log IH]; [reflexivity|]. cbn in *. f_equal. exact IH. Qed.
Lemma steps_full log : map fst (full log) = map fst log.
Proof. unfold full. rewrite map_map. reflexivity. Qed.
Lemma nth_error_firstn {X} n (l : list X) i : i < n -> nth_error (firstn n l) i = nth_error l i.
Proof. revert n i. induction l as [|x l IH]; intros [|n] [|i] H; try lia; try reflexivity. cbn. apply IH. lia. Qed.
(** C223. If every collect finished episodes and all runs were logged at the same steps, each cell of the test
    table is what that run logged at the step of the column. *)
Lemma C223_aligned_lemma : forall runs max, runs <> [] -> (forall r, In r runs -> fst r <> [] /\ snd r <> []) ->
  (forall r j, In r runs -> j < length (fst r) -> j < length (fst (last runs ([], []))) -> nth_error (map fst (fst r)) j = nth_error (map fst (fst (last runs ([], [])))) j) ->
  exists res, load (runs_of (map (fun r => (full (fst r), full (snd r))) runs)) max = Ok res /\
    forall i j run row s x, nth_error runs i = Some run -> nth_error (r_test res) i = Some row -> nth_error (r_steps res) j = Some s -> nth_error row j = Some x ->
      nth_error (fst run) j = Some (s, x).
Proof.
  intros runs max Hr H Hs. set (fr := map (fun r => (full (fst r), full (snd r))) runs).
  assert (Hf : fr <> []) by (unfold fr; destruct runs; [contradiction|discriminate]).
  destruct (C223_columns_lemma fr max Hf) as (res & n & m & E & A & B & _ & _ & C & _ & D & _).
  { intros r I. apply in_map_iff in I. destruct I as (r0 & <- & I). destruct (H r0 I) as [H1 H2]. cbn [fst snd]. rewrite !rets_full.
    split; [destruct (fst r0)|destruct (snd r0)]; try contradiction; discriminate. }
  exists res. split; [exact E|]. intros i j run row s x Hi Hrow Hj Hx.
  assert (Hl : last fr ([], []) = (full (fst (last runs ([], []))), full (snd (last runs ([], []))))).
  { unfold fr. clear - Hr. induction runs as [|r runs IH]; [contradiction|]. destruct runs as [|r' runs]; [reflexivity|]. cbn [map last] in *. apply IH. discriminate. }
  rewrite Hl in B. cbn [fst] in B. rewrite steps_full in B.
  assert (Ir : In run runs) by (eapply nth_error_In; exact Hi).
  rewrite A in Hrow. unfold fr in Hrow. rewrite map_map in Hrow. rewrite (map_nth_error _ i runs Hi) in Hrow. cbn [fst] in Hrow. rewrite rets_full in Hrow. injection Hrow as <-.
  assert (Jn : j < n) by (rewrite <- C; apply nth_error_Some; congruence).
  rewrite nth_error_firstn in Hx by exact Jn. rewrite B in Hj. rewrite nth_error_firstn in Hj by exact Jn.
  assert (J1 : j < length (fst run)) by (rewrite <- (map_length snd (fst run)); apply nth_error_Some; congruence).
  assert (J2 : j < length (fst (last runs ([], [])))) by (rewrite <- (map_length fst (fst (last runs ([], [])))); apply nth_error_Some; congruence).
  rewrite <- (Hs run j Ir J1 J2) in Hj. clear - Hj Hx. revert j Hj Hx. induction (fst run) as [|[a b] l IH]; intros [|j]; cbn; try discriminate; [congruence|apply IH].
Qed.
(** C223. A training collect without a finished episode: the returns that follow are shown at the steps of
    earlier collects. *)
Lemma C223_shifted_refuted_lemma : forall test s0 s1 x rest, rets test <> [] ->
  exists r, load (runs_of [(test, (s0, None) :: (s1, Some x) :: rest)]) None = Ok r /\
    nth_error (r_steps_train r) 0 = Some s0 /\ option_map (fun row => nth_error row 0) (nth_error (r_train r) 0) = Some (Some x).
Proof.
  intros test s0 s1 x rest H. set (runs := [(test, (s0, None) :: (s1, Some x) :: rest)]).
  assert (Hr : runs <> []) by discriminate.
  destruct (C223_columns_lemma runs None Hr) as (r & n & m & E & _ & _ & A & B & _ & C & _ & D & _).
  { intros r [<-|[]]. cbn [fst snd]. split; [exact H|discriminate]. }
  exists r. split; [exact E|]. destruct (D eq_refl) as (_ & run & [<-|[]] & Hm). cbn in Hm.
  rewrite A, B. unfold runs. cbn [last snd map]. rewrite Hm. split; reflexivity.
Qed.
(** C223. Runs evaluated at different steps: the returns of all of them are shown at the steps of the last one. *)
Lemma C223_other_steps_refuted_lemma : forall s s' x x' train train', rets train <> [] -> rets train' <> [] ->
  exists r, load (runs_of [([(s, Some x)], train); ([(s', Some x')], train')]) None = Ok r /\
    r_test r = [[x]; [x']] /\ r_steps r = [s'].
Proof.
  intros s s' x x' train train' H H'. set (runs := [([(s, Some x)], train); ([(s', Some x')], train')]).
  assert (Hr : runs <> []) by discriminate.
  destruct (C223_columns_lemma runs None Hr) as (r & n & m & E & A & B & _ & _ & _ & _ & _ & D & _).
  { intros r [<-|[<-|[]]]; cbn [fst snd]; split; try assumption; discriminate. }
  exists r. split; [exact E|]. destruct (D eq_refl) as ((run & Hrun & Hn) & _).
  assert (H0 : n = 1) by (destruct Hrun as [<-|[<-|[]]]; exact Hn). rewrite H0 in A, B. split; [exact A|exact B].
Qed.

(** C224. No directory with test data: RuntimeError. *)
Lemma C224_nothing_lemma : forall entries max,
  (forall e, In e entries -> d_skip e = true \/ (d_data e <> [] /\ (look Test (d_data e) = None \/ look Test (d_data e) = Some []))) ->
  load entries max = Err RuntimeError.
Proof.
  intros entries max H. unfold load. assert (E : forall a, foldM load_run entries a = Ok a).
  { induction entries as [|e entries IH]; intros a; [reflexivity|]. cbn [foldM].
    assert (L : load_run a e = Ok a).
    { unfold load_run. destruct (H e (or_introl eq_refl)) as [->|[Hd Hl]]; [reflexivity|]. destruct (d_skip e); [reflexivity|].
      unfold run_data. destruct (d_data e) as [|x l] eqn:Q; [contradiction|]. cbn [bind]. destruct Hl as [->| ->]; reflexivity. }
    rewrite L. cbn [bind]. apply IH. intros e' H'. apply H. right. exact H'. }
  rewrite E. reflexivity.
Qed.
(** C224. An entry without data of its own counts as its only subdirectory; with none, with several, or with an empty
    one the function never returns (ValueError unless an earlier entry has failed). *)
Lemma C224_layout_lemma : forall (pre post : list dirent) (max : option nat),
  (forall d subs, d <> [] -> load (pre ++ mkD false [] [d] :: post) max = load (pre ++ mkD false d subs :: post) max) /\
  (forall subs, length subs <> 1 \/ subs = [[]] ->
     load (mkD false [] subs :: post) max = Err ValueError /\ exists e, load (pre ++ mkD false [] subs :: post) max = Err e).
Proof.
  intros pre post max.
  assert (A : forall f g rest l (a : acc), (forall a, load_run a f = load_run a g) -> foldM load_run (l ++ f :: rest) a = foldM load_run (l ++ g :: rest) a).
  { clear. intros f g rest l a H. revert a. induction l as [|e l IH]; intros a; cbn [app foldM]; [rewrite H; reflexivity|].
    destruct (load_run a e); [cbn [bind]; apply IH | reflexivity]. }
  assert (L : forall subs a, length subs <> 1 \/ subs = [[]] -> load_run a (mkD false [] subs) = Err ValueError).
  { clear. intros subs a H. unfold load_run, run_data. cbn [d_skip d_data d_subs]. destruct subs as [|d [|d' subs]]; [reflexivity| |reflexivity].
    destruct H as [H | [= ->]]; [destruct (H eq_refl) | reflexivity]. }
  split.
  - intros d subs Hd. unfold load. rewrite (A _ (mkD false d subs)); [reflexivity|]. intros a. unfold load_run, run_data. cbn [d_skip d_data d_subs].
    destruct d; [contradiction | reflexivity].
  - intros subs H. split; [unfold load; cbn [foldM]; rewrite L by exact H; reflexivity|].
    unfold load. assert (E : forall a, exists e, foldM load_run (pre ++ mkD false [] subs :: post) a = Err e).
    { induction pre as [|x pre IH]; intros a; cbn [app foldM]; [rewrite L by exact H; exists ValueError; reflexivity|]. destruct (load_run a x) as [a'|e]; [cbn [bind]; apply IH | exists e; reflexivity]. }
    destruct (E (mkA [] [] None None)) as (e & ->). exists e. reflexivity.
Qed.
(** C224. Test data only: without training returns the function fails with ValueError although the missing data
    were only to be warned about; without any training data (offline learning) it fails with KeyError. *)
Lemma C224_no_train_refuted_lemma : 
  (forall runs max, runs <> [] -> (forall r, In r runs -> rets (fst r) <> [] /\ rets (snd r) = []) -> load (runs_of runs) max = Err ValueError) /\
  (forall test rest max, rets test <> [] -> load (mkD false [(Test, scope_data test)] [] :: rest) max = Err KeyError).
Proof.
  split.
  - intros runs max Hr H. unfold load.
    assert (G : forall runs a, runs <> [] -> (forall r, In r runs -> rets (fst r) <> [] /\ rets (snd r) = []) ->
      exists t s, foldM load_run (runs_of runs) a = Ok (mkA (a_test a ++ t) (a_train a) (Some s) (a_train_step a)) /\ t <> []).
    { clear. induction runs as [|r runs IH]; intros a Hr H; [contradiction|]. destruct (H r (or_introl eq_refl)) as [H1 H2].
      cbn [runs_of map foldM]. fold (runs_of runs). rewrite (load_run_of a (fst r) (snd r) H1), H2. cbn [bind].
      destruct runs as [|r' runs]; [exists [rets (fst r)], (map fst (fst r)); split; [reflexivity|discriminate]|].
      destruct (IH (mkA (a_test a ++ [rets (fst r)]) (a_train a) (Some (map fst (fst r))) (a_train_step a))) as (t & s & E & Ht); [discriminate|intros r0 H0; apply H; right; exact H0|].
      exists ([rets (fst r)] ++ t), s. rewrite E. cbn [a_test a_train a_train_step]. rewrite <- app_assoc. split; [reflexivity|discriminate]. }
    destruct (G runs (mkA [] [] None None) Hr H) as (t & s & E & Ht). rewrite E. cbn [bind a_test a_train a_test_step a_train_step app].
    destruct t; [contradiction|]. reflexivity.
  - intros test rest max H. unfold load. cbn [foldM]. rewrite (scope_data_rets test H). reflexivity.
Qed.

(** ** Loggers *)
(** C225. The wandb logger writes what it is given once it is loaded, and the intervals of training, test and update
    are passed on; before that every write fails. *)
Lemma C225_intervals_lemma : forall w, w_tb w = None ->
  (forall st n, wandb_write w st n = Err RuntimeError) /\
  exists o, w_tb (wandb_load w) = Some o /\ tb_train o = w_train w /\ tb_test o = w_test w /\ tb_update o = w_update w /\
    forall st n, exists f, wandb_write (wandb_load w) st n = Ok (fst st + S n, f).
Proof.
  intros w H. split; [intros; unfold wandb_write; rewrite H; reflexivity|]. eexists. split; [reflexivity|]. repeat (split; [reflexivity|]).
  intros st n. eexists. reflexivity.
Qed.
(** C225. The arguments are shifted by one: [save_interval] becomes the info interval, [write_flush] the save
    interval, and every write is flushed whatever [write_flush] says. *)
Lemma C225_flush_refuted_lemma : forall w, exists o, w_tb (wandb_load w) = Some o /\
  tb_info o = w_save w /\ tb_save o = (if w_flush w then 1 else 0)%Z /\ tb_flush o = true /\
  forall st n, wandb_write (wandb_load w) st n = Ok (fst st + S n, S (snd st)).
Proof.
  intros w. eexists. split; [reflexivity|]. split; [reflexivity|]. split; [unfold b2z; cbn; destruct (w_flush w); reflexivity|]. split; [reflexivity|].
  intros st n. unfold wandb_write, tb_write. cbn. rewrite Nat.add_1_r. reflexivity.
Qed.
(** C226. The wandb logger of the factory saves at the interval of the factory; a project is needed. *)
Lemma C226_wandb_lemma : forall n p, new_factory WB None n = Err ValueError /\
  exists f l, new_factory WB (Some p) n = Ok f /\ create_logger f = Ok l /\ save_of l = n /\ logger_class f = Ok WB.
Proof. intros n p. split; [reflexivity|]. do 2 eexists. split; [reflexivity|]. split; [reflexivity|]. split; reflexivity. Qed.
Lemma saved_all es : forall lo, strictly lo es -> saved_epochs 1 lo es = es.
Proof.
  induction es as [|e es IH]; intros lo H; [reflexivity|]. destruct H as [H1 H2]. cbn. destruct (1 <=? e - lo)%Z eqn:Q; [rewrite (IH e H2); reflexivity|lia].
Qed.
(** C226. The tensorboard logger of the factory is made without the interval: every epoch is saved. "pandas" is
    accepted by the constructor and refused later. *)
Lemma C226_interval_refuted_lemma : forall n p,
  (exists f l, new_factory TB p n = Ok f /\ create_logger f = Ok l /\ save_of l = 1%Z /\
    (forall es, strictly (-1) es -> saved_epochs (save_of l) (-1) es = es)) /\
  saved_epochs 2 (-1) [1; 2; 3; 4]%Z = [1; 3]%Z /\
  exists f, new_factory PD p n = Ok f /\ create_logger f = Err ValueError /\ logger_class f = Err ValueError.
Proof.
  intros n p. split; [|split; [reflexivity|]].
  - do 2 eexists. split; [reflexivity|]. split; [reflexivity|]. split; [reflexivity|]. intros es. apply saved_all.
  - eexists. split; [reflexivity|]. split; reflexivity.
Qed.
(** C227. Checkpoints of the wandb logger: what is restored is the last one that was saved. *)
Lemma C227_restore_lemma : forall interval saves s, saved_triples interval (ws_last_save s) saves <> [] ->
  let s' := fold_left (wandb_save interval true) saves s in
  let e := last (saved_triples interval (ws_last_save s) saves) (0, 0, 0)%Z in
  forall fresh, wandb_restore (mkWs fresh (ws_artifact s')) = Ok (mkWs (fst (fst e)) (Some e), e).
Proof.
  intros interval saves s H. cbn zeta. intros fresh.
  assert (G : forall saves s, let s' := fold_left (wandb_save interval true) saves s in
    match saved_triples interval (ws_last_save s) saves with [] => s' = s | l => ws_artifact s' = Some (last l (0, 0, 0)%Z) end).
  { clear. induction saves as [|[[e v] g] saves IH]; intros s; [reflexivity|]. cbn [fold_left saved_triples].
    assert (Ew : wandb_save interval true s (e, v, g) = if (interval <=? e - ws_last_save s)%Z then mkWs e (Some (e, v, g)) else s) by reflexivity.
    rewrite Ew. clear Ew. destruct (interval <=? e - ws_last_save s)%Z; [|exact (IH s)].
    specialize (IH (mkWs e (Some (e, v, g)))). cbn zeta in IH. cbn [ws_last_save] in IH.
    destruct (saved_triples interval e saves) as [|x l]; [rewrite IH; reflexivity|exact IH]. }
  specialize (G saves s). cbn zeta in G. destruct (saved_triples interval (ws_last_save s) saves) as [|x l] eqn:E; [contradiction|].
  unfold wandb_restore. cbn [ws_artifact]. rewrite G. destruct (last (x :: l) (0, 0, 0)%Z) as [[a b] c]. reflexivity.
Qed.
(** C227. "If it finds nothing, it will return the default parameters": without a saved checkpoint the wandb logger fails. *)
Lemma C227_default_refuted_lemma : forall fresh saves s interval, ws_artifact s = None ->
  is_ok (wandb_restore (mkWs fresh (ws_artifact (fold_left (wandb_save interval false) saves s)))) = false.
Proof.
  intros fresh saves s interval H. assert (E : fold_left (wandb_save interval false) saves s = s) by (induction saves as [|[[e v] g] l IH]; [reflexivity|exact IH]).
  rewrite E, H. reflexivity.
Qed.
