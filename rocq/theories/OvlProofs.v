From Verif Require Import Py PyLemmas BufferModel ManagerModel.
Open Scope nat_scope.
Section Gen.
Context {S0 I : Type}.
Variables (rowsf : list I -> res (list (option S0))) (prevf : list I -> res (list I)).
Fixpoint gl (k : nat) (index : list I) (stack : list (list (option S0))) : res (list (list (option S0))) :=
  match k with
  | O => Ok stack
  | S k => let* v := rowsf index in let* index' := prevf index in gl k index' (v :: stack)
  end.
Lemma gl_app k : forall index stack, gl k index stack = let* r := gl k index [] in Ok (r ++ stack).
Proof.
  induction k as [|k IH]; intros index stack; [reflexivity|]. cbn [gl]. destruct (rowsf index) as [v|e]; [|reflexivity]. cbn [bind].
  destruct (prevf index) as [i'|e]; [|reflexivity]. cbn [bind]. rewrite IH, (IH i' [v]). destruct (gl k i' []) as [r|e]; [|reflexivity]. cbn [bind]. rewrite <- app_assoc. reflexivity.
Qed.
Lemma gl_old k : forall index r, gl (S k) index [] = Ok r -> exists x r', r = x :: r' /\ gl k index [] = Ok r'.
Proof.
  induction k as [|k IH]; intros index r E.
  - cbn in E. destruct (rowsf index) as [v|e]; [|discriminate]. cbn in E. destruct (prevf index) as [i'|e]; [|discriminate]. cbn in E. injection E as <-. exists v, []. split; reflexivity.
  - cbn [gl] in *. destruct (rowsf index) as [v|e]; [|discriminate]. cbn [bind] in *. destruct (prevf index) as [i'|e]; [|discriminate]. cbn [bind] in *.
    rewrite (gl_app k i' [v]). specialize (IH i'). cbn [gl] in IH. change (let* v0 := rowsf i' in let* index' := prevf i' in gl k index' [v0; v]) with (gl (S k) i' [v]) in E.
    rewrite gl_app in E. change (let* v0 := rowsf i' in let* index' := prevf i' in gl k index' [v0]) with (gl (S k) i' []) in IH.
    destruct (gl (S k) i' []) as [r1|e]; [|discriminate]. cbn [bind] in E. injection E as <-. destruct (IH r1 eq_refl) as (x & r' & -> & E'). exists x, (r' ++ [v]).
    split; [reflexivity|]. rewrite E'. reflexivity.
Qed.
Lemma gl_new k index r : gl (S k) index [] = Ok r -> exists v i' r', rowsf index = Ok v /\ prevf index = Ok i' /\ gl k i' [] = Ok r' /\ r = r' ++ [v].
Proof.
  intros E. cbn [gl] in E. destruct (rowsf index) as [v|e]; [|discriminate]. cbn [bind] in E. destruct (prevf index) as [i'|e]; [|discriminate]. cbn [bind] in E.
  rewrite gl_app in E. destruct (gl k i' []) as [r'|e] eqn:E'; [|discriminate]. cbn [bind] in E. injection E as <-. exists v, i', r'. auto.
Qed.
End Gen.
Lemma prev_length (Ob A Inf R : Type) (b : buf Ob A Inf R) idx pi : prev b idx = Ok pi -> length pi = length idx.
Proof. unfold prev. destruct (b_meta b); [|discriminate]. apply mapM_length. Qed.
Lemma rows_length (Ob A Inf R : Type) (b : buf Ob A Inf R) idx v : rows_at b idx = Ok v -> length v = length idx.
Proof. unfold rows_at. destruct (b_meta b); [|discriminate]. apply mapM_length. Qed.
Lemma m_prev_length (Ob A Inf R : Type) (m : mgr Ob A Inf R) idx pi : m_prev m idx = Ok pi -> length pi = length idx.
Proof. unfold m_prev. destruct (m_meta m); [|discriminate]. apply mapM_length. Qed.
Lemma m_rows_length (Ob A Inf R : Type) (m : mgr Ob A Inf R) idx v : m_rows_at m idx = Ok v -> length v = length idx.
Proof. unfold m_rows_at. destruct (m_meta m); [|discriminate]. apply mapM_length. Qed.
Lemma get_loop_gl (Ob A Inf R : Type) (b : buf Ob A Inf R) k : forall idx st, get_loop k b idx st = gl (rows_at b) (prev b) k idx st.
Proof. induction k as [|k IH]; intros idx st; [reflexivity|]. cbn [get_loop gl]. destruct (rows_at b idx); [|reflexivity]. cbn [bind]. destruct (prev b idx); [|reflexivity]. apply IH. Qed.
Lemma m_get_loop_gl (Ob A Inf R : Type) (m : mgr Ob A Inf R) k : forall idx st, m_get_loop k m idx st = gl (m_rows_at m) (m_prev m) k idx st.
Proof. induction k as [|k IH]; intros idx st; [reflexivity|]. cbn [m_get_loop gl]. destruct (m_rows_at m idx); [|reflexivity]. cbn [bind]. destruct (m_prev m idx); [|reflexivity]. apply IH. Qed.

Section Laws.
Context {Ob A Inf R : Type}.
Notation slot := (slot Ob A Inf R).
Variables (rowsf : list Z -> res (list (option slot))) (prevf : list Z -> res (list Z)).
Hypothesis rows_len : forall idx v, rowsf idx = Ok v -> length v = length idx.
Hypothesis prev_len : forall idx v, prevf idx = Ok v -> length v = length idx.
Definition gr (k : nat) (index : list Z) : res (list (list (option slot))) :=
  if k =? 1 then let* v := rowsf index in Ok (map (fun x => [x]) v)
  else let* st := gl rowsf prevf k index [] in Ok (transpose (length index) st).
Lemma transpose_col (v : list (option slot)) n : length v = n -> map (fun i => nth i v None) (seq 0 n) = v.
Proof.
  intros <-. apply nth_error_ext. intros j. rewrite nth_error_map_seq. destruct (Nat.ltb_spec j (length v)) as [L|L].
  - symmetry. rewrite Nat.add_0_l. apply nth_error_nth'. exact L.
  - symmetry. apply nth_error_None. exact L.
Qed.
Lemma gr_one index : gr 1 index = let* v := rowsf index in Ok (transpose (length index) [v]).
Proof.
  unfold gr. rewrite Nat.eqb_refl. destruct (rowsf index) as [v|e] eqn:E; [|reflexivity]. cbn [bind]. f_equal. unfold transpose. cbn [map].
  rewrite <- (transpose_col v (length index)) at 1 by (apply rows_len; exact E). rewrite map_map. reflexivity.
Qed.
Lemma gr_many k index : k <> 1 -> gr k index = let* st := gl rowsf prevf k index [] in Ok (transpose (length index) st).
Proof. intros H. unfold gr. destruct (Nat.eqb_spec k 1); [congruence|reflexivity]. Qed.
Lemma gr_law k index st : 0 < k -> gr (S k) index = Ok st ->
  gr k index = Ok (map (@tl _) st) /\ rowsf index = Ok (map (fun s => last s None) st)
  /\ (forall pi, prevf index = Ok pi -> gr k pi = Ok (map (@removelast _) st))
  /\ length st = length index /\ (forall s, In s st -> length s = S k).
Proof.
  intros Hk E. rewrite gr_many in E by lia. destruct (gl rowsf prevf (S k) index []) as [r|e] eqn:Er; [|discriminate]. cbn [bind] in E. injection E as <-.
  destruct (gl_old _ _ _ _ _ Er) as (x & r1 & E1 & G1). destruct (gl_new _ _ _ _ _ Er) as (v & pi & r2 & Ev & Ep & G2 & E2).
  assert (Hlen : forall kk ii rr, gl rowsf prevf kk ii [] = Ok rr -> length rr = kk).
  { clear. induction kk as [|kk IH]; intros ii rr E; [injection E as <-; reflexivity|]. destruct (gl_new _ _ _ _ _ E) as (v & i' & r' & _ & _ & G & ->).
    rewrite app_length. cbn [length]. rewrite (IH _ _ G). lia. }
  repeat split.
  - destruct (Nat.eq_dec k 1) as [->|N].
    + rewrite gr_one, Ev. cbn [bind]. f_equal. assert (r2 = [x] /\ r1 = [v]) as [-> ->].
      { pose proof (Hlen _ _ _ G2). pose proof (Hlen _ _ _ G1). destruct r2 as [|y [|]]; try discriminate. destruct r1 as [|z [|]]; try discriminate. rewrite E1 in E2. cbn in E2. injection E2 as -> ->. split; reflexivity. }
      rewrite E2. unfold transpose. rewrite map_map. reflexivity.
    + rewrite gr_many by exact N. rewrite G1. cbn [bind]. f_equal. rewrite E1. unfold transpose. rewrite map_map. reflexivity.
  - rewrite Ev. f_equal. rewrite E2. unfold transpose. rewrite map_map. rewrite <- (transpose_col v (length index)) at 1 by (apply rows_len; exact Ev).
    apply map_ext. intros i. rewrite map_app. cbn [map]. rewrite last_last. reflexivity.
  - intros pi' Ep'. assert (pi' = pi) by congruence. subst pi'. pose proof (prev_len _ _ Ep) as Lp. destruct (Nat.eq_dec k 1) as [->|N].
    + rewrite gr_one. destruct (gl_new _ _ _ _ _ G2) as (v2 & p2 & r3 & Ev2 & _ & G3 & ->). cbn in G3. injection G3 as <-. rewrite Ev2. cbn [bind app]. f_equal. rewrite E2, Lp. unfold transpose. rewrite map_map. reflexivity.
    + rewrite gr_many by exact N. rewrite G2. cbn [bind]. f_equal. rewrite E2, Lp. unfold transpose. rewrite map_map. apply map_ext. intros i. rewrite map_app. cbn [map]. rewrite removelast_last. reflexivity.
  - unfold transpose. rewrite map_length, seq_length. reflexivity.
  - intros s Hs. unfold transpose in Hs. apply in_map_iff in Hs. destruct Hs as (i & <- & _). rewrite map_length. exact (Hlen _ _ _ Er).
Qed.
End Laws.

Lemma mapM_app_iff {T U} (f : T -> res U) l1 l2 v : mapM f (l1 ++ l2) = Ok v <-> exists v1 v2, mapM f l1 = Ok v1 /\ mapM f l2 = Ok v2 /\ v = v1 ++ v2.
Proof.
  revert v. induction l1 as [|x l1 IH]; intros v; cbn [app mapM].
  - split; [intros H; exists [], v; auto|]. intros (v1 & v2 & E1 & E2 & ->). injection E1 as <-. exact E2.
  - destruct (f x) as [y|e]; cbn [bind].
    + specialize (IH (tl v)). destruct (mapM f (l1 ++ l2)) as [w|e].
      * cbn [bind]. split.
        -- intros H. injection H as <-. cbn [tl] in IH. destruct (proj1 IH eq_refl) as (v1 & v2 & E1 & E2 & ->). exists (y :: v1), v2. rewrite E1. auto.
        -- intros (v1 & v2 & E1 & E2 & ->). destruct (mapM f l1) as [w1|e]; [|discriminate]. cbn [bind] in E1. injection E1 as <-. cbn [tl app] in IH. 
           assert (Q : Ok w = Ok (w1 ++ v2)) by (apply IH; exists w1, v2; auto). injection Q as ->. reflexivity.
      * cbn [bind]. split; [discriminate|]. intros (v1 & v2 & E1 & E2 & ->). destruct (mapM f l1) as [w1|e1]; [|discriminate]. cbn [bind] in E1. injection E1 as <-. cbn [tl app] in IH.
        assert (Q : @Err (list U) e = Ok (w1 ++ v2)) by (apply IH; exists w1, v2; auto). discriminate Q.
    + split; [discriminate|]. intros (v1 & v2 & E1 & _). discriminate.
Qed.
Section Join.
Context {Ob A Inf R : Type}.
Notation slot := (slot Ob A Inf R).
Variables (rowsf : list Z -> res (list (option slot))) (prevf : list Z -> res (list Z)).
Hypothesis rows_len : forall idx v, rowsf idx = Ok v -> length v = length idx.
Hypothesis prev_len : forall idx v, prevf idx = Ok v -> length v = length idx.
Hypothesis rows_app : forall l1 l2 v, rowsf (l1 ++ l2) = Ok v <-> exists v1 v2, rowsf l1 = Ok v1 /\ rowsf l2 = Ok v2 /\ v = v1 ++ v2.
Hypothesis prev_app : forall l1 l2 v, prevf (l1 ++ l2) = Ok v <-> exists v1 v2, prevf l1 = Ok v1 /\ prevf l2 = Ok v2 /\ v = v1 ++ v2.
Lemma gl_join k : forall l1 l2 r, gl rowsf prevf k (l1 ++ l2) [] = Ok r <-> exists r1 r2, gl rowsf prevf k l1 [] = Ok r1 /\ gl rowsf prevf k l2 [] = Ok r2
  /\ r = map (fun x => fst x ++ snd x) (combine r1 r2) /\ length r1 = length r2 /\ Forall (fun c => length c = length l1) r1.
Proof.
  induction k as [|k IH]; intros l1 l2 r.
  - cbn [gl]. split; [intros H; injection H as <-; exists [], []; repeat split; constructor|]. intros (r1 & r2 & E1 & E2 & -> & _). injection E1 as <-. injection E2 as <-. reflexivity.
  - cbn [gl]. split.
    + intros H. destruct (rowsf (l1 ++ l2)) as [v|e] eqn:Ev; [|discriminate]. cbn [bind] in H. destruct (prevf (l1 ++ l2)) as [p|e] eqn:Ep; [|discriminate]. cbn [bind] in H.
      rewrite gl_app in H. destruct (gl rowsf prevf k p []) as [r'|e] eqn:Er; [|discriminate]. cbn [bind] in H. injection H as <-.
      apply rows_app in Ev. destruct Ev as (v1 & v2 & E1 & E2 & ->). apply prev_app in Ep. destruct Ep as (p1 & p2 & E3 & E4 & ->).
      apply IH in Er. destruct Er as (r1 & r2 & G1 & G2 & -> & L & Fa). exists (r1 ++ [v1]), (r2 ++ [v2]). rewrite E1, E2. cbn [bind]. rewrite E3, E4. cbn [bind].
      rewrite (gl_app _ _ k p1 [v1]), (gl_app _ _ k p2 [v2]), G1, G2. cbn [bind]. split; [reflexivity|]. split; [reflexivity|]. rewrite !app_length, L. split.
      * rewrite <- (rev_involutive (combine (r1 ++ [v1]) (r2 ++ [v2]))). rewrite rev_involutive. clear -L. revert r2 L. induction r1 as [|a r1 IH]; intros [|c r2] L; try discriminate; [reflexivity|].
        cbn [app combine map fst snd]. f_equal. apply IH. injection L as L. exact L.
      * split; [reflexivity|]. apply Forall_app. split; [|constructor; [apply rows_len; exact E1|constructor]]. rewrite <- (prev_len _ _ E3). exact Fa.
    + intros (r1 & r2 & E1 & E2 & -> & L & _). destruct (gl_new _ _ k l1 r1 E1) as (v1 & p1 & s1 & A1 & A2 & A3 & ->). destruct (gl_new _ _ k l2 r2 E2) as (v2 & p2 & s2 & B1 & B2 & B3 & ->).
      rewrite (proj2 (rows_app l1 l2 (v1 ++ v2))) by eauto 6. cbn [bind]. rewrite (proj2 (prev_app l1 l2 (p1 ++ p2))) by eauto 6. cbn [bind]. rewrite gl_app.
      rewrite !app_length in L. cbn [length] in L. assert (L' : length s1 = length s2) by lia.
      assert (Fa : Forall (fun c => length c = length p1) s1).
      { clear -A3 rows_len prev_len. revert p1 s1 A3. induction k as [|k IH]; intros p1 s1 E; [injection E as <-; constructor|]. destruct (gl_new _ _ k p1 s1 E) as (v & p' & s' & E1 & E2 & E3 & ->).
        apply Forall_app. split; [|constructor; [apply rows_len; exact E1|constructor]]. rewrite <- (prev_len _ _ E2). apply IH. exact E3. }
      rewrite (proj2 (IH p1 p2 (map (fun x => fst x ++ snd x) (combine s1 s2)))) by (exists s1, s2; auto). cbn [bind]. f_equal.
      clear -L'. revert s2 L'. induction s1 as [|a s1 IH]; intros [|c s2] L; try discriminate; [reflexivity|]. cbn [app combine map fst snd]. f_equal. apply IH. injection L as L. exact L.
Qed.
Lemma transpose_join r1 : forall (r2 : list (list (option slot))) n1 n2, length r1 = length r2 -> Forall (fun c => length c = n1) r1 ->
  transpose (n1 + n2) (map (fun x => fst x ++ snd x) (combine r1 r2)) = transpose n1 r1 ++ transpose n2 r2.
Proof.
  intros r2 n1 n2 L Fa. unfold transpose. rewrite seq_app, map_app. f_equal.
  - apply map_ext_in. intros i Hi. apply in_seq in Hi. rewrite map_map. revert r2 L. induction Fa as [|c r1 Hc Fa IH]; intros [|c2 r2] L; try discriminate; [reflexivity|].
    cbn [combine map fst snd]. f_equal; [apply app_nth1; lia|]. apply IH. injection L as L. exact L.
  - cbn [Nat.add]. rewrite <- (Nat.add_0_r n1) at 1. generalize 0 as a. revert r2 L. intros r2 L a. revert a. induction n2 as [|n2 IH]; intros a; [reflexivity|]. cbn [seq map]. rewrite <- Nat.add_succ_r. f_equal; [|apply IH].
    rewrite map_map. clear IH. revert r2 L. induction Fa as [|c r1 Hc Fa IH]; intros [|c2 r2] L; try discriminate; [reflexivity|].
    cbn [combine map fst snd]. f_equal; [rewrite app_nth2 by lia; f_equal; lia|]. apply IH. injection L as L. exact L.
Qed.
Lemma gr_join k l1 l2 s : gr rowsf prevf k (l1 ++ l2) = Ok s <-> exists s1 s2, gr rowsf prevf k l1 = Ok s1 /\ gr rowsf prevf k l2 = Ok s2 /\ s = s1 ++ s2.
Proof.
  unfold gr. destruct (k =? 1) eqn:Ek.
  - split.
    + intros H. destruct (rowsf (l1 ++ l2)) as [v|e] eqn:Ev; [|discriminate]. apply rows_app in Ev. destruct Ev as (v1 & v2 & E1 & E2 & ->). cbn [bind] in H. injection H as <-.
      rewrite E1, E2. cbn [bind]. do 2 eexists. split; [reflexivity|]. split; [reflexivity|]. apply map_app.
    + intros (s1 & s2 & E1 & E2 & ->). destruct (rowsf l1) as [v1|e] eqn:F1; [|discriminate]. destruct (rowsf l2) as [v2|e] eqn:F2; [|discriminate]. cbn [bind] in E1, E2. injection E1 as <-. injection E2 as <-.
      rewrite (proj2 (rows_app l1 l2 (v1 ++ v2))) by eauto 6. cbn [bind]. rewrite map_app. reflexivity.
  - split.
    + intros H. destruct (gl rowsf prevf k (l1 ++ l2) []) as [r|e] eqn:Er; [|discriminate]. apply gl_join in Er. destruct Er as (r1 & r2 & E1 & E2 & -> & L & Fa). cbn [bind] in H. injection H as <-.
      rewrite E1, E2. cbn [bind]. do 2 eexists. split; [reflexivity|]. split; [reflexivity|]. rewrite app_length. apply transpose_join; assumption.
    + intros (s1 & s2 & E1 & E2 & ->). destruct (gl rowsf prevf k l1 []) as [r1|e] eqn:F1; [|discriminate]. destruct (gl rowsf prevf k l2 []) as [r2|e] eqn:F2; [|discriminate]. cbn [bind] in E1, E2. injection E1 as <-. injection E2 as <-.
      assert (Hlen : forall kk ii rr, gl rowsf prevf kk ii [] = Ok rr -> length rr = kk /\ Forall (fun c => length c = length ii) rr).
      { clear -rows_len prev_len. induction kk as [|kk IH]; intros ii rr E; [injection E as <-; split; [reflexivity|constructor]|]. destruct (gl_new _ _ _ _ _ E) as (v & i' & r' & E1 & E2 & G & ->).
        destruct (IH _ _ G) as [L Fa]. rewrite app_length. cbn [length]. split; [lia|]. apply Forall_app. split; [|constructor; [apply rows_len; exact E1|constructor]]. rewrite <- (prev_len _ _ E2). exact Fa. }
      destruct (Hlen _ _ _ F1) as [L1 Fa]. destruct (Hlen _ _ _ F2) as [L2 _].
      rewrite (proj2 (gl_join k l1 l2 (map (fun x => fst x ++ snd x) (combine r1 r2)))) by (exists r1, r2; repeat split; try assumption; congruence).
      cbn [bind]. f_equal. rewrite app_length. apply transpose_join; [congruence|exact Fa].
Qed.
End Join.

(** C369. A stack of k + 1 frames without its oldest frame is the stack of k frames, its newest frame is the row itself, and without it the stack is that of the
    predecessor: for any buffer in any state. *)
Lemma C369_buffer_lemma : forall (Ob A Inf R : Type) (b : buf Ob A Inf R) k index st,
  0 < k -> get_rows b (S k) index = Ok st ->
  get_rows b k index = Ok (map (@tl _) st) /\ rows_at b index = Ok (map (fun s => last s None) st)
  /\ (forall pi, prev b index = Ok pi -> get_rows b k pi = Ok (map (@removelast _) st))
  /\ length st = length index /\ (forall s, In s st -> length s = S k).
Proof.
  intros Ob A Inf R b k index st Hk E.
  assert (G : forall kk ii, get_rows b kk ii = gr (rows_at b) (prev b) kk ii) by (intros kk ii; unfold get_rows, gr; rewrite get_loop_gl; reflexivity).
  rewrite G in E. pose proof (gr_law _ _ (rows_length _ _ _ _ b) (prev_length _ _ _ _ b) k index st Hk E) as (P1 & P2 & P3 & P4). rewrite G. split; [exact P1|]. split; [exact P2|].
  split; [|exact P4]. intros pi Hp. rewrite G. apply P3. exact Hp.
Qed.
(** C369. The same for buffers that consist of several. *)
Lemma C369_manager_lemma : forall (Ob A Inf R : Type) (m : mgr Ob A Inf R) k index st,
  0 < k -> m_get_rows m (S k) index = Ok st ->
  m_get_rows m k index = Ok (map (@tl _) st) /\ m_rows_at m index = Ok (map (fun s => last s None) st)
  /\ (forall pi, m_prev m index = Ok pi -> m_get_rows m k pi = Ok (map (@removelast _) st))
  /\ length st = length index /\ (forall s, In s st -> length s = S k).
Proof.
  intros Ob A Inf R m k index st Hk E.
  assert (G : forall kk ii, m_get_rows m kk ii = gr (m_rows_at m) (m_prev m) kk ii) by (intros kk ii; unfold m_get_rows, gr; rewrite m_get_loop_gl; reflexivity).
  rewrite G in E. pose proof (gr_law _ _ (m_rows_length _ _ _ _ m) (m_prev_length _ _ _ _ m) k index st Hk E) as (P1 & P2 & P3 & P4). rewrite G. split; [exact P1|]. split; [exact P2|].
  split; [|exact P4]. intros pi Hp. rewrite G. apply P3. exact Hp.
Qed.
(** C369. The stacks of several indices are those of each. *)
Lemma C369_join_lemma : forall (Ob A Inf R : Type) (b : buf Ob A Inf R) (m : mgr Ob A Inf R) k l1 l2 st,
  (get_rows b k (l1 ++ l2) = Ok st <-> exists s1 s2, get_rows b k l1 = Ok s1 /\ get_rows b k l2 = Ok s2 /\ st = s1 ++ s2)
  /\ (m_get_rows m k (l1 ++ l2) = Ok st <-> exists s1 s2, m_get_rows m k l1 = Ok s1 /\ m_get_rows m k l2 = Ok s2 /\ st = s1 ++ s2).
Proof.
  intros Ob A Inf R b m k l1 l2 st.
  assert (G : forall kk ii, get_rows b kk ii = gr (rows_at b) (prev b) kk ii) by (intros kk ii; unfold get_rows, gr; rewrite get_loop_gl; reflexivity).
  assert (Gm : forall kk ii, m_get_rows m kk ii = gr (m_rows_at m) (m_prev m) kk ii) by (intros kk ii; unfold m_get_rows, gr; rewrite m_get_loop_gl; reflexivity).
  split.
  - rewrite !G. apply gr_join; [apply rows_length|apply prev_length|..].
    + intros x y v. unfold rows_at. destruct (b_meta b); [apply mapM_app_iff|]. split; [discriminate|]. intros (? & ? & E & _). discriminate.
    + intros x y v. unfold prev. destruct (b_meta b); [apply mapM_app_iff|]. split; [discriminate|]. intros (? & ? & E & _). discriminate.
  - rewrite !Gm. apply gr_join; [apply m_rows_length|apply m_prev_length|..].
    + intros x y v. unfold m_rows_at. destruct (m_meta m); [apply mapM_app_iff|]. split; [discriminate|]. intros (? & ? & E & _). discriminate.
    + intros x y v. unfold m_prev. destruct (m_meta m); [apply mapM_app_iff|]. split; [discriminate|]. intros (? & ? & E & _). discriminate.
Qed.
