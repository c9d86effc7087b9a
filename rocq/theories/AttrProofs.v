(** * Proofs about attributes of environments *)
From Coq Require Import String.
From Verif Require Import AttrModel AttrSpec PyLemmas.
Open Scope nat_scope.
Open Scope list_scope.

Section P.
Context {V : Type}.
Lemma look_store : forall k (v : V) l k', look k' (store k v l) = if String.eqb k' k then Some v else look k' l.
Proof.
  intros k v l k'. induction l as [|[k0 v0] l IH]; cbn.
  - destruct (String.eqb k' k); reflexivity.
  - destruct (String.eqb k k0) eqn:E; cbn.
    + apply String.eqb_eq in E. subst k0. destruct (String.eqb k' k); reflexivity.
    + destruct (String.eqb k' k0) eqn:E'; cbn; [|exact IH].
      apply String.eqb_eq in E'. subst k0. destruct (String.eqb k' k) eqn:E''; [|reflexivity].
      apply String.eqb_eq in E''. subst k'. rewrite String.eqb_refl in E. discriminate.
Qed.
Lemma look_none : forall k (l : list (string * V)), ~ In k (map fst l) -> look k l = None.
Proof.
  intros k l. induction l as [|[k0 v0] l IH]; intros H; [reflexivity|]. cbn.
  destruct (String.eqb k k0) eqn:E; [apply String.eqb_eq in E; subst; exfalso; apply H; left; reflexivity|].
  apply IH. intro; apply H; right; assumption.
Qed.
Lemma visible_get : forall (e : env V) k, visible e k -> get_attr e k = look k (e_base e).
Proof.
  intros [ws base] k [H P]. unfold get_attr. cbn [e_wraps e_base] in *.
  induction ws as [|w ws IH]; [reflexivity|]. cbn.
  rewrite look_none by (apply H; left; reflexivity).
  destruct (private k); [specialize (P eq_refl); discriminate|].
  apply IH; [intros w' Hw; apply H; right; exact Hw|discriminate].
Qed.

Lemma target_norm : forall n j, match target n j with Some i => norm_index n j = Ok i /\ i < n | None => norm_index n j = Err IndexError end.
Proof.
  intros n j. unfold target, norm_index.
  destruct (Z.leb_spec 0 j) as [P|P], (Z.ltb_spec j (Z.of_nat n)) as [Q|Q], (Z.leb_spec (- Z.of_nat n) j) as [R|R], (Z.ltb_spec j 0) as [T|T];
    cbn [andb]; try lia; try reflexivity.
  - rewrite Z.mod_small by lia. split; [reflexivity|lia].
  - assert (M : (j mod Z.of_nat n = j + Z.of_nat n)%Z) by (symmetry; apply Z.mod_unique with (q := (-1)%Z); [left|]; lia).
    rewrite M. split; [reflexivity|lia].
Qed.

Lemma set_loop_spec : forall k (v : V) ids l,
  length (fst (set_loop l k v ids)) = length l /\
  (forall i e, nth_error l i = Some e ->
     exists e', nth_error (fst (set_loop l k v ids)) i = Some e' /\ e_wraps e' = e_wraps e /\
       (In i (reached (length l) ids) -> look k (e_base e') = Some v) /\
       (forall k', k' <> k \/ ~ In i (reached (length l) ids) -> look k' (e_base e') = look k' (e_base e))) /\
  (snd (set_loop l k v ids) = if forallb (fun j => match target (length l) j with Some _ => true | None => false end) ids then None else Some IndexError).
Proof.
  intros k v. induction ids as [|j ids IH]; intros l; cbn [set_loop reached forallb].
  - cbn. split; [reflexivity|]. split; [|reflexivity]. intros i e He. exists e. split; [exact He|]. split; [reflexivity|].
    split; [intros []|]. intros k' _. reflexivity.
  - assert (T := target_norm (length l) j). destruct (target (length l) j) as [i0|] eqn:Et.
    + destruct T as [-> Hi0]. destruct (nth_error l i0) as [e0|] eqn:E0; [|apply nth_error_None in E0; lia].
      specialize (IH (upd l i0 (set_attr e0 k v))). rewrite upd_length in IH. destruct IH as (L & F & X).
      split; [exact L|]. split; [|exact X].
      intros i e He.
      assert (Hu : nth_error (upd l i0 (set_attr e0 k v)) i = Some (if i =? i0 then set_attr e0 k v else e)).
      { destruct (i =? i0) eqn:Ei.
        - apply Nat.eqb_eq in Ei. subst i. apply nth_error_upd_same. exact Hi0.
        - apply Nat.eqb_neq in Ei. rewrite nth_error_upd_other by congruence. exact He. }
      destruct (F i _ Hu) as (e' & Ee & Ew & Hin & Hout). exists e'. split; [exact Ee|].
      assert (Hwr : e_wraps e' = e_wraps e).
      { rewrite Ew. destruct (i =? i0) eqn:Ei; [|reflexivity]. apply Nat.eqb_eq in Ei. subst i. rewrite E0 in He. injection He as ->. reflexivity. }
      split; [exact Hwr|]. split.
      * intros Hr. destruct (in_dec Nat.eq_dec i (reached (length l) ids)) as [Hy|Hn]; [apply Hin; exact Hy|].
        destruct Hr as [<-|Hr]; [|contradiction].
        rewrite (Hout k (or_intror Hn)), Nat.eqb_refl. cbn. rewrite look_store, String.eqb_refl. reflexivity.
      * intros k' Hk'. rewrite Hout.
        2:{ destruct Hk' as [Hk'|Hk']; [left; exact Hk'|right; intro; apply Hk'; right; assumption]. }
        destruct (i =? i0) eqn:Ei; [|reflexivity]. apply Nat.eqb_eq in Ei. subst i. rewrite E0 in He. injection He as ->.
        cbn. rewrite look_store. destruct (String.eqb k' k) eqn:E; [|reflexivity].
        apply String.eqb_eq in E. destruct Hk' as [Hk'|Hk']; [contradiction|]. exfalso. apply Hk'. left. reflexivity.
    + rewrite T. cbn. split; [reflexivity|]. split; [|reflexivity]. intros i e He. exists e. split; [exact He|]. split; [reflexivity|].
      split; [intros []|]. intros k' _. reflexivity.
Qed.

Lemma wrap_all : forall (s : venv V) id, wrap_id s id = all_ids (length (v_envs s)) id.
Proof. intros s [l|]; reflexivity. Qed.
Lemma existsb_Z : forall i l, existsb (Z.eqb i) l = true <-> In i l.
Proof.
  intros i l. rewrite existsb_exists. split.
  - intros (x & Hx & E). apply Z.eqb_eq in E. subst. exact Hx.
  - intros H. exists i. split; [exact H|apply Z.eqb_refl].
Qed.
Lemma assert_idle : forall (s : venv V) ids, assert_id s ids = true <-> forall j, In j ids -> idle s j.
Proof.
  intros s ids. unfold assert_id, idle. rewrite forallb_forall. split; intros H j Hj; specialize (H j Hj).
  - apply andb_prop in H as [H1 H2]. apply existsb_Z in H2. split; [exact H2|]. intros C. apply existsb_Z in C. rewrite C in H1. discriminate.
  - destruct H as [H1 H2]. apply existsb_Z in H1. rewrite H1, andb_true_r.
    destruct (existsb (Z.eqb j) (v_waiting s)) eqn:E; [apply existsb_Z in E; contradiction|reflexivity].
Qed.
Lemma admitted_dec : forall (s : venv V) id,
  (admitted s id /\ v_closed s = false /\ v_async s && negb (assert_id s (wrap_id s id)) = false) \/
  (~ admitted s id /\ (v_closed s = true \/ v_async s && negb (assert_id s (wrap_id s id)) = true)).
Proof.
  intros s id. unfold admitted. rewrite <- wrap_all. destruct (v_closed s).
  - right. split; [intros [C _]; discriminate|left; reflexivity].
  - destruct (v_async s); cbn.
    + destruct (assert_id s (wrap_id s id)) eqn:E; cbn.
      * left. split; [split; [reflexivity|intros _; apply assert_idle; exact E]|split; reflexivity].
      * right. split; [|right; reflexivity]. intros [_ H]. specialize (H eq_refl). apply assert_idle in H. congruence.
    + left. split; [split; [reflexivity|discriminate]|split; reflexivity].
Qed.

Lemma admits : forall a b : bool, a && negb b = false -> negb a || b = true.
Proof. intros [|] [|]; cbn; congruence. Qed.

Lemma set_spec : forall (s : venv V) k v id,
  let s' := fst (set_env_attr s k v id) in
  v_kind s' = v_kind s /\ v_async s' = v_async s /\ v_ready s' = v_ready s /\ v_waiting s' = v_waiting s /\ v_closed s' = v_closed s /\
  length (v_envs s') = length (v_envs s) /\
  forall i e, nth_error (v_envs s) i = Some e ->
    exists e', nth_error (v_envs s') i = Some e' /\ e_wraps e' = e_wraps e /\
      (writes_to s id i -> look k (e_base e') = Some v) /\
      (forall k', k' <> k \/ ~ writes_to s id i -> look k' (e_base e') = look k' (e_base e)).
Proof.
  intros s k v id. unfold set_env_attr.
  destruct (admitted_dec s id) as [(A & Hc & Ha)|(NA & H)].
  - rewrite Hc, Ha. destruct (set_loop_spec k v (wrap_id s id) (v_envs s)) as (L & F & _).
    destruct (set_loop (v_envs s) k v (wrap_id s id)) as [l x]. cbn in *.
    split; [reflexivity|]. split; [reflexivity|]. split; [reflexivity|]. split; [reflexivity|]. split; [congruence|]. split; [exact L|].
    intros i e He. destruct (F i e He) as (e' & Ee & Ew & Hin & Hout). exists e'. split; [exact Ee|]. split; [exact Ew|].
    rewrite wrap_all in Hin, Hout. split; [intros [_ W]; apply Hin; exact W|].
    intros k' Hk'. apply Hout. destruct Hk' as [?|Hk']; [left; assumption|right; intros C; apply Hk'; split; assumption].
  - assert (E : (if v_closed s then (s, Some AssertionError)
          else if v_async s && negb (assert_id s (wrap_id s id)) then (s, Some AssertionError)
          else let '(l, x) := set_loop (v_envs s) k v (wrap_id s id) in (with_envs s l, x)) = (s, Some AssertionError)).
    { destruct H as [H|H]; [rewrite H; reflexivity|]. destruct (v_closed s); [reflexivity|rewrite H; reflexivity]. }
    rewrite E. cbn. do 6 (split; [reflexivity|]). intros i e He. exists e. split; [exact He|]. split; [reflexivity|].
    split; [intros [A _]; contradiction|]. intros k' _. reflexivity.
Qed.

Lemma writes_to_ext : forall (s s' : venv V) id i, v_async s' = v_async s -> v_ready s' = v_ready s -> v_waiting s' = v_waiting s ->
  v_closed s' = v_closed s -> length (v_envs s') = length (v_envs s) -> writes_to s' id i <-> writes_to s id i.
Proof.
  intros s s' id i H1 H2 H3 H4 H5. unfold writes_to, admitted, idle. rewrite H1, H2, H3, H4, H5. reflexivity.
Qed.

Lemma set_all_inv : forall ops (s : venv V),
  let s' := set_all s ops in
  v_kind s' = v_kind s /\ v_async s' = v_async s /\ v_ready s' = v_ready s /\ v_waiting s' = v_waiting s /\ v_closed s' = v_closed s /\
  length (v_envs s') = length (v_envs s).
Proof.
  induction ops as [|o ops IH]; intros s; cbn.
  - repeat (split; [reflexivity|]). reflexivity.
  - destruct (IH (fst (set_env_attr s (fst (fst o)) (snd (fst o)) (snd o)))) as (A & B & C & D & E & F).
    destruct (set_spec s (fst (fst o)) (snd (fst o)) (snd o)) as (A' & B' & C' & D' & E' & F' & _).
    cbn in A', B', C', D', E', F'. unfold set_all in *. rewrite A, B, C, D, E, F. auto 10.
Qed.
End P.

(** C279. After any calls of set_env_attr, with whatever ids and exceptions, an attribute that no
    wrapper hides has the value last written to that environment, or else the one it had. *)
Lemma C279_history_lemma : forall (V : Type) (s : venv V) (ops : list (aop V)) (i : nat) (e : env V) (k : string) (r : option V),
  nth_error (v_envs s) i = Some e -> visible e k -> last_value s i k ops r ->
  exists e', nth_error (v_envs (set_all s ops)) i = Some e' /\
    get_attr e' k = match r with Some v => Some v | None => get_attr e k end.
Proof.
  intros V s ops i e k r He Hv Hl.
  assert (K : exists e', nth_error (v_envs (set_all s ops)) i = Some e' /\ e_wraps e' = e_wraps e /\
            look k (e_base e') = match r with Some v => Some v | None => look k (e_base e) end).
  { induction Hl as [|ops v id W|ops k' v id r N H IH].
    - exists e. split; [exact He|]. split; reflexivity.
    - unfold set_all. rewrite fold_left_app. cbn [fold_left fst snd]. fold (set_all s ops).
      destruct (set_all_inv ops s) as (A & B & C & D & E & F).
      assert (L : exists e1, nth_error (v_envs (set_all s ops)) i = Some e1 /\ e_wraps e1 = e_wraps e).
      { clear W. revert s He A B C D E F. induction ops as [|o ops IHo]; intros s He _ _ _ _ _ _; [exists e; auto|].
        cbn. destruct (set_spec s (fst (fst o)) (snd (fst o)) (snd o)) as (_ & _ & _ & _ & _ & _ & Hs).
        destruct (Hs i e He) as (e' & Ee & Ew & _ & _).
        clear Hs.
        assert (G : forall ops (s : venv V) e, nth_error (v_envs s) i = Some e -> exists e1, nth_error (v_envs (set_all s ops)) i = Some e1 /\ e_wraps e1 = e_wraps e).
        { clear. induction ops as [|o ops IH]; intros s e He; [exists e; auto|]. cbn.
          destruct (set_spec s (fst (fst o)) (snd (fst o)) (snd o)) as (_ & _ & _ & _ & _ & _ & Hs).
          destruct (Hs i e He) as (e' & Ee & Ew & _ & _). destruct (IH _ e' Ee) as (e1 & E1 & W1). exists e1. split; [exact E1|congruence]. }
        destruct (G ops _ e' Ee) as (e1 & E1 & W1). exists e1. split; [exact E1|congruence]. }
      destruct L as (e1 & E1 & W1).
      destruct (set_spec (set_all s ops) k v id) as (_ & _ & _ & _ & _ & _ & Hs).
      destruct (Hs i e1 E1) as (e' & Ee & Ew & Hin & _). exists e'. split; [exact Ee|]. split; [congruence|].
      apply Hin. apply (writes_to_ext s); assumption.
    - destruct IH as (e1 & E1 & W1 & L1).
      unfold set_all. rewrite fold_left_app. cbn [fold_left fst snd]. fold (set_all s ops).
      destruct (set_all_inv ops s) as (A & B & C & D & E & F).
      destruct (set_spec (set_all s ops) k' v id) as (_ & _ & _ & _ & _ & _ & Hs).
      destruct (Hs i e1 E1) as (e' & Ee & Ew & _ & Hout). exists e'. split; [exact Ee|]. split; [congruence|].
      rewrite Hout; [exact L1|]. destruct N as [N|N]; [left; congruence|right]. intros Wr. apply N. apply (writes_to_ext s) in Wr; assumption. }
  destruct K as (e' & Ee & Ew & Hl'). exists e'. split; [exact Ee|].
  rewrite !visible_get; [exact Hl'|exact Hv|]. unfold visible. rewrite Ew. exact Hv.
Qed.

Lemma keeps_wraps : forall (V : Type) (ops : list (aop V)) (s : venv V) i e, nth_error (v_envs s) i = Some e ->
  exists e', nth_error (v_envs (set_all s ops)) i = Some e' /\ e_wraps e' = e_wraps e.
Proof.
  intros V. induction ops as [|o ops IH]; intros s i e He; [exists e; auto|]. cbn.
  destruct (set_spec s (fst (fst o)) (snd (fst o)) (snd o)) as (_ & _ & _ & _ & _ & _ & Hs).
  destruct (Hs i e He) as (e' & Ee & Ew & _ & _). destruct (IH _ i e' Ee) as (e1 & E1 & W1). exists e1. split; [exact E1|congruence].
Qed.

(** C279. Not so for an attribute that a wrapper has: it keeps its value whatever is set; and a
    private one behind a wrapper stays out of reach. *)
Lemma C279_hidden_refuted_lemma : forall (V : Type) (s : venv V) (ops : list (aop V)) (i : nat) (e : env V) (k : string) (w : list (string * V)) (ws1 ws2 : list (list (string * V))) (u : V),
  nth_error (v_envs s) i = Some e -> e_wraps e = ws1 ++ w :: ws2 ->
  (forall w', In w' ws1 -> ~ In k (map fst w')) ->
  exists e', nth_error (v_envs (set_all s ops)) i = Some e' /\
    (private k = false -> look k w = Some u -> get_attr e' k = Some u) /\
    (private k = true -> (forall w', In w' (e_wraps e) -> ~ In k (map fst w')) -> get_attr e' k = None).
Proof.
  intros V s ops i e k w ws1 ws2 u He Ew Hn.
  destruct (keeps_wraps V ops s i e He) as (e' & Ee & Ew'). exists e'. split; [exact Ee|].
  unfold get_attr. rewrite Ew', Ew. split.
  - intros P L. clear - Hn P L. induction ws1 as [|w1 ws1 IH]; cbn; [rewrite L; reflexivity|].
    rewrite look_none by (apply Hn; left; reflexivity). rewrite P. apply IH. intros w' Hw. apply Hn. right. exact Hw.
  - intros P H. destruct ws1 as [|w1 ws1]; cbn.
    + rewrite look_none; [rewrite P; reflexivity|]. apply H. left. reflexivity.
    + rewrite look_none; [rewrite P; reflexivity|]. apply H. left. reflexivity.
Qed.

(** C279. Reading gives the values of the environments asked for, in the order of the ids. *)
Lemma C279_get_lemma : forall (V : Type) (none : V) (s : venv V) (k : string) (id : option (list Z)) (vs : list V),
  admitted s id ->
  Forall2 (fun j v => exists i e, target (length (v_envs s)) j = Some i /\ nth_error (v_envs s) i = Some e /\ get_attr e k = Some v)
    (all_ids (length (v_envs s)) id) vs ->
  get_env_attr none s k id = Ok vs.
Proof.
  intros V none s k id vs A H. unfold get_env_attr.
  destruct (admitted_dec s id) as [(_ & Hc & Ha)|(NA & _)]; [|contradiction].
  rewrite Hc. cbn [negb guard].
  rewrite (admits _ _ Ha).
  cbn [guard]. rewrite wrap_all. clear A Hc Ha.
  induction H as [|j v ids vs (i & e & T & E & G) _ IH]; [reflexivity|]. cbn [mapM].
  assert (N := target_norm (length (v_envs s)) j). rewrite T in N. destruct N as [N _].
  unfold zget at 1. rewrite N. cbn [bind]. rewrite E. cbn [bind]. unfold worker_get at 1. rewrite G. cbn [bind].
  rewrite IH. reflexivity.
Qed.

(** C280. In synchronous mode a call with an id out of range raises IndexError, and every
    environment named before it has been written to. *)
Lemma C280_written_refuted_lemma : forall (V : Type) (s : venv V) (k : string) (v : V) (ids1 ids2 : list Z) (j : Z) (i : nat) (e : env V),
  v_closed s = false -> v_async s = false ->
  (forall j, In j ids1 -> target (length (v_envs s)) j <> None) -> target (length (v_envs s)) j = None ->
  snd (set_env_attr s k v (Some (ids1 ++ j :: ids2))) = Some IndexError /\
  (nth_error (v_envs s) i = Some e -> visible e k ->
   (exists j1, In j1 ids1 /\ target (length (v_envs s)) j1 = Some i) ->
   exists e', nth_error (v_envs (fst (set_env_attr s k v (Some (ids1 ++ j :: ids2))))) i = Some e' /\ get_attr e' k = Some v).
Proof.
  intros V s k v ids1 ids2 j i e Hc Ha H1 Hj.
  assert (R : forall x, (exists j1, In j1 ids1 /\ target (length (v_envs s)) j1 = Some x) -> In x (reached (length (v_envs s)) (ids1 ++ j :: ids2))).
  { intros x. clear - H1. induction ids1 as [|a ids1 IH]; intros (j1 & Hin & T); [destruct Hin|].
    cbn. assert (Na := H1 a (or_introl eq_refl)). destruct (target (length (v_envs s)) a) as [y|] eqn:Ta; [|congruence].
    destruct Hin as [<-|Hin]; [left; congruence|right]. apply IH; [|eauto]. intros b Hb. apply H1. right. exact Hb. }
  split.
  - unfold set_env_attr. rewrite Hc, Ha. cbn [andb wrap_id].
    destruct (set_loop_spec k v (ids1 ++ j :: ids2) (v_envs s)) as (_ & _ & X).
    destruct (set_loop (v_envs s) k v (ids1 ++ j :: ids2)) as [l x]. cbn in *. rewrite X.
    rewrite forallb_app. cbn. rewrite Hj, andb_false_r. reflexivity.
  - intros He Hv Hex. destruct (set_spec s k v (Some (ids1 ++ j :: ids2))) as (_ & _ & _ & _ & _ & _ & Hs).
    destruct (Hs i e He) as (e' & Ee & Ew & Hin & _). exists e'. split; [exact Ee|].
    rewrite visible_get; [|unfold visible; rewrite Ew; exact Hv]. apply Hin. split.
    + split; [exact Hc|]. rewrite Ha. discriminate.
    + cbn [all_ids]. apply R. exact Hex.
Qed.

(** C280. In asynchronous mode a call with an id that is out of range or stepping, and any call after close, changes nothing. *)
Lemma C280_atomic_lemma : forall (V : Type) (s : venv V) (k : string) (v : V) (id : option (list Z)),
  v_closed s = true \/ v_async s = true /\ (exists j, In j (all_ids (length (v_envs s)) id) /\ ~ idle s j) ->
  set_env_attr s k v id = (s, Some AssertionError).
Proof.
  intros V s k v id H. unfold set_env_attr.
  destruct (admitted_dec s id) as [(A & Hc & Ha)|(NA & H')].
  - exfalso. destruct H as [H|(H & j & Hj & N)]; [congruence|]. destruct A as [_ A]. apply N. apply A; assumption.
  - destruct H' as [->|H']; [reflexivity|]. destruct (v_closed s); [reflexivity|]. rewrite H'. reflexivity.
Qed.

(** C280. A call that is admitted with all ids in range succeeds. *)
Lemma C280_success_lemma : forall (V : Type) (s : venv V) (k : string) (v : V) (id : option (list Z)),
  admitted s id -> (forall j, In j (all_ids (length (v_envs s)) id) -> target (length (v_envs s)) j <> None) ->
  snd (set_env_attr s k v id) = None.
Proof.
  intros V s k v id A H. unfold set_env_attr.
  destruct (admitted_dec s id) as [(_ & Hc & Ha)|(NA & _)]; [|contradiction]. rewrite Hc, Ha.
  destruct (set_loop_spec k v (wrap_id s id) (v_envs s)) as (_ & _ & X).
  destruct (set_loop (v_envs s) k v (wrap_id s id)) as [l x]. cbn in *. rewrite X.
  replace (forallb (fun j : Z => match target (length (v_envs s)) j with Some _ => true | None => false end) (wrap_id s id)) with true; [reflexivity|].
  symmetry. apply forallb_forall. intros j Hj. rewrite wrap_all in Hj. specialize (H j Hj). destruct (target (length (v_envs s)) j); congruence.
Qed.

(** C281. An environment in the same process without the attribute: AttributeError. *)
Lemma C281_dummy_lemma : forall (V : Type) (none : V) (s : venv V) (k : string) (j : Z) (i : nat) (e : env V),
  admitted s (Some [j]) -> target (length (v_envs s)) j = Some i -> nth_error (v_envs s) i = Some e -> get_attr e k = None ->
  v_kind s = Dummy -> get_env_attr none s k (Some [j]) = Err AttributeError.
Proof.
  intros V none s k j i e A T E G K. unfold get_env_attr.
  destruct (admitted_dec s (Some [j])) as [(_ & Hc & Ha)|(NA & _)]; [|contradiction].
  rewrite Hc. cbn [negb guard].
  rewrite (admits _ _ Ha).
  cbn [guard wrap_id mapM]. assert (N := target_norm (length (v_envs s)) j). rewrite T in N. destruct N as [N _].
  unfold zget. rewrite N. cbn [bind]. rewrite E. cbn [bind]. unfold worker_get. rewrite G, K. reflexivity.
Qed.
(** C281. In another process: None, as if that were the value. *)
Lemma C281_subproc_refuted_lemma : forall (V : Type) (none : V) (s : venv V) (k : string) (j : Z) (i : nat) (e : env V),
  admitted s (Some [j]) -> target (length (v_envs s)) j = Some i -> nth_error (v_envs s) i = Some e -> get_attr e k = None ->
  v_kind s = Subproc -> get_env_attr none s k (Some [j]) = Ok [none].
Proof.
  intros V none s k j i e A T E G K. unfold get_env_attr.
  destruct (admitted_dec s (Some [j])) as [(_ & Hc & Ha)|(NA & _)]; [|contradiction].
  rewrite Hc. cbn [negb guard].
  rewrite (admits _ _ Ha).
  cbn [guard wrap_id mapM]. assert (N := target_norm (length (v_envs s)) j). rewrite T in N. destruct N as [N _].
  unfold zget. rewrite N. cbn [bind]. rewrite E. cbn [bind]. unfold worker_get. rewrite G, K. reflexivity.
Qed.

(** C282. [venv.action_space] and the other reserved attributes are the list of those of the
    environments, when none is stepping. *)
Lemma C282_spaces_lemma : forall (V : Type) (none : V) (s : venv V) (k : string) (vs : list V),
  v_closed s = false -> (v_async s = true -> forall i, i < length (v_envs s) -> idle s (Z.of_nat i)) ->
  Forall2 (fun e v => get_attr e k = Some v) (v_envs s) vs ->
  reserved_attr none s k = Ok vs.
Proof.
  intros V none s k vs Hc Ha H. unfold reserved_attr. apply C279_get_lemma.
  - split; [exact Hc|]. intros As j Hj. cbn in Hj. apply in_map_iff in Hj as (i & <- & Hi). apply in_seq in Hi. apply Ha; [exact As|lia].
  - cbn [all_ids].
    assert (G : forall pre l vs, v_envs s = pre ++ l -> Forall2 (fun e v => get_attr e k = Some v) l vs ->
              Forall2 (fun j v => exists i e, target (length (v_envs s)) j = Some i /\ nth_error (v_envs s) i = Some e /\ get_attr e k = Some v)
                (map Z.of_nat (seq (length pre) (length l))) vs).
    { clear. intros pre l vs E H. revert pre E. induction H as [|e v l vs G _ IH]; intros pre E; [constructor|]. cbn. constructor.
      - exists (length pre), e. split.
        + unfold target. assert (L : length pre < length (v_envs s)) by (rewrite E, app_length; cbn; lia).
          replace ((- Z.of_nat (length (v_envs s)) <=? Z.of_nat (length pre)) && (Z.of_nat (length pre) <? Z.of_nat (length (v_envs s))))%Z with true
            by (symmetry; apply andb_true_intro; split; lia).
          rewrite Z.mod_small by lia. rewrite Nat2Z.id. reflexivity.
        + split; [|exact G]. rewrite E, nth_error_app2 by lia. rewrite Nat.sub_diag. reflexivity.
      - assert (E' : v_envs s = (pre ++ [e]) ++ l) by (rewrite <- app_assoc; exact E).
        specialize (IH (pre ++ [e]) E'). rewrite app_length in IH. cbn in IH. rewrite Nat.add_1_r in IH. exact IH. }
    exact (G [] (v_envs s) vs eq_refl H).
Qed.
(** C282. Not so while an environment of an asynchronous vector environment is stepping: AssertionError. *)
Lemma C282_stepping_refuted_lemma : forall (V : Type) (none : V) (s : venv V) (k : string) (i : nat),
  v_async s = true -> i < length (v_envs s) -> In (Z.of_nat i) (v_waiting s) ->
  reserved_attr none s k = Err AssertionError.
Proof.
  intros V none s k i Ha Hi Hw. unfold reserved_attr, get_env_attr.
  destruct (v_closed s); [reflexivity|]. cbn [negb guard]. rewrite Ha. cbn [negb orb].
  destruct (assert_id s (wrap_id s None)) eqn:E; [|reflexivity].
  exfalso. rewrite wrap_all in E. destruct (proj1 (assert_idle s _) E (Z.of_nat i)) as [_ N]; [|contradiction].
  cbn. apply in_map. apply in_seq. lia.
Qed.
