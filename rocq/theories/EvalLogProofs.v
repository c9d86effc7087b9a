From Verif Require Import Py PyLemmas Num StatModel EvalModel EvalSpec.
Open Scope nat_scope.
Open Scope list_scope.

(** ** Launchers *)
Lemma seq_loop_eq {St Exp Res} (run : St -> Exp -> St * res Res) exps : forall s succ failed, exists failed',
  seq_loop run s exps succ failed = (fst (run_all run s exps), (succ ++ successes (snd (run_all run s exps)), failed')).
Proof.
  induction exps as [|e exps IH]; intros s succ failed.
  - exists failed. cbn. rewrite app_nil_r. reflexivity.
  - cbn. unfold safe_execute. destruct (run s e) as [s1 [r|x]]; destruct (run_all run s1 exps) as [s2 rs] eqn:E.
    + destruct (IH s1 (succ ++ [r]) failed) as [f H]. exists f. rewrite H, E. cbn. rewrite <- app_assoc. reflexivity.
    + destruct (IH s1 succ (failed ++ [e])) as [f H]. exists f. rewrite H, E. cbn. reflexivity.
Qed.
(** C218. Several experiments are all run, one after the other and whatever the earlier ones did; the
    results of those that did not fail are returned in order, and RuntimeError is raised if there is none. *)
Lemma C218_sequential_lemma : forall (St Exp Res : Type) (run : St -> Exp -> St * res Res) s exps, length exps <> 1 ->
  launch_sequential run s exps = (fst (run_all run s exps),
    match successes (snd (run_all run s exps)) with [] => Err RuntimeError | l => Ok l end).
Proof.
  intros St Exp Res run s exps Hl. destruct (seq_loop_eq run exps s [] []) as [f H].
  assert (E : launch_sequential run s exps = let '(s, (succ, _)) := seq_loop run s exps [] [] in (s, return_stats succ)).
  { destruct exps as [|e [|e' exps]]; [reflexivity|cbn in Hl; contradiction|reflexivity]. }
  rewrite E, H. cbn [app]. f_equal. destruct (successes (snd (run_all run s exps))); reflexivity.
Qed.
Lemma run_all_indep {St Exp Res} (run : St -> Exp -> St * res Res) : (forall s s' e, snd (run s e) = snd (run s' e)) ->
  forall exps s s0, snd (run_all run s exps) = map (fun e => snd (run s0 e)) exps.
Proof.
  intros H. induction exps as [|e exps IH]; intros s s0; [reflexivity|]. cbn.
  specialize (H s s0 e). destruct (run s e) as [s1 r]. specialize (IH s1 s0). destruct (run_all run s1 exps) as [s2 rs]. cbn in *. congruence.
Qed.
(** C218. Experiments that do not depend on each other give the same when they are run in parallel. *)
Lemma C218_joblib_lemma : forall (St Exp Res : Type) (run : St -> Exp -> St * res Res) s exps,
  (forall s s' e, snd (run s e) = snd (run s' e)) ->
  launch_joblib run s exps = snd (launch_sequential run s exps).
Proof.
  intros St Exp Res run s exps H. destruct (Nat.eq_dec (length exps) 1) as [E|E].
  - destruct exps as [|e [|e' exps]]; try discriminate E. cbn. destruct (run s e) as [s1 [r|x]]; reflexivity.
  - rewrite (C218_sequential_lemma St Exp Res run s exps E), (run_all_indep run H exps s s). cbn [snd].
    assert (G : launch_joblib run s exps = return_stats (flat_map (fun r => match r with Some x => [x] | None => [] end) (map (fun e => snd (safe_execute run s e)) exps))).
    { destruct exps as [|e [|e' exps]]; [reflexivity|cbn in E; contradiction|reflexivity]. }
    rewrite G. unfold successes. clear G E.
    assert (Q : forall exps, flat_map (fun r : option Res => match r with Some x => [x] | None => [] end) (map (fun e => snd (safe_execute run s e)) exps)
      = flat_map (fun r : res Res => match r with Ok x => [x] | Err _ => [] end) (map (fun e => snd (run s e)) exps)).
    { induction exps0 as [|e l IH]; [reflexivity|]. cbn. rewrite IH. unfold safe_execute. destruct (run s e) as [s1 [r|x]]; reflexivity. }
    rewrite Q. destruct (flat_map _ _); reflexivity.
Qed.
(** C218. "A RuntimeError is only raised if all experiments have failed": a single experiment is run without
    the protection, so that its own exception comes out, and no experiment at all counts as a failure. *)
Lemma C218_single_refuted_lemma : forall (St Exp Res : Type) (run : St -> Exp -> St * res Res) s,
  (forall e s' x, run s e = (s', Err x) -> launch_sequential run s [e] = (s', Err x) /\ launch_joblib run s [e] = Err x) /\
  launch_sequential run s [] = (s, Err RuntimeError) /\ launch_joblib run s [] = Err RuntimeError.
Proof.
  intros. split; [|split; reflexivity]. intros e s' x H. cbn. rewrite H. split; reflexivity.
Qed.

(** ** Keys *)
Lemma char_eqb_spec a b : reflect (a = b) (char_eqb a b).
Proof. destruct a, b; cbn; try (constructor; congruence). destruct (Nat.eqb_spec n n0); constructor; congruence. Qed.
Lemma key_eqb_spec a : forall b, reflect (a = b) (key_eqb a b).
Proof.
  induction a as [|x a IH]; intros [|y b]; cbn; try (constructor; congruence).
  destruct (char_eqb_spec x y) as [->|H]; cbn; [|constructor; congruence]. destruct (IH b) as [->|H]; constructor; congruence.
Qed.
Lemma key_eqb_refl a : key_eqb a a = true.
Proof. destruct (key_eqb_spec a a); congruence. Qed.
Lemma get_put {X} k k' (x : X) l : get k (put k' x l) = if key_eqb k k' then Some x else get k l.
Proof.
  induction l as [|[k0 y] l IH]; cbn; [reflexivity|].
  destruct (key_eqb_spec k' k0) as [->|H]; cbn.
  - destruct (key_eqb_spec k k0); reflexivity.
  - rewrite IH. destruct (key_eqb_spec k k0) as [->|H']; [|reflexivity]. destruct (key_eqb_spec k0 k'); congruence.
Qed.
Lemma put_keys {X} k (x : X) l q : In q (map fst (put k x l)) <-> q = k \/ In q (map fst l).
Proof.
  induction l as [|[k0 y] l IH]; cbn; [intuition|]. destruct (key_eqb_spec k k0) as [->|H]; cbn; [intuition|].
  change ((fix put (l0 : list (list char * X)) : list (list char * X) := match l0 with [] => [(k, x)] | (k', y0) :: l1 => if key_eqb k k' then (k', x) :: l1 else (k', y0) :: put l1 end) l) with (put k x l).
  rewrite IH. intuition.
Qed.
Lemma put_nodup {X} k (x : X) l : NoDup (map fst l) -> NoDup (map fst (put k x l)).
Proof.
  induction l as [|[k0 y] l IH]; cbn; intros H; [repeat constructor; intros []|].
  inversion H as [|? ? H1 H2]; subst. destruct (key_eqb_spec k k0) as [->|N]; cbn; [constructor; assumption|].
  constructor; [|apply IH, H2]. intros C. apply (put_keys k x l) in C. destruct C; congruence.
Qed.
Lemma get_in {X} k (x : X) l : get k l = Some x -> In (k, x) l.
Proof. induction l as [|[k0 y] l IH]; cbn; [discriminate|]. destruct (key_eqb_spec k k0) as [->|H]; [intros [= ->]; left; reflexivity|intros Q; right; apply IH, Q]. Qed.
Lemma in_get {X} k (x : X) l : NoDup (map fst l) -> In (k, x) l -> get k l = Some x.
Proof.
  induction l as [|[k0 y] l IH]; cbn; intros N; [intros []|]. inversion N as [|? ? H1 H2]; subst.
  intros [E|H]; [injection E as -> ->; rewrite key_eqb_refl; reflexivity|].
  destruct (key_eqb_spec k k0) as [->|E]; [|apply IH; assumption]. exfalso. apply H1. apply in_map_iff. exists (k0, x). split; [reflexivity|exact H].
Qed.
Lemma get_none {X} k (l : list (list char * X)) : get k l = None <-> ~ In k (map fst l).
Proof.
  induction l as [|[k0 y] l IH]; cbn; [intuition|]. destruct (key_eqb_spec k k0) as [->|H]; [split; [discriminate|intros Q; exfalso; apply Q; left; reflexivity]|].
  rewrite IH. intuition.
Qed.

(** Splitting and joining *)
Lemma split_ne k : split_key k <> [].
Proof. destruct k as [|[|n] k]; cbn; try discriminate. destruct (split_key k); discriminate. Qed.
Lemma join_cons k p : p <> [] -> join (k :: p) = k ++ Slash :: join p.
Proof. destruct p; [contradiction|reflexivity]. Qed.
Lemma join_split k : join (split_key k) = k.
Proof.
  induction k as [|c k IH]; [reflexivity|]. destruct c as [|n].
  - cbn [split_key]. rewrite join_cons by apply split_ne. rewrite IH. reflexivity.
  - cbn [split_key]. destruct (split_key k) as [|s r] eqn:E; [exfalso; exact (split_ne k E)|].
    destruct r as [|s' r]; [cbn in *; congruence|]. rewrite join_cons by discriminate. rewrite join_cons in IH by discriminate. cbn [app]. congruence.
Qed.
Lemma split_inj a b : split_key a = split_key b -> a = b.
Proof. intros H. rewrite <- (join_split a), <- (join_split b), H. reflexivity. Qed.
Lemma split_one k : no_slash k -> split_key k = [k].
Proof.
  induction k as [|[|n] k IH]; intros H; [reflexivity|exfalso; apply H; left; reflexivity|].
  cbn. rewrite IH; [reflexivity|]. intros C. apply H. right. exact C.
Qed.
Lemma split_app k r : no_slash k -> split_key (k ++ Slash :: r) = k :: split_key r.
Proof.
  induction k as [|[|n] k IH]; intros H; [reflexivity|exfalso; apply H; left; reflexivity|].
  cbn [app split_key]. rewrite IH; [reflexivity|]. intros C. apply H. right. exact C.
Qed.
Lemma split_join p : p <> [] -> Forall no_slash p -> split_key (join p) = p.
Proof.
  induction p as [|k p IH]; intros Hp F; [contradiction|]. inversion F; subst. destruct p as [|k' p]; [apply split_one; assumption|].
  rewrite join_cons by discriminate. rewrite split_app by assumption. rewrite IH; [reflexivity|discriminate|assumption].
Qed.
Lemma clean_ns p : Forall clean p -> Forall no_slash p.
Proof. intros F. eapply Forall_impl; [|exact F]. intros k [_ H]. exact H. Qed.
Lemma join_inj p q : p <> [] -> q <> [] -> Forall clean p -> Forall clean q -> join p = join q -> p = q.
Proof. intros Hp Hq Fp Fq E. rewrite <- (split_join p Hp (clean_ns _ Fp)), <- (split_join q Hq (clean_ns _ Fq)), E. reflexivity. Qed.
Lemma join_snoc p k : p <> [] -> join (p ++ [k]) = join p ++ Slash :: k.
Proof.
  induction p as [|a p IH]; intros H; [contradiction|]. destruct p as [|b p]; [reflexivity|].
  change ((a :: b :: p) ++ [k]) with (a :: ((b :: p) ++ [k])). rewrite join_cons; [|destruct p; discriminate].
  rewrite IH by discriminate. rewrite (join_cons a (b :: p)) by discriminate. rewrite <- app_assoc. reflexivity.
Qed.
Lemma lstrip_clean k : clean k -> lstrip k = k.
Proof. intros [H1 H2]. destruct k as [|[|n] k]; [contradiction|exfalso; apply H2; left; reflexivity|reflexivity]. Qed.
Lemma join_head p : p <> [] -> Forall clean p -> exists n r, join p = Ch n :: r.
Proof.
  intros Hp F. destruct p as [|k p]; [contradiction|]. inversion F as [|? ? [H1 H2]]; subst.
  destruct k as [|[|n] k]; [contradiction|exfalso; apply H2; left; reflexivity|].
  destruct p as [|k' p]; [exists n, k; reflexivity|]. rewrite join_cons by discriminate. eexists n, _. reflexivity.
Qed.
Lemma new_key p k : Forall clean p -> clean k -> lstrip (join p ++ Slash :: k) = join (p ++ [k]).
Proof.
  intros F C. destruct p as [|a p]; [cbn; apply lstrip_clean, C|]. assert (Hp : a :: p <> []) by discriminate. destruct (join_head (a :: p) Hp F) as (n & r & E).
  rewrite join_snoc by discriminate. rewrite E. reflexivity.
Qed.
(** ** Flattening *)
Fixpoint go_add (prefix : list char) (l : list (list char * ldata)) (result : list (list char * Qc)) : list (list char * Qc) :=
  match l with
  | [] => result
  | (k, v) :: l =>
      let new_key := lstrip (prefix ++ Slash :: k) in
      go_add prefix l (match v with
                | LArr _ | LOther => result
                | LDict _ => add_to_result v new_key result
                | LNum q => put new_key q result
                end)
  end.
Lemma add_dict l prefix result : add_to_result (LDict l) prefix result = go_add prefix l result.
Proof.
  cbn [add_to_result]. revert result. induction l as [|[k v] l IH]; intros result; [reflexivity|]. cbn [go_add]. rewrite <- IH. reflexivity.
Qed.
Definition item (v : ldata) (nk : list char) (result : list (list char * Qc)) : list (list char * Qc) :=
  match v with LArr _ | LOther => result | LDict _ => add_to_result v nk result | LNum q => put nk q result end.
Definition or_else {X} (a b : option X) : option X := match a with Some _ => a | None => b end.
(** What an item does to the value of a path. *)
Definition effect (v : ldata) : Prop := forall pth res, pth <> [] -> Forall clean pth ->
  (forall rest, Forall clean rest -> get (join (pth ++ rest)) (item v (join pth) res) = or_else (value_at rest v) (get (join (pth ++ rest)) res)) /\
  (forall path, path <> [] -> Forall clean path -> (forall rest, path <> pth ++ rest) -> get (join path) (item v (join pth) res) = get (join path) res).
Lemma app_tail_neq (a : list (list char)) k k' r r' : k <> k' -> a ++ k :: r <> a ++ k' :: r'.
Proof. intros H E. apply app_inv_head in E. congruence. Qed.
Lemma dict_effect l : NoDup (map fst l) -> (forall k d, In (k, d) l -> clean k) -> (forall k d, In (k, d) l -> effect d) ->
  forall pth res, Forall clean pth ->
  (forall rest, rest <> [] -> Forall clean rest -> get (join (pth ++ rest)) (go_add (join pth) l res) = or_else (value_at rest (LDict l)) (get (join (pth ++ rest)) res)) /\
  (forall path, path <> [] -> Forall clean path -> (forall rest, path <> pth ++ rest) -> get (join path) (go_add (join pth) l res) = get (join path) res).
Proof.
  induction l as [|[k v] l IH]; intros N C E pth res F.
  - split; [|reflexivity]. intros [|k rest] Hr Fr; [contradiction|]. reflexivity.
  - cbn [map fst] in N. inversion N as [|? ? N1 N2]; subst.
    assert (Ck : clean k) by (apply (C k v); left; reflexivity).
    assert (Ev : effect v) by (apply (E k v); left; reflexivity).
    assert (Fp : Forall clean (pth ++ [k])) by (apply Forall_app; split; [exact F|constructor; [exact Ck|constructor]]).
    assert (Hp : pth ++ [k] <> []) by (destruct pth; discriminate).
    specialize (IH N2 (fun k d H => C k d (or_intror H)) (fun k d H => E k d (or_intror H)) pth).
    cbn [go_add]. rewrite (new_key pth k F Ck). fold (item v (join (pth ++ [k])) res).
    destruct (IH (item v (join (pth ++ [k])) res) F) as [I1 I2]. destruct (Ev (pth ++ [k]) res Hp Fp) as [V1 V2].
    split.
    + intros [|k' rest] Hr Fr; [contradiction|]. inversion Fr; subst. rewrite I1 by assumption. cbn [value_at get].
      destruct (key_eqb_spec k' k) as [->|Nk].
      * assert (G : get k l = None) by (apply get_none; exact N1). rewrite G. cbn [or_else].
        specialize (V1 rest ltac:(assumption)). rewrite <- app_assoc in V1. exact V1.
      * destruct (match get k' l with Some d' => value_at rest d' | None => None end) as [q|]; [reflexivity|]. cbn [or_else].
        apply V2; [destruct pth; discriminate|apply Forall_app; split; assumption|].
        intros r. rewrite <- app_assoc. apply app_tail_neq. exact Nk.
    + intros path Hpath Fpath Hn. rewrite I2 by assumption. apply V2; [assumption|assumption|]. intros r. rewrite <- app_assoc. apply Hn.
Qed.
Lemma good_effect d : good d -> effect d.
Proof.
  induction 1 as [q|a| |l N C G IH]; intros pth res Hp F.
  - cbn [item]. split.
    + intros rest Fr. rewrite get_put. destruct rest as [|k rest].
      * rewrite app_nil_r, key_eqb_refl. reflexivity.
      * destruct (key_eqb_spec (join (pth ++ k :: rest)) (join pth)) as [E|E]; [|reflexivity]. exfalso.
        apply join_inj in E; [|destruct pth; discriminate|exact Hp|apply Forall_app; split; assumption|exact F].
        apply (f_equal (@length _)) in E. rewrite app_length in E. cbn in E. lia.
    + intros path Hpath Fpath Hn. rewrite get_put. destruct (key_eqb_spec (join path) (join pth)) as [E|E]; [|reflexivity]. exfalso.
      apply join_inj in E; try assumption. apply (Hn []). rewrite app_nil_r. exact E.
  - cbn [item]. split; [|reflexivity]. intros rest _. destruct rest; reflexivity.
  - cbn [item]. split; [|reflexivity]. intros rest _. destruct rest; reflexivity.
  - cbn [item]. rewrite add_dict. destruct (dict_effect l N C IH pth res F) as [D1 D2]. split; [|exact D2].
    intros [|k rest] Fr; [|apply D1; [discriminate|exact Fr]].
    (* the path of the dict itself: nothing is put there *)
    cbn [value_at or_else]. rewrite app_nil_r. clear D1 D2. revert res. clear G. revert N C IH.
    induction l as [|[k v] l IHl]; intros N C IH res; [reflexivity|]. inversion N as [|? ? N1 N2]; subst.
    assert (Ck : clean k) by (apply (C k v); left; reflexivity).
    cbn [go_add]. rewrite (new_key pth k F Ck). fold (item v (join (pth ++ [k])) res).
    rewrite IHl; [|exact N2|intros; eapply C; right; eassumption|intros; eapply IH; right; eassumption].
    destruct (IH k v (or_introl eq_refl) (pth ++ [k]) res) as [_ V2]; [destruct pth; discriminate|apply Forall_app; split; [exact F|constructor; [exact Ck|constructor]]|].
    apply V2; [exact Hp|exact F|]. intros r E. rewrite <- app_assoc in E. apply (f_equal (@length _)) in E. rewrite app_length in E. cbn in E. lia.
Qed.
Lemma add_nodup d : forall prefix res, NoDup (map fst res) -> NoDup (map fst (add_to_result d prefix res)).
Proof.
  revert d. fix IH 1. intros d prefix res H. destruct d as [q|a|l|]; try exact H. rewrite add_dict.
  revert res H. induction l as [|[k v] l IHl]; intros res H; [exact H|]. cbn [go_add]. apply IHl.
  pose proof (IH v (lstrip (prefix ++ Slash :: k)) res H) as Hv.
  destruct v as [q|a|l'|]; [apply put_nodup, H|exact H|exact Hv|exact H].
Qed.
Definition clean_key (k : list char) : Prop := exists path, path <> [] /\ Forall clean path /\ k = join path.
Lemma add_keys d : good d -> forall pth res, Forall clean pth -> (forall k, In k (map fst res) -> clean_key k) ->
  forall k, In k (map fst (add_to_result d (join pth) res)) -> clean_key k.
Proof.
  induction 1 as [q|a| |l N C G IH]; intros pth res F H; try exact H. rewrite add_dict. clear N G. revert res H C IH.
  induction l as [|[k v] l IHl]; intros res H C IH; [exact H|]. cbn [go_add].
  assert (Ck : clean k) by (apply (C k v); left; reflexivity). rewrite (new_key pth k F Ck).
  assert (Fp : Forall clean (pth ++ [k])) by (apply Forall_app; split; [exact F|constructor; [exact Ck|constructor]]).
  apply IHl; [|intros; eapply C; right; eassumption|intros; eapply IH; [right; eassumption| | |]; eassumption].
  pose proof (IH k v (or_introl eq_refl)) as IHv.
  destruct v as [q|a|l'|]; [|exact H|apply (IHv (pth ++ [k]) res Fp H)|exact H].
  intros k0 H0. apply put_keys in H0. destruct H0 as [->|H0]; [|exact (H k0 H0)].
  exists (pth ++ [k]). split; [destruct pth; discriminate|]. split; [exact Fp|reflexivity].
Qed.
(** C219. Flattening nested data whose keys are not empty and free of the delimiter: under the joined path
    every number is found and nothing else, with one entry for each. *)
Lemma C219_flatten_lemma : forall l, good (LDict l) ->
  NoDup (map fst (prepare l)) /\
  (forall k, In k (map fst (prepare l)) -> exists path, path <> [] /\ Forall clean path /\ k = join path) /\
  forall path, path <> [] -> Forall clean path -> get (join path) (prepare l) = value_at path (LDict l).
Proof.
  intros l G. unfold prepare. split; [apply add_nodup; constructor|]. split.
  - apply (add_keys _ G [] []); [constructor|intros k []].
  - intros path Hp Fp. rewrite add_dict. inversion G as [| | |? N C Gd]; subst.
    destruct (dict_effect l N C (fun k d H => good_effect d (Gd k d H)) [] [] (Forall_nil _)) as [D _].
    specialize (D path Hp Fp). cbn [app join] in D. rewrite D. destruct (value_at path (LDict l)); reflexivity.
Qed.
(** C219. With the delimiter in a key (as in "save/epoch") or at its beginning, different numbers get the same key
    and only the last is kept. *)
Lemma C219_collision_refuted_lemma :
  (exists l p p' q q', NoDup (map fst l) /\ p <> p' /\ q <> q' /\ value_at p (LDict l) = Some q /\ value_at p' (LDict l) = Some q' /\
    join p = join p' /\ length (prepare l) = 1) /\
  (exists l k k' q q', NoDup (map fst l) /\ k <> k' /\ value_at [k] (LDict l) = Some q /\ value_at [k'] (LDict l) = Some q' /\ length (prepare l) = 1).
Proof.
  split.
  - exists [([Ch 0; Slash; Ch 1], LNum 1); ([Ch 0], LDict [([Ch 1], LNum 0)])], [[Ch 0; Slash; Ch 1]], [[Ch 0]; [Ch 1]], 1%Qc, 0%Qc.
    split; [repeat constructor; cbn; intuition discriminate|]. split; [discriminate|]. split; [discriminate|]. repeat split.
  - exists [([Slash; Ch 0], LNum 1); ([Ch 0], LNum 0)], [Slash; Ch 0], [Ch 0], 1%Qc, 0%Qc.
    split; [repeat constructor; cbn; intuition discriminate|]. split; [discriminate|]. repeat split.
Qed.
