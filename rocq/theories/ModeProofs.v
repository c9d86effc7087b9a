(** * Modes, state dicts and noise: proofs *)
From Verif Require Import Py PyLemmas Num NetModel ModeModel ModeSpec.
Open Scope nat_scope.

(** ** Induction over policies *)
Definition pol_induction (P : pol -> Prop) (HB : forall k s l, P (Base k s l)) (HI : forall s p m, P p -> P (Icm s p m))
  (HM : forall s ps, Forall P ps -> P (Mgr s ps)) : forall p, P p :=
  fix IH p := match p with
    | Base k s l => HB k s l
    | Icm s p m => HI s p m (IH p)
    | Mgr s ps => HM s ps ((fix go ps := match ps return Forall P ps with [] => Forall_nil P | p :: ps => Forall_cons p (IH p) (go ps) end) ps) end.

(** The networks of a policy are those of its class. *)
Definition names (k : kind) : list nname := given k ++ map (fun c => fst (fst c)) (copies k).
Inductive wf : pol -> Prop :=
  | W_base k s l : map fst l = names k -> wf (Base k s l)
  | W_icm s p m : wf p -> wf (Icm s p m)
  | W_mgr s ps : (forall p, In p ps -> wf p) -> wf (Mgr s ps).

Lemma set_modes_fst f b l : map fst (set_modes f b l) = map fst l.
Proof. unfold set_modes. rewrite map_map. reflexivity. Qed.
Lemma built_wf p : built p -> wf p.
Proof.
  induction 1; constructor; auto. unfold names. rewrite map_app, !map_map. cbn. rewrite map_id. reflexivity.
Qed.
Lemma train_wf b p : wf p -> wf (train b p).
Proof.
  induction 1; cbn; constructor; auto.
  - destruct (switched k); rewrite set_modes_fst; assumption.
  - intros p Hp. apply in_map_iff in Hp. destruct Hp as (q & <- & Hq). auto.
Qed.
Lemma learn_wf p : wf p -> wf (learn p).
Proof.
  induction 1; cbn; try (constructor; auto; fail).
  - destruct k as [| [] [] | | | | | | | | |]; constructor; try rewrite set_modes_fst; assumption.
  - constructor. intros p Hp. apply in_map_iff in Hp. destruct Hp as (q & <- & Hq). auto.
Qed.
Lemma act_wf o p : wf p -> wf (act o p).
Proof. intros. destruct o; cbn; unfold train_mode; auto using train_wf, learn_wf. Qed.
Lemma run_wf os : forall p, wf p -> wf (run os p).
Proof. induction os; cbn; auto using act_wf. Qed.
Lemma run_app a b p : run (a ++ b) p = run b (run a p).
Proof. apply fold_left_app. Qed.
Lemma within_wf o p : wf p -> wf (within o p).
Proof. destruct o; cbn; auto using train_wf, learn_wf. Qed.

Lemma kinds_train b p : kinds (train b p) = kinds p.
Proof.
  induction p as [k s l | s p m IH | s ps IH] using pol_induction; cbn; auto.
  induction IH as [|p ps H _ IH]; cbn; congruence.
Qed.
Lemma kinds_learn p : kinds (learn p) = kinds p.
Proof.
  induction p as [k s l | s p m IH | s ps IH] using pol_induction; cbn; auto.
  - destruct k as [| [] [] | | | | | | | | |]; reflexivity.
  - induction IH as [|p ps H _ IH]; cbn; congruence.
Qed.
Lemma kinds_act o p : kinds (act o p) = kinds p.
Proof. destruct o; cbn; unfold train_mode; rewrite ?kinds_train, ?kinds_learn, ?kinds_train; reflexivity. Qed.
Lemma kinds_run os : forall p, kinds (run os p) = kinds p.
Proof. induction os as [|o os IH]; intros p; cbn; [reflexivity|]. fold (run os (act o p)). rewrite IH. apply kinds_act. Qed.

Lemma mem_in l n : mem l n = true <-> In n l.
Proof. unfold mem. destruct (in_dec nname_eq n l); split; intro; auto; discriminate. Qed.

(** What [train] does to the networks: all but the targets for the classes it reaches. *)
Definition switch_to (b : bool) (l : modes) : modes := map (fun q => (fst q, if is_target (fst q) then snd q else b)) l.
Lemma train_base k s l b : map fst l = names k -> reaches_online k = true -> spares_targets k = true ->
  nets (train b (Base k s l)) = switch_to b l.
Proof.
  intros Hl Hr Hk. cbn. unfold set_modes, switch_to.
  assert (He : forall (f g : nname -> bool), (forall n, In n (names k) -> f n = negb (g n)) ->
     map (fun q => (fst q, if f (fst q) then b else snd q)) l = map (fun q => (fst q, if g (fst q) then snd q else b)) l).
  { intros f g H. apply map_ext_in. intros [n c] Hin. cbn. rewrite (H n); [destruct (g n); reflexivity|]. rewrite <- Hl. apply (in_map fst _ _ Hin). }
  destruct (switched k) eqn:E; [apply (He (mem l0) is_target) | apply (He (fun _ => true) is_target)]; intros n Hn;
    destruct k as [t | t ny | t | | | | | | | | t]; try destruct t; try discriminate Hr; try discriminate Hk;
    cbn in E; try discriminate E; try (injection E as <-); cbn in Hn; repeat (destruct Hn as [<- | Hn]; [reflexivity|]); destruct Hn.
Qed.

Lemma flat_in (f : pol -> modes) ps q : In q (flat_map f ps) <-> exists p, In p ps /\ In q (f p).
Proof. apply in_flat_map. Qed.
Definition all_kinds (c : kind -> bool) (p : pol) : Prop := forall k, In k (kinds p) -> c k = true.
Lemma all_kinds_in c s ps p : all_kinds c (Mgr s ps) -> In p ps -> all_kinds c p.
Proof. intros H Hp k Hk. apply H. cbn. apply in_flat_map. eauto. Qed.

Lemma train_nets b p : wf p -> all_kinds reaches_online p -> all_kinds spares_targets p -> nets (train b p) = switch_to b (nets p).
Proof.
  induction 1 as [k s l Hl | s p m H IH | s ps H IH]; intros Ha Hb.
  - apply train_base; auto; [apply Ha | apply Hb]; left; reflexivity.
  - apply IH; [exact Ha | exact Hb].
  - cbn. unfold switch_to. rewrite flat_map_concat_map, map_map, (flat_map_concat_map nets), concat_map, map_map. f_equal.
    apply map_ext_in. intros p Hp. apply IH; eauto using all_kinds_in.
Qed.
Lemma train_icms b p : icms (train b p) = map (fun _ => b) (icms p).
Proof.
  induction p as [k s l | s p m IH | s ps IH] using pol_induction; cbn; auto; [congruence|].
  induction IH as [|p ps H _ IH]; cbn; [reflexivity|]. rewrite map_app, H, IH. reflexivity.
Qed.
Lemma all_kinds_run c os p : all_kinds c p -> all_kinds c (run os p).
Proof. unfold all_kinds. rewrite kinds_run. auto. Qed.
(** C228 (restricted to the classes whose [train] reaches their online networks and spares the targets): after any history [train(b)] puts every
    online network (and every curiosity model) into mode [b] and leaves every target network as it is. *)
Lemma C228_train_partial_lemma : forall (p : pol) (os : list op) (b : bool), built p ->
  (forall k, In k (kinds p) -> reaches_online k = true /\ spares_targets k = true) ->
  nets (train b (run os p)) = map (fun q => (fst q, if is_target (fst q) then snd q else b)) (nets (run os p)) /\
  icms (train b (run os p)) = map (fun _ => b) (icms (run os p)).
Proof.
  intros p os b Hb Hk. split; [|apply train_icms].
  apply train_nets; [apply run_wf, built_wf, Hb | |]; apply all_kinds_run; intros k Hin; apply Hk; exact Hin.
Qed.

Lemma mode_of_set f b n l : mode_of n (set_modes f b l) = if f n then option_map (fun _ => b) (mode_of n l) else mode_of n l.
Proof.
  unfold mode_of, set_modes. induction l as [|[x c] l IH]; cbn; [destruct (f n); reflexivity|].
  destruct (nname_eq x n) as [-> | Hx]; cbn; [destruct (f n); reflexivity | exact IH].
Qed.
(** A network that neither [train] nor [learn] names. *)
Definition never (k : kind) (n : nname) : Prop :=
  (exists ns, switched k = Some ns /\ mem ns n = false) /\ (n = ModelOld -> k <> KRainbow true true).
Lemma base_train b k s l : exists s' l', train b (Base k s l) = Base k s' l' /\ (forall n, never k n -> mode_of n l' = mode_of n l).
Proof.
  cbn. eexists. eexists. split; [reflexivity|]. intros n ((ns & E & Hn) & _). rewrite E, mode_of_set, Hn. reflexivity.
Qed.
Lemma base_learn k s l : exists s' l', learn (Base k s l) = Base k s' l' /\ (forall n, never k n -> mode_of n l' = mode_of n l).
Proof.
  cbn. destruct k as [| [] [] | | | | | | | | |]; try (eexists; eexists; split; [reflexivity | reflexivity]).
  eexists. eexists. split; [reflexivity|]. intros n (_ & Hn). rewrite mode_of_set.
  assert (H : mem [ModelOld] n = false). { unfold mem. destruct (in_dec nname_eq n [ModelOld]) as [[<- | []] | _]; [destruct Hn; reflexivity | reflexivity]. }
  rewrite H. reflexivity.
Qed.
Lemma base_act o k s l : exists s' l', act o (Base k s l) = Base k s' l' /\ (forall n, never k n -> mode_of n l' = mode_of n l).
Proof.
  destruct o; cbn [act]; unfold train_mode; [apply base_train | |].
  - destruct (base_train false k s l) as (s1 & l1 & -> & H1). destruct (base_train (self_of (Base k s l)) k s1 l1) as (s2 & l2 & -> & H2).
    exists s2, l2. split; [reflexivity|]. intros n Hn. rewrite H2, H1; auto.
  - destruct (base_train true k s l) as (s1 & l1 & -> & H1). destruct (base_learn k s1 l1) as (s2 & l2 & -> & H2).
    destruct (base_train (self_of (Base k s l)) k s2 l2) as (s3 & l3 & -> & H3). exists s3, l3. split; [reflexivity|]. intros n Hn. rewrite H3, H2, H1; auto.
Qed.
Lemma base_run os : forall k s l, exists s' l', run os (Base k s l) = Base k s' l' /\ (forall n, never k n -> mode_of n l' = mode_of n l).
Proof.
  induction os as [|o os IH]; intros k s l; [exists s, l; split; [reflexivity | auto]|].
  change (run (o :: os) (Base k s l)) with (run os (act o (Base k s l))). destruct (base_act o k s l) as (s1 & l1 & -> & H1).
  destruct (IH k s1 l1) as (s2 & l2 & -> & H2). exists s2, l2. split; [reflexivity|]. intros n Hn. rewrite H2, H1; auto.
Qed.
Lemma mgr_run os : forall s ps, self_of (run os (Mgr s ps)) = s.
Proof.
  induction os as [|o os IH]; intros s ps; [reflexivity|].
  change (run (o :: os) (Mgr s ps)) with (run os (act o (Mgr s ps))). destruct o; cbn; apply IH.
Qed.
(** C228.  Some networks are never switched: the fraction proposal network of FQF, the VAE of BCQ; and the flag of the multi-agent manager itself
    never changes, whatever is called on it. *)
Lemma C228_missed_refuted_lemma : forall (t : bool) (m : nname -> bool) (os : list op) (ps : list pol) (s : bool),
  mode_of Fraction (nets (run os (make (KFqf t) m))) = Some (m Fraction) /\ mode_of Vae (nets (run os (make KBcq m))) = Some (m Vae) /\
  self_of (run os (Mgr s ps)) = s.
Proof.
  intros t m os ps s. unfold make. split; [|split; [|apply mgr_run]].
  - destruct (base_run os (KFqf t) true (map (fun n => (n, m n)) (given (KFqf t)) ++ map (fun c : nname * nname * bool => (fst (fst c), if snd c then false else m (snd (fst c)))) (copies (KFqf t)))) as (s' & l' & -> & H).
    cbn [nets]. rewrite H; [reflexivity|]. split; [exists [Model]; split; reflexivity | discriminate].
  - destruct (base_run os KBcq true (map (fun n => (n, m n)) (given KBcq) ++ map (fun c : nname * nname * bool => (fst (fst c), if snd c then false else m (snd (fst c)))) (copies KBcq))) as (s' & l' & -> & H).
    cbn [nets]. rewrite H; [reflexivity|]. split; [exists [Perturb; Critic; Critic2]; split; reflexivity | discriminate].
Qed.

(** ** Targets *)
Definition targets_eval (p : pol) : Prop := forall n b, In (n, b) (nets p) -> is_target n = true -> b = false.
Lemma build_targets p : built p -> all_kinds keeps_targets p -> targets_eval p.
Proof.
  induction 1 as [k m | s p m H IH | s ps H IH]; intros Hk n b Hin Ht.
  - specialize (Hk k (or_introl eq_refl)). cbn in Hin. apply in_app_or in Hin. destruct Hin as [Hin | Hin]; apply in_map_iff in Hin.
    + destruct Hin as (x & [= <- <-] & Hx).
      destruct k as [[]| [] []|[]|  |  |  |  |  |  | | []]; cbn in Hx; repeat (destruct Hx as [<- | Hx]; [discriminate Ht|]); destruct Hx.
    + destruct Hin as ([[x y] e] & [= <- <-] & Hx).
      destruct k as [[]| [] []|[]|  |  |  |  |  |  | | []]; try discriminate Hk; cbn in Hx; repeat (destruct Hx as [Hx | Hx]; [injection Hx as <- <- <-; reflexivity|]); destruct Hx.
  - exact (IH Hk n b Hin Ht).
  - cbn in Hin. apply in_flat_map in Hin. destruct Hin as (p & Hp & Hin). exact (IH p Hp (all_kinds_in _ _ _ _ Hk Hp) n b Hin Ht).
Qed.
Lemma set_keeps k f b l : (forall n, In n (names k) -> is_target n = true -> f n = false) -> map fst l = names k ->
  (forall n c, In (n, c) l -> is_target n = true -> c = false) -> forall n c, In (n, c) (set_modes f b l) -> is_target n = true -> c = false.
Proof.
  intros Hf Hl H n c Hin Ht. apply in_map_iff in Hin. destruct Hin as ([x y] & [= <- <-] & Hx).
  rewrite Hf; auto; [eapply H; eauto|]. rewrite <- Hl. apply (in_map fst _ _ Hx).
Qed.
Lemma train_targets b p : wf p -> all_kinds keeps_targets p -> targets_eval p -> targets_eval (train b p).
Proof.
  induction 1 as [k s l Hl | s p m H IH | s ps H IH]; intros Hk He.
  - specialize (Hk k (or_introl eq_refl)). cbn. intros n c. cbn.
    destruct (switched k) eqn:E; apply (set_keeps k); auto; intros x Hx Ht;
    destruct k as [[]| [] []|[]|  |  |  |  |  |  | | []]; try discriminate Hk; cbn in E; try discriminate E; try (injection E as <-);
      cbn in Hx; repeat (destruct Hx as [<- | Hx]; [solve [discriminate Ht | reflexivity]|]); destruct Hx.
  - exact (IH Hk He).
  - intros n c Hin Ht. cbn in Hin. apply in_flat_map in Hin. destruct Hin as (q & Hq & Hin). apply in_map_iff in Hq. destruct Hq as (p & <- & Hp).
    apply (IH p Hp (all_kinds_in _ _ _ _ Hk Hp)) with (n := n); auto. intros n' b' Hin' Ht'. apply (He n' b'); [|exact Ht']. cbn. apply in_flat_map. eauto.
Qed.
Lemma learn_keeps p : all_kinds keeps_targets p -> nets (learn p) = nets p.
Proof.
  induction p as [k s l | s p m IH | s ps IH] using pol_induction; intros Hk.
  - specialize (Hk k (or_introl eq_refl)). destruct k as [|[] []| | | | | | | | |]; try reflexivity. discriminate Hk.
  - exact (IH Hk).
  - cbn. assert (H : forall p, In p ps -> all_kinds keeps_targets p) by (intros; eauto using all_kinds_in). clear Hk.
    induction IH as [|p ps Hp _ IH]; cbn; [reflexivity|]. rewrite Hp by (apply H; left; reflexivity). rewrite IH; [reflexivity|]. intros q Hq. apply H. right. exact Hq.
Qed.
Lemma learn_targets p : all_kinds keeps_targets p -> targets_eval p -> targets_eval (learn p).
Proof. unfold targets_eval. intros Hk. rewrite (learn_keeps _ Hk). auto. Qed.
Lemma ak_train c b p : all_kinds c p -> all_kinds c (train b p).
Proof. unfold all_kinds. rewrite kinds_train. auto. Qed.
Lemma ak_learn c p : all_kinds c p -> all_kinds c (learn p).
Proof. unfold all_kinds. rewrite kinds_learn. auto. Qed.
Lemma within_targets o p : wf p -> all_kinds keeps_targets p -> targets_eval p -> targets_eval (within o p).
Proof. intros. destruct o; cbn; auto using train_targets, learn_targets, ak_train, train_wf. Qed.
Lemma act_targets o p : wf p -> all_kinds keeps_targets p -> targets_eval p -> targets_eval (act o p).
Proof. intros. destruct o; cbn; unfold train_mode; auto 8 using train_targets, learn_targets, ak_train, ak_learn, train_wf, learn_wf. Qed.
Lemma run_targets os : forall p, wf p -> all_kinds keeps_targets p -> targets_eval p -> targets_eval (run os p).
Proof.
  induction os as [|o os IH]; intros p Hw Hk Ht; [exact Ht|]. apply (IH (act o p)); [apply act_wf, Hw | | apply act_targets; assumption].
  unfold all_kinds. rewrite kinds_act. exact Hk.
Qed.
(** C229 (restricted to the classes without the defects below): whatever is called, the target networks are in evaluation mode, inside [collect] and
    [learn] as well as between them. *)
Lemma C229_targets_partial_lemma : forall (p : pol) (os : list op) (o : op), built p -> (forall k, In k (kinds p) -> keeps_targets k = true) ->
  forall n b, is_target n = true -> In (n, b) (nets (run os p)) \/ In (n, b) (nets (within o (run os p))) -> b = false.
Proof.
  intros p os o Hb Hk n b Hn Hin. assert (Hw := built_wf _ Hb). assert (Ht := run_targets os p Hw Hk (build_targets _ Hb Hk)).
  destruct Hin as [Hin | Hin]; [exact (Ht n b Hin Hn)|].
  refine (within_targets o (run os p) (run_wf _ _ Hw) _ Ht n b Hin Hn). apply all_kinds_run. exact Hk.
Qed.

Lemma mode_some n l : In n (map fst l) -> exists b, mode_of n l = Some b.
Proof.
  unfold mode_of. induction l as [|[x c] l IH]; cbn; [intros []|]. destruct (nname_eq x n) as [-> | Hx]; [exists c; reflexivity|].
  intros [H | H]; [destruct (Hx H) | exact (IH H)].
Qed.
(** C229.  The targets of DiscreteCRR are in training mode whenever it learns; those of BCQ have the mode the networks were given in, always; the noisy
    target of Rainbow is in training mode ever after the first update. *)
Lemma C229_targets_refuted_lemma : forall (m : nname -> bool) (os os' : list op),
  mode_of ActorOld (nets (within Update (run os (make (KCrr true) m)))) = Some true /\
  mode_of CriticOld (nets (within Update (run os (make (KCrr true) m)))) = Some true /\
  mode_of CriticTarget (nets (run os (make KBcq m))) = Some (m Critic) /\
  mode_of PerturbTarget (nets (run os (make KBcq m))) = Some (m Perturb) /\
  mode_of ModelOld (nets (run (os ++ Update :: os') (make (KRainbow true true) m))) = Some true.
Proof.
  intros m os os'.
  assert (Hcrr : forall n, In n [ActorOld; CriticOld] -> mode_of n (nets (within Update (run os (make (KCrr true) m)))) = Some true).
  { intros n Hn. assert (Hw := run_wf os _ (built_wf _ (B_base (KCrr true) m))). unfold make in *.
    destruct (base_run os (KCrr true) true (map (fun n => (n, m n)) (given (KCrr true)) ++ map (fun c : nname * nname * bool => (fst (fst c), if snd c then false else m (snd (fst c)))) (copies (KCrr true)))) as (s' & l' & E & _).
    rewrite E in *. inversion Hw as [k s l Hl e1 | |]; subst. cbn [within train switched learn nets]. rewrite mode_of_set.
    destruct (mode_some n l') as (b & ->); [|reflexivity]. rewrite Hl. cbn. destruct Hn as [<- | [<- | []]]; tauto. }
  assert (Hbcq : forall n, In n [CriticTarget; PerturbTarget] -> mode_of n (nets (run os (make KBcq m))) = mode_of n (nets (make KBcq m))).
  { intros n Hn. unfold make.
    destruct (base_run os KBcq true (map (fun n => (n, m n)) (given KBcq) ++ map (fun c : nname * nname * bool => (fst (fst c), if snd c then false else m (snd (fst c)))) (copies KBcq))) as (s' & l' & -> & H).
    cbn [nets]. apply H. split; [exists [Perturb; Critic; Critic2]; split; [reflexivity|] | discriminate]. destruct Hn as [<- | [<- | []]]; reflexivity. }
  split; [apply Hcrr; left; reflexivity|]. split; [apply Hcrr; right; left; reflexivity|].
  split; [rewrite Hbcq by (left; reflexivity); reflexivity|]. split; [rewrite Hbcq by (right; left; reflexivity); reflexivity|].
  rewrite run_app. assert (Hw := run_wf os _ (built_wf _ (B_base (KRainbow true true) m))). unfold make in *.
  destruct (base_run os (KRainbow true true) true (map (fun n => (n, m n)) (given (KRainbow true true)) ++ map (fun c : nname * nname * bool => (fst (fst c), if snd c then false else m (snd (fst c)))) (copies (KRainbow true true)))) as (s' & l' & E & _).
  rewrite E in *. inversion Hw as [k s l Hl e1 | |]; subst. clear E Hw.
  change (run (Update :: os') (Base (KRainbow true true) s' l')) with (run os' (act Update (Base (KRainbow true true) s' l'))).
  assert (Hkeep : forall os s l, mode_of ModelOld l = Some true -> mode_of ModelOld (nets (run os (Base (KRainbow true true) s l))) = Some true).
  { clear. induction os as [|o os IH]; intros s l H; [exact H|].
    change (run (o :: os) (Base (KRainbow true true) s l)) with (run os (act o (Base (KRainbow true true) s l))).
    destruct o; cbn [act train_mode train learn switched self_of]; unfold train_mode; cbn [act train_mode train learn switched self_of]; apply IH; rewrite ?mode_of_set; cbn; rewrite H; reflexivity. }
  cbn [act]; unfold train_mode; cbn [act train_mode train learn switched self_of]. apply Hkeep. rewrite !mode_of_set. cbn.
  destruct (mode_some ModelOld l') as (b & ->); [|reflexivity]. rewrite Hl. cbn. tauto.
Qed.

(** ** Inside the blocks, and after them *)
Lemma train_online b p : wf p -> all_kinds reaches_online p -> forall n c, In (n, c) (nets (train b p)) -> is_target n = false -> c = b.
Proof.
  induction 1 as [k s l Hl | s p m H IH | s ps H IH]; intros Hk n c Hin Hn.
  - specialize (Hk k (or_introl eq_refl)). cbn [train nets] in Hin.
    assert (Hin' : exists f, In (n, c) (set_modes f b l) /\ f n = true).
    { destruct (switched k) eqn:E; [exists (mem l0) | exists (fun _ => true)]; split; try exact Hin; try reflexivity.
      assert (Hx : In n (names k)). { rewrite <- Hl, <- (set_modes_fst (mem l0) b l). apply (in_map fst _ _ Hin). }
      destruct k as [[]| [] []|[]|  |  |  |  |  |  | | []]; try discriminate Hk; cbn in E; try discriminate E; injection E as <-;
        cbn in Hx; repeat (destruct Hx as [<- | Hx]; [solve [discriminate Hn | reflexivity]|]); destruct Hx. }
    destruct Hin' as (f & Hf & Ef). apply in_map_iff in Hf. destruct Hf as ([x y] & [= <- <-] & Hx). cbn in *. rewrite Ef. reflexivity.
  - exact (IH Hk n c Hin Hn).
  - cbn in Hin. apply in_flat_map in Hin. destruct Hin as (q & Hq & Hin). apply in_map_iff in Hq. destruct Hq as (p & <- & Hp).
    exact (IH p Hp (all_kinds_in _ _ _ _ Hk Hp) n c Hin Hn).
Qed.
Lemma learn_online p : forall n c, In (n, c) (nets (learn p)) -> is_target n = false -> In (n, c) (nets p).
Proof.
  induction p as [k s l | s p m IH | s ps IH] using pol_induction; intros n c Hin Hn.
  - destruct k as [|[] []| | | | | | | | |]; try exact Hin. cbn in Hin. apply in_map_iff in Hin. destruct Hin as ([x y] & [= <- <-] & Hx).
    cbn. destruct x; try exact Hx. discriminate Hn.
  - exact (IH n c Hin Hn).
  - cbn in *. apply in_flat_map in Hin. destruct Hin as (q & Hq & Hin). apply in_map_iff in Hq. destruct Hq as (p & <- & Hp).
    apply in_flat_map. exists p. split; [exact Hp|]. rewrite Forall_forall in IH. exact (IH p Hp n c Hin Hn).
Qed.
(** C230 (restricted to the classes whose [train] reaches their online networks): whatever was called before, all online networks are in evaluation
    mode while actions are collected and in training mode while [learn] runs. *)
Lemma C230_within_partial_lemma : forall (p : pol) (os : list op), built p -> (forall k, In k (kinds p) -> reaches_online k = true) ->
  forall n b, is_target n = false ->
  (In (n, b) (nets (within Collect (run os p))) -> b = false) /\ (In (n, b) (nets (within Update (run os p))) -> b = true).
Proof.
  intros p os Hb Hk n b Hn. assert (Hw := run_wf os _ (built_wf _ Hb)). assert (Hk' := all_kinds_run _ os _ Hk).
  split; intros Hin.
  - exact (train_online false _ Hw Hk' n b Hin Hn).
  - cbn in Hin. apply learn_online in Hin; [|exact Hn]. exact (train_online true _ Hw Hk' n b Hin Hn).
Qed.
Lemma train_train b c p : train b (train c p) = train b p.
Proof.
  induction p as [k s l | s p m IH | s ps IH] using pol_induction; cbn.
  - f_equal. destruct (switched k); unfold set_modes; rewrite map_map; apply map_ext; intros [x y]; cbn; [destruct (mem l0 x)|]; reflexivity.
  - rewrite IH. reflexivity.
  - f_equal. rewrite map_map. induction IH as [|p ps H _ IH]; cbn; [reflexivity|]. rewrite H, IH. reflexivity.
Qed.
Lemma nm_train b p : no_manager (train b p) = no_manager p.
Proof. induction p as [| |] using pol_induction; cbn; auto. Qed.
Lemma nm_learn p : no_manager (learn p) = no_manager p.
Proof. induction p as [k s l | |] using pol_induction; cbn; auto. destruct k as [|[] []| | | | | | | | |]; reflexivity. Qed.
Lemma nm_act o p : no_manager (act o p) = no_manager p.
Proof. destruct o; cbn; unfold train_mode; rewrite ?nm_train, ?nm_learn, ?nm_train; reflexivity. Qed.
Lemma self_train b p : no_manager p = true -> self_of (train b p) = b.
Proof. destruct p; cbn; try reflexivity. discriminate. Qed.
Lemma self_learn p : self_of (learn p) = self_of p.
Proof. destruct p as [k s l | |]; try reflexivity. destruct k as [|[] []| | | | | | | | |]; reflexivity. Qed.
Definition settled (p : pol) : Prop := exists q, p = train (self_of p) q.
Lemma act_settled o p : no_manager p = true -> settled (act o p).
Proof.
  intros Hp. destruct o; cbn; unfold train_mode.
  - exists p. rewrite self_train by assumption. reflexivity.
  - eexists. rewrite self_train by (rewrite nm_train; assumption). reflexivity.
  - eexists. rewrite self_train by (rewrite nm_learn, nm_train; assumption). reflexivity.
Qed.
(** C230 (restricted to policies without a multi-agent manager, after any first call): a [collect] changes no mode at all, and an update only that of a
    noisy target of Rainbow. *)
Lemma C230_restored_partial_lemma : forall (p : pol) (os : list op) (o : op), no_manager p = true ->
  act Collect (run (os ++ [o]) p) = run (os ++ [o]) p /\
  ((forall k, In k (kinds p) -> k <> KRainbow true true) -> act Update (run (os ++ [o]) p) = run (os ++ [o]) p).
Proof.
  intros p os o Hp.
  assert (Hs : settled (run (os ++ [o]) p)).
  { rewrite run_app. cbn. apply act_settled. revert p Hp. induction os as [|o' os IH]; intros p Hp; [exact Hp|]. cbn. apply IH. rewrite nm_act. exact Hp. }
  destruct Hs as (q & Hq). set (s := run (os ++ [o]) p) in *.
  assert (Hself : train (self_of s) s = s). { rewrite Hq at 2. rewrite train_train. symmetry. exact Hq. }
  split.
  - cbn. unfold train_mode. rewrite train_train. exact Hself.
  - intros Hk. assert (Hl : forall p', (forall k, In k (kinds p') -> k <> KRainbow true true) -> learn p' = p').
    { clear. induction p' as [k s l | s p m IH | s ps IH] using pol_induction; intros Hk.
      - destruct k as [|[] []| | | | | | | | |]; try reflexivity. destruct (Hk (KRainbow true true) (or_introl eq_refl) eq_refl).
      - cbn. rewrite IH by exact Hk. reflexivity.
      - cbn. f_equal. rewrite <- (map_id ps) at 2. apply map_ext_in. intros x Hx. rewrite Forall_forall in IH. apply (IH x Hx).
        intros k Hin. apply Hk. cbn. apply in_flat_map. eauto. }
    cbn. unfold train_mode. rewrite Hl, train_train; [exact Hself|]. intros k. rewrite kinds_train. unfold s. rewrite kinds_run. apply Hk.
Qed.
(** C230.  Through the manager: once put into evaluation mode, its sub-policies are in training mode after the next [collect]. *)
Lemma C230_manager_refuted_lemma : forall (s : bool) (ps : list pol), s = true ->
  run [Train false; Collect] (Mgr s ps) = run [Train true] (Mgr s ps).
Proof.
  intros s ps ->. cbn. unfold train_mode. cbn [self_of train]. f_equal. rewrite !map_map. apply map_ext. intros p. rewrite !train_train. reflexivity.
Qed.

(** ** State dicts *)
Section State.
Context {V : Type}.
Definition obj_induction (P : obj V -> Prop)
  (H : forall ps bs ms plain ds, Forall (fun q => P (snd q)) ms -> P (Obj ps bs ms plain ds)) : forall o, P o :=
  fix IH o := match o with
    | Obj ps bs ms plain ds => H ps bs ms plain ds ((fix go ms := match ms return Forall (fun q => P (snd q)) ms with
        | [] => Forall_nil (fun q => P (snd q)) | q :: ms => Forall_cons q (IH (snd q)) (go ms) end) ms) end.
Lemma here_assign f pre (l : list (nat * V)) : here pre (assign_here f pre l) = map (fun q => (fst q, f (fst q) (snd q))) (here pre l).
Proof. unfold here, assign_here. rewrite !map_map. reflexivity. Qed.
Lemma state_assign f (o : obj V) : forall pre, state_dict pre (assign f pre o) = map (fun q => (fst q, f (fst q) (snd q))) (state_dict pre o : list (path * V)).
Proof.
  induction o as [ps bs ms plain ds IH] using obj_induction; intros pre. cbn. rewrite !map_app, !here_assign. f_equal. f_equal.
  induction IH as [|[n c] ms Hc _ IH]; cbn; [reflexivity|]. rewrite map_app, IH. f_equal. apply (Hc (pre ++ [n])).
Qed.
Lemma plains_assign f (o : obj V) : forall pre, plains (assign f pre o) = plains o.
Proof.
  induction o as [ps bs ms plain ds IH] using obj_induction; intros pre. cbn. f_equal.
  induction IH as [|[n c] ms Hc _ IH]; cbn; [reflexivity|]. rewrite IH. f_equal. apply (Hc (pre ++ [n])).
Qed.
Lemma look_in (sd : list (path * V)) k v : NoDup (map fst sd) -> In (k, v) sd -> look sd k = Some v.
Proof.
  unfold look. induction sd as [|[x y] sd IH]; cbn [map fst snd In find]; [intros _ []|]. intros Hn [[= -> ->] | H].
  - destruct (path_eq k k) as [_ | Hk]; [reflexivity | destruct (Hk eq_refl)].
  - inversion_clear Hn as [|? ? Hx Hs]. destruct (path_eq x k) as [-> | _]; [destruct Hx; apply (in_map fst _ _ H) | auto].
Qed.
End State.
(** C231 (restricted to what is registered: parameters, buffers and submodules).  Loading the state dict of [a] into an object [b] with the same keys
    succeeds and gives [b] the state of [a]; attributes outside the state dict keep [b]'s values. *)
Lemma C231_round_trip_partial_lemma : forall (V : Type) (a b : obj V), map fst (state_dict [] a) = map fst (state_dict [] b) -> NoDup (map fst (state_dict [] a)) ->
  exists b', load_state_dict (state_dict [] a) b = Ok b' /\ state_dict [] b' = state_dict [] a /\ plains b' = plains b.
Proof.
  intros V a b Hk Hn. unfold load_state_dict.
  assert (H1 : forallb (fun k => match look (state_dict [] a) k with Some _ => true | None => false end) (map fst (state_dict [] b)) = true).
  { apply forallb_forall. intros k Hin. rewrite <- Hk in Hin. apply in_map_iff in Hin. destruct Hin as ([x v] & <- & Hin). cbn. rewrite (look_in _ _ _ Hn Hin). reflexivity. }
  assert (H2 : forallb (fun q : path * V => if in_dec path_eq (fst q) (map fst (state_dict [] b)) then true else false) (state_dict [] a) = true).
  { apply forallb_forall. intros q Hin. destruct (in_dec path_eq (fst q) (map fst (state_dict [] b))) as [_ | Hx]; [reflexivity|].
    destruct Hx. rewrite <- Hk. apply in_map, Hin. }
  rewrite H1, H2. cbn [andb]. eexists. split; [reflexivity|]. split; [|apply plains_assign].
  rewrite state_assign. revert Hk Hn. generalize (state_dict [] b). generalize (state_dict [] a). clear.
  intros sa sb Hk Hn.
  assert (Hg : forall (l : list (path * V)) (l' : list (path * V)), (forall q, In q l -> look sa (fst q) = Some (snd q)) -> map fst l = map fst l' ->
     map (fun q => (fst q, match look sa (fst q) with Some w => w | None => snd q end)) l' = l).
  { induction l as [|[k v] l IH]; intros [|[k' v'] l'] H E; try discriminate E; [reflexivity|]. cbn in E. injection E as <- E. cbn.
    assert (Hv : look sa k = Some v) by exact (H (k, v) (or_introl eq_refl)). rewrite Hv. f_equal. apply IH; [|exact E]. intros q Hq. apply H. right. exact Hq. }
  apply Hg; [|exact Hk]. intros [k v] Hin. apply look_in; assumption.
Qed.
(** C231.  The state dict has exactly the parameters and buffers of the object and of its submodules at any depth, each under its path. *)
Lemma C231_entries_lemma : forall (V : Type) (o : obj V) (p : list nat) (v : V), In (p, v) (state_dict [] o) <-> registered o p v.
Proof.
  intros V o p v.
  assert (G : forall pre p, In (p, v) (state_dict pre o) <-> exists q, p = pre ++ q /\ registered o q v).
  { clear p. induction o as [ps bs ms plain ds IH] using obj_induction. intros pre p. cbn [state_dict]. rewrite !in_app_iff. unfold here. rewrite !in_map_iff, in_flat_map.
    rewrite Forall_forall in IH. split.
    - intros [([k w] & [= <- <-] & H) | [([k w] & [= <- <-] & H) | ([k m] & H & Hs)]].
      + exists [k]. split; [reflexivity | apply R_param, H].
      + exists [k]. split; [reflexivity | apply R_buffer, H].
      + cbn [fst snd] in Hs. apply (IH (k, m) H) in Hs. destruct Hs as (q & -> & Hq). exists (k :: q). split; [rewrite <- app_assoc; reflexivity | eapply R_module; [exact H | exact Hq]].
    - intros (q & -> & Hq). inversion Hq; subst.
      + left. exists (k, v). auto.
      + right; left. exists (k, v). auto.
      + right; right. exists (k, m). split; [assumption|]. apply (IH (k, m)); [assumption|]. eexists. split; [|eassumption]. rewrite <- app_assoc. reflexivity. }
  rewrite G. split; [intros (q & -> & H); exact H | intros H; exists p; auto].
Qed.
(** C231.  The multi-agent manager has no state at all: its state dict and its parameters are empty for all sub-policies, and loading changes none of
    them. *)
Lemma C231_manager_refuted_lemma : forall (V : Type) (ps ps' : list (nat * obj V)),
  state_dict [] (manager ps) = [] /\ parameters (manager ps) = [] /\ load_state_dict (state_dict [] (manager ps')) (manager ps) = Ok (manager ps).
Proof. intros V ps ps'. split; [reflexivity|]. split; reflexivity. Qed.
(** C231.  The temperature that SAC learns is not part of its state dict: after loading it is that of the object loaded into. *)
Lemma C231_temperature_refuted_lemma : forall (V : Type) (sd : list (list nat * V)) (nets : list (nat * obj V)) (log_alpha alpha : V) (o : obj V),
  state_dict [] (sac nets log_alpha alpha) = state_dict [] (Obj [] [] nets [] []) /\
  (load_state_dict sd (sac nets log_alpha alpha) = Ok o -> exists nets', o = sac nets' log_alpha alpha).
Proof.
  intros V sd nets la al o. split; [reflexivity|]. unfold load_state_dict.
  destruct (forallb _ _ && forallb _ _); [|discriminate]. intros [= <-]. eexists. reflexivity.
Qed.

(** ** Soft updates and buffers *)
(** C232.  A target network that follows by [soft_update] keeps the buffers it was created with, whatever the online network's become. *)
Lemma C232_buffers_refuted_lemma : forall (tau : Qc) (step : nat -> net -> net) (n i : nat) (online target online' target' : net),
  follow tau step n i online target = Ok (online', target') -> buf target' = buf target.
Proof.
  intros tau step n. induction n as [|n IH]; intros i on tg on' tg'; cbn; [intros [= <- <-]; reflexivity|].
  unfold soft_update. destruct (length (w tg) =? length (w (step i on))); [|discriminate]. cbn. intros H. apply IH in H. exact H.
Qed.
(** C232 (restricted to networks whose buffers agree): with tau = 1 a soft update makes the target equal to the online network, as [sync] does. *)
Lemma C232_soft_partial_lemma : forall (tau : Qc) (tgt src : net), length (w tgt) = length (w src) -> buf tgt = buf src -> tau = 1%Qc ->
  soft_update tau tgt src = Ok (sync tgt src).
Proof.
  intros tau tgt src Hl Hb ->. unfold soft_update, sync. rewrite Hl, Nat.eqb_refl. f_equal. destruct tgt as [wt bt], src as [ws bs]. cbn in *. subst bt. f_equal.
  revert ws Hl. induction wt as [|x wt IH]; intros [|y ws] Hl; try discriminate Hl; [reflexivity|]. cbn. f_equal; [ring|]. apply IH. injection Hl as Hl. exact Hl.
Qed.
(** C232.  A target network that follows by [load_state_dict] has parameters and buffers of the online network at once; a soft update gives the same
    network only if the buffers agreed before. *)
Lemma C232_sync_lemma : forall (tgt src : net), w (sync tgt src) = w src /\ buf (sync tgt src) = buf src /\
  (forall (tau : Qc) (t : net), soft_update tau tgt src = Ok t -> t = sync tgt src -> buf tgt = buf src).
Proof.
  intros tgt src. split; [reflexivity|]. split; [reflexivity|]. intros tau t. unfold soft_update. destruct (_ =? _); [|discriminate]. intros [= <-] H.
  apply (f_equal buf) in H. exact H.
Qed.

(** ** Rainbow *)
Section Rainbow.
Variables (len freq : nat) (upd : rb -> Qc).
Lemma learn_eq s : rb_learn len freq upd s =
  let e := seq (r_next s) len in
  let e' := if r_iter s mod freq =? 0 then e else seq (r_next s + len) len in
  let t := if r_iter s mod freq =? 0 then r_w s else t_w s in
  (mkRb (upd (mkRb (r_w s) e t e' (r_iter s) (r_next s + len + len))) e t e' (S (r_iter s)) (r_next s + len + len), (r_w s, e, (t, e'))).
Proof. unfold rb_learn, sample. cbn. destruct (r_iter s mod freq =? 0); reflexivity. Qed.
Lemma run_cons n s : rb_run len freq upd (S n) s =
  (fst (rb_run len freq upd n (fst (rb_learn len freq upd s))), snd (rb_learn len freq upd s) :: snd (rb_run len freq upd n (fst (rb_learn len freq upd s)))).
Proof. cbn [rb_run]. destruct (rb_learn len freq upd s) as [s1 x]. cbn [fst snd]. destruct (rb_run len freq upd n s1). reflexivity. Qed.
Lemma run_nth n : forall s i d, i < n ->
  nth i (snd (rb_run len freq upd n s)) d = snd (rb_learn len freq upd (fst (rb_run len freq upd i s))).
Proof.
  induction n as [|n IH]; intros s i d Hi; [lia|]. rewrite run_cons. destruct i as [|i]; [reflexivity|]. rewrite run_cons. cbn [snd fst nth]. apply IH. lia.
Qed.
Lemma run_S n : forall s, fst (rb_run len freq upd (S n) s) = fst (rb_learn len freq upd (fst (rb_run len freq upd n s))).
Proof.
  induction n as [|n IH]; intros s; [cbn [rb_run fst]; destruct (rb_learn len freq upd s); reflexivity|].
  rewrite run_cons. cbn [fst]. rewrite IH, run_cons. reflexivity.
Qed.
Lemma run_state n s : r_iter s = 0 -> let s' := fst (rb_run len freq upd n s) in r_iter s' = n /\ r_next s' = r_next s + (len + len) * n.
Proof.
  intros H0. induction n as [|n IH]; cbn zeta in *; [cbn; lia|]. rewrite run_S, learn_eq. cbn [fst r_iter r_next]. destruct IH as [IH1 IH2].
  rewrite IH1, IH2. split; lia.
Qed.
Lemma run_target n s : r_iter s = 0 -> 0 < freq -> 0 < n ->
  t_w (fst (rb_run len freq upd n s)) = r_w (fst (rb_run len freq upd ((n - 1) / freq * freq) s)).
Proof.
  intros H0 Hf. induction n as [|n IH]; intros Hn; [lia|]. rewrite run_S, learn_eq. cbn [fst t_w]. destruct (run_state n s H0) as [Hi _]. rewrite Hi.
  replace (S n - 1) with n by lia. destruct (Nat.eqb_spec (n mod freq) 0) as [E | E].
  - assert (Hd := Nat.div_mod_eq n freq). rewrite E in Hd. replace (n / freq * freq) with n by lia. reflexivity.
  - destruct n as [|n]; [rewrite Nat.mod_0_l in E by lia; destruct E; reflexivity|]. rewrite IH by lia. replace (S n - 1) with n by lia.
    replace (S n / freq) with (n / freq); [reflexivity|].
    assert (H1 := Nat.div_mod_eq (S n) freq). assert (Hb : S n mod freq < freq) by (apply Nat.mod_upper_bound; lia).
    symmetry. apply (Nat.div_unique n freq (S n / freq) (S n mod freq - 1)); lia.
Qed.
End Rainbow.
(** C233 (between synchronisations).  In the [i]-th update of a run the online network uses draws of its own, never used before, and the target network
    uses the weights the online network had at the last synchronisation, with draws that are neither those of the online network nor used before. *)
Lemma C233_fresh_partial_lemma : forall (len freq : nat) (upd : rb -> Qc) (n i : nat) (s : rb) (d : Qc * list nat * (Qc * list nat)), 0 < freq -> r_iter s = 0 -> i < n -> i mod freq <> 0 ->
  let '(rw, re, (tw, te)) := nth i (snd (rb_run len freq upd n s)) d in
  let '(rw0, _, _) := nth (i / freq * freq) (snd (rb_run len freq upd n s)) d in
  tw = rw0 /\ length re = len /\ length te = len /\ NoDup (re ++ te) /\ (forall e, In e (re ++ te) -> r_next s + 2 * len * i <= e < r_next s + 2 * len * (i + 1)).
Proof.
  intros len freq upd n i s d Hf H0 Hi Hm. assert (Hle : i / freq * freq < n). { assert (Hd := Nat.div_mod_eq i freq). lia. }
  rewrite !run_nth by assumption. rewrite !learn_eq. cbn [snd]. destruct (run_state len freq upd i s H0) as [E1 E2]. rewrite E1, E2.
  destruct (Nat.eqb_spec (i mod freq) 0) as [Hx | _]; [destruct (Hm Hx)|].
  assert (Hi0 : 0 < i). { destruct i; [|lia]. rewrite Nat.mod_0_l in Hm by lia. destruct Hm. reflexivity. }
  split; [|split; [apply seq_length | split; [apply seq_length|]]].
  - rewrite run_target by assumption. f_equal. f_equal. f_equal. f_equal.
    assert (H1 := Nat.div_mod_eq i freq). assert (Hb : i mod freq < freq) by (apply Nat.mod_upper_bound; lia).
    symmetry. apply (Nat.div_unique (i - 1) freq (i / freq) (i mod freq - 1)); lia.
  - rewrite <- seq_app. split; [apply seq_NoDup|]. intros e He. apply in_seq in He. lia.
Qed.
(** C233.  In every update that synchronises, the first one included, the target network has the weights and also the noise of the online network: the
    draws made for it are overwritten. *)
Lemma C233_sync_refuted_lemma : forall (len freq : nat) (upd : rb -> Qc) (n i : nat) (s : rb) (d : Qc * list nat * (Qc * list nat)), 0 < freq -> r_iter s = 0 -> i < n -> i mod freq = 0 ->
  fst (nth i (snd (rb_run len freq upd n s)) d) = snd (nth i (snd (rb_run len freq upd n s)) d).
Proof.
  intros len freq upd n i s d Hf H0 Hi Hm. rewrite !run_nth by assumption. rewrite learn_eq. cbn [snd]. destruct (run_state len freq upd i s H0) as [E1 E2].
  rewrite E1, Hm. reflexivity.
Qed.
(** C233.  While data is collected the noise has no effect at all: the network is in evaluation mode, whatever was called before, and then a noisy layer
    gives the same output for all noise. *)
Lemma C233_collect_refuted_lemma : forall (t ny : bool) (m : nname -> bool) (os : list op) mu sg mb sb p q p' q' x,
  mode_of Model (nets (within Collect (run os (make (KRainbow t ny) m)))) = Some false /\
  noisy_forward false (mkNL mu sg mb sb p q) x = noisy_forward false (mkNL mu sg mb sb p' q') x.
Proof.
  intros t ny m os mu sg mb sb p q p' q' x. split; [|reflexivity].
  assert (Hw := run_wf os _ (built_wf _ (B_base (KRainbow t ny) m))). unfold make in *.
  destruct (base_run os (KRainbow t ny) true (map (fun n => (n, m n)) (given (KRainbow t ny)) ++ map (fun c : nname * nname * bool => (fst (fst c), if snd c then false else m (snd (fst c)))) (copies (KRainbow t ny)))) as (s' & l' & E & _).
  rewrite E in *. inversion Hw as [k s l Hl e1 | |]; subst. cbn [within train switched nets]. rewrite mode_of_set.
  destruct (mode_some Model l') as (b & ->); [|reflexivity]. rewrite Hl. left. reflexivity.
Qed.
