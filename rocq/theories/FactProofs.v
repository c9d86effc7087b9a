(** * Proofs about the factories *)
From Verif Require Import Py PyLemmas Num StatProofs NetModel NetProofs FactModel FactSpec.
From Coq Require Import Lia.
Open Scope nat_scope.

Section Closed.
Context {Md : Type}.
Implicit Types (a : Md) (s : @st Md).
Lemma blocks_one k a : forall hidden i,
  blocks k i hidden (combine (repeat None (length hidden)) (repeat None (length hidden)))
    (combine (repeat (Some (Cls a)) (length hidden)) (repeat (None : option (arg1 unit)) (length hidden))) = Ok (dense k i hidden a).
Proof. induction hidden as [|o h IH]; intro i; cbn; [reflexivity|]. rewrite IH. reflexivity. Qed.
Lemma mlp_one k i o hidden a fl : mlp_init k i o hidden LNone (GNone : args unit) (LOne a) GNone fl
  = Ok (mkMlp (dense k i hidden a ++ (if 0 <? o then [Linear k (last hidden i) o] else [])) (if o =? 0 then last hidden i else o) fl).
Proof. unfold mlp_init. cbn [expand truthy whole bind fst snd]. rewrite blocks_one. reflexivity. Qed.
Definition defaults (k : lkind) (hidden : list nat) : list (lkind * ini) := map (fun _ => (k, Default)) hidden.
Lemma raw_dense k a : forall hidden i, raw (dense k i hidden a) = defaults k hidden.
Proof. induction hidden as [|o h IH]; intro i; [reflexivity|]. unfold raw, defaults in *. cbn. rewrite IH. reflexivity. Qed.
Definition the_net (k : lkind) (n i : nat) (hidden : list nat) a : @part Md := mkPart n (dense k i hidden a) i (last hidden i) (defaults k hidden).
Definition the_head (k : lkind) (n i o : nat) : @part Md :=
  mkPart n (if 0 <? o then [Linear k i o] else []) i (if o =? 0 then i else o) (if 0 <? o then [(k, Default)] else []).
Lemma mk_net_eq k obs act hidden a (concat : bool) s : concat = true \/ prod act = 0 ->
  mk_net k obs act hidden a concat s =
  Ok (the_net k (s_next s) (prod obs + if concat then prod act else 0) hidden a, mkSt (S (s_next s)) (s_futs s)).
Proof.
  intros H. unfold mk_net, net_init. rewrite Nat.mul_1_r.
  assert (E : (if negb false && negb concat then prod act else 0) = 0) by (destruct concat; cbn; [reflexivity | destruct H; [discriminate | assumption]]).
  rewrite E, mlp_one. cbn [bind n_model m_layers n_in n_out m_out Nat.ltb Nat.leb Nat.eqb fresh]. rewrite app_nil_r, raw_dense. reflexivity.
Qed.
Lemma mk_mlp_eq (relu : Md) k i o s : mk_mlp relu k i o s = Ok (the_head k (s_next s) i o, mkSt (S (s_next s)) (s_futs s)).
Proof. unfold mk_mlp. rewrite mlp_one. cbn. destruct o; reflexivity. Qed.
Lemma critic_net_eq k obs act hidden a (ua : bool) s :
  mk_net k obs (if ua then act else [0]) hidden a ua s = Ok (the_net k (s_next s) (prod obs + if ua then prod act else 0) hidden a, mkSt (S (s_next s)) (s_futs s)).
Proof. rewrite mk_net_eq; destruct ua; auto. Qed.

(** The two parts of a network with a head and how many identities they use. *)
Definition bump (n : nat) s : @st Md := mkSt (n + s_next s) (s_futs s).
Definition body (e : envs) (s : @st Md) (hidden : list nat) a : @part Md := the_net KLinear (s_next s) (prod (sdims (e_obs e))) hidden a.
Definition top (e : envs) (s : @st Md) (j : nat) (hidden : list nat) : @part Md :=
  the_head KLinear (j + s_next s) (last hidden (prod (sdims (e_obs e)))) (prod (sdims (e_act e))).
Definition the_actor (relu : Md) (f : @afact Md) (e : envs) (s : @st Md) : @amod Md :=
  match f with
  | FDet h a => ADet (body e s h a) (top e s 1 h)
  | FGauss h u c a => init_actor (AProb (body e s h a) (top e s 1 h) (if c then Some (top e s 2 h) else None) u)
  | FDisc h sm a => ADisc (body e s h a) (top e s 1 h) sm
  | FOther h => AOther (body e s h relu)
  | _ => AOther (body e s [] relu) end.
Definition used (f : @afact Md) : nat := match f with FDet _ _ | FDisc _ _ _ => 2 | FGauss _ _ c _ => if c then 3 else 2 | _ => 1 end.
Lemma build_actor_eq (relu : Md) f e s : build_actor relu f e s = Ok (the_actor relu f e s, bump (used f) s).
Proof.
  destruct f as [t h a u c sm|h a|h u c a|h sm a|f fut|h]; unfold build_actor; rewrite (mk_net_eq KLinear _ [0]) by (right; reflexivity); cbn [bind];
    rewrite ?mk_mlp_eq; cbn [bind]; rewrite ?Nat.add_0_r; try reflexivity.
  destruct c; cbn [bind fst snd]; rewrite ?mk_mlp_eq; cbn [bind fst snd]; reflexivity.
Qed.

(** The factory that does the work, and what the decorators store. *)
Fixpoint resolve (relu : Md) (f : @afact Md) (t : etype) : res (@afact Md) :=
  match f with FDefault ty h a u c sm => pick_factory relu ty h a u c sm t | FStore f _ => resolve relu f t | _ => Ok f end.
Fixpoint stored (f : @afact Md) (m : @amod Md) (s : @st Md) : @st Md := match f with FStore f i => set_fut (stored f m s) i m | _ => s end.
Lemma create_actor_eq (relu : Md) f e s :
  create_actor relu f e s = let* g := resolve relu f (e_type e) in Ok (the_actor relu g e s, stored f (the_actor relu g e s) (bump (used g) s)).
Proof.
  induction f as [t h a u c sm|h a|h u c a|h sm a|f IH fut|h]; cbn [create_actor resolve stored]; try (rewrite build_actor_eq; reflexivity).
  - destruct (pick_factory relu t h a u c sm (e_type e)) as [g|]; [|reflexivity]. cbn [bind]. apply build_actor_eq.
  - rewrite IH. destruct (resolve relu f (e_type e)); reflexivity.
Qed.
Lemma create_dist_eq (relu : Md) f t : create_dist relu f t = let* g := resolve relu f t in base_dist g t.
Proof. induction f; cbn [create_dist resolve bind]; try reflexivity. exact IHf. Qed.
Definition plain (f : @afact Md) : Prop := match f with FDefault _ _ _ _ _ _ | FStore _ _ => False | _ => True end.
Lemma resolve_plain relu f t g : resolve relu f t = Ok g -> plain g.
Proof.
  induction f; cbn [resolve]; intros H; try (injection H as <-; exact Logic.I).
  - unfold pick_factory in H. destruct t; [destruct t0|]; try discriminate H; injection H as <-; exact Logic.I.
  - exact (IHf H).
Qed.
Lemma resolve_base relu f t g : makes_base f -> resolve relu f t = Ok g -> makes_base g.
Proof.
  induction f; cbn [resolve makes_base]; intros HB H; try (injection H as <-; exact HB).
  - unfold pick_factory in H. destruct t; [destruct t0|]; try discriminate H; injection H as <-; exact Logic.I.
  - exact (IHf HB H).
Qed.
Lemma stored_next f m s : s_next (stored f m s) = s_next s.
Proof. induction f; cbn [stored]; auto. Qed.
Lemma stored_len f m s : length (s_futs (stored f m s)) = length (s_futs s).
Proof. induction f; cbn [stored set_fut s_futs]; auto. rewrite upd_length. auto. Qed.

(** Critics in closed form. *)
Definition disc_last (uas : bool) (e : envs) : nat := last_size uas e.
Lemma cont_critic_eq (relu : Md) h a e ua s : cont_critic relu h a e ua s =
  Ok (let i := prod (sdims (e_obs e)) + if ua : bool then prod (sdims (e_act e)) else 0 in
      CCont (orth (the_net KLinear (s_next s) i h a)) (orth (the_head KLinear (S (s_next s)) (last h i) 1)) false, bump 2 s).
Proof. unfold cont_critic. rewrite critic_net_eq. cbn [bind]. rewrite mk_mlp_eq. reflexivity. Qed.
Lemma disc_critic_eq (relu : Md) h a e ua uas s : disc_critic relu h a e ua uas s =
  Ok (let i := prod (sdims (e_obs e)) + if ua : bool then prod (sdims (e_act e)) else 0 in
      CDisc (orth (the_net KLinear (s_next s) i h a)) (orth (the_head KLinear (S (s_next s)) (last h i) (last_size uas e))), bump 2 s).
Proof. unfold disc_critic. rewrite critic_net_eq. cbn [bind]. rewrite mk_mlp_eq. reflexivity. Qed.
Lemma ensemble_eq (relu tanh : Md) h e n ua s : e_type e = ECont -> create_ensemble relu tanh h e n ua s =
  Ok (let i := prod (sdims (e_obs e)) + if ua : bool then prod (sdims (e_act e)) else 0 in
      CCont (orth (the_net (KEnsemble n) (s_next s) i h tanh)) (orth (the_head (KEnsemble n) (S (s_next s)) (last h i) 1)) false, bump 2 s).
Proof. intros E. unfold create_ensemble. rewrite E, critic_net_eq. cbn [bind]. rewrite mk_mlp_eq. reflexivity. Qed.
Lemma reuse_eq (relu : Md) fut e uas s (a : @amod Md) : get_fut s fut = Some a -> (forall p, a <> AOther p) ->
  reuse_critic relu fut e uas s =
  Ok (match e_type e with EDisc => CDisc (pre_of a) (the_head KLinear (s_next s) (t_out (pre_of a)) (last_size uas e))
                        | ECont => CCont (pre_of a) (the_head KLinear (s_next s) (t_out (pre_of a)) 1) true end, bump 1 s).
Proof.
  intros H HN. unfold reuse_critic. rewrite H. destruct a as [p l|p m sg u|p l sm|p]; [| | |exfalso; exact (HN p eq_refl)];
    destruct (e_type e); rewrite mk_mlp_eq; reflexivity.
Qed.

Lemma dense_size k a : forall hidden i, layers_size i (dense k i hidden a) = Ok (last hidden i).
Proof.
  induction hidden as [|o h IH]; intro i; [reflexivity|]. unfold layers_size in *. cbn [dense foldM layer_size]. unfold guard at 1.
  rewrite Nat.eqb_refl. cbn [bind layer_size]. rewrite IH, last_cons. reflexivity.
Qed.
Lemma head_size k n i o : 0 < o -> layers_size i (t_layers (the_head k n i o)) = Ok o.
Proof. intros H. destruct o; [lia|]. unfold the_head, layers_size. cbn [t_layers Nat.ltb Nat.leb foldM layer_size]. unfold guard. rewrite Nat.eqb_refl. reflexivity. Qed.
End Closed.

(** ** C193: sizes and activations *)
(** C193. In a continuous environment the default actor has the hidden sizes and the activation that were asked for; so have the actors of the
    specific factories. *)
Lemma C193_actor_lemma : forall (Md : Type) (relu : Md) (t : catype) (hidden : list nat) (a : Md) (u c sm : bool) (e : envs) (s s' : @st Md) (m : @amod Md),
  (e_type e = ECont -> create_actor relu (FDefault t hidden a u c sm) e s = Ok (m, s') ->
     t_layers (pre_of m) = dense KLinear (prod (sdims (e_obs e))) hidden a) /\
  (forall f, f = FDet hidden a \/ f = FGauss hidden u c a \/ f = FDisc hidden sm a -> create_actor relu f e s = Ok (m, s') ->
     t_layers (pre_of m) = dense KLinear (prod (sdims (e_obs e))) hidden a).
Proof.
  intros Md relu t hidden a u c sm e s s' m. split.
  - intros ET H. rewrite create_actor_eq in H. cbn [resolve] in H. unfold pick_factory in H. rewrite ET in H.
    destruct t; cbn [bind] in H; [| |discriminate H]; injection H as <- <-; reflexivity.
  - intros f Hf H. rewrite create_actor_eq in H. destruct Hf as [-> | [-> | ->]]; cbn [resolve bind] in H; injection H as <- <-; reflexivity.
Qed.
(** C193. The critics of all built-in factories have them in both kinds of environments. *)
Lemma C193_critic_lemma : forall (Md : Type) (relu : Md) (hidden : list nat) (a : Md) (e : envs) (ua uas : bool) (s : @st Md) (f : @cfact Md),
  f = CDefault hidden a \/ f = CContNet hidden a \/ f = CDiscNet hidden a ->
  exists p l s', (create_critic relu f e ua uas s = Ok (CCont p l false, s') \/ create_critic relu f e ua uas s = Ok (CDisc p l, s')) /\
    t_layers p = dense KLinear (prod (sdims (e_obs e)) + if ua then prod (sdims (e_act e)) else 0) hidden a.
Proof.
  intros Md relu hidden a e ua uas s f Hf. destruct Hf as [-> | [-> | ->]]; cbn [create_critic].
  - destruct (e_type e); [rewrite cont_critic_eq | rewrite disc_critic_eq]; eexists _, _, _; (split; [auto | reflexivity]).
  - rewrite cont_critic_eq. eexists _, _, _. split; [auto | reflexivity].
  - rewrite disc_critic_eq. eexists _, _, _. split; [auto | reflexivity].
Qed.
(** C193. Refuted for the default actor in a discrete environment: whatever is asked for, it has two hidden layers of 64 units with ReLU. *)
Lemma C193_discrete_refuted_lemma : forall (Md : Type) (relu : Md) (t t' : catype) (hidden hidden' : list nat) (a a' : Md) (u u' c c' sm : bool) (e : envs) (s : @st Md),
  e_type e = EDisc ->
  create_actor relu (FDefault t hidden a u c sm) e s = create_actor relu (FDefault t' hidden' a' u' c' sm) e s /\
  exists m s', create_actor relu (FDefault t hidden a u c sm) e s = Ok (m, s') /\
    t_layers (pre_of m) = dense KLinear (prod (sdims (e_obs e))) [64; 64] relu.
Proof.
  intros Md relu t t' hidden hidden' a a' u u' c c' sm e s ET. rewrite !create_actor_eq. cbn [resolve]. unfold pick_factory. rewrite ET. cbn [bind]. split; [reflexivity|].
  eexists _, _. split; reflexivity.
Qed.

(** ** C194: the parts of an agent fit each other *)
Lemma the_actor_size {Md : Type} (relu : Md) g e s : plain g -> makes_base g -> 0 < prod (sdims (e_act e)) ->
  actor_size (the_actor relu g e s) (prod (sdims (e_obs e))) = Ok (prod (sdims (e_act e))).
Proof.
  intros HP HB HA. destruct g as [t h a u c sm|h a|h u c a|h sm a|f fut|h]; try (exfalso; exact HP); try (exfalso; exact HB).
  - unfold the_actor, actor_size, body, the_net. cbn [t_layers]. rewrite dense_size. cbn [bind]. apply head_size; exact HA.
  - unfold the_actor, init_actor, actor_size, body, the_net. cbn [orth scale t_layers]. rewrite dense_size. cbn [bind].
    change (t_layers (scale (orth (top e s 1 h)))) with (t_layers (top e s 1 h)).
    unfold top at 1. rewrite head_size by exact HA. cbn [bind].
    destruct c; cbn [option_map]; [|reflexivity]. change (t_layers (orth (top e s 2 h))) with (t_layers (top e s 2 h)).
    unfold top. rewrite head_size by exact HA. cbn [bind]. unfold guard. rewrite Nat.eqb_refl. reflexivity.
  - unfold the_actor, actor_size, body, the_net. cbn [t_layers]. rewrite dense_size. cbn [bind]. apply head_size; exact HA.
Qed.
(** C194. Every actor of a built-in factory maps observations to outputs of the size of the action shape. *)
Lemma C194_actor_lemma : forall (Md : Type) (relu : Md) (f : @afact Md) (e : envs) (s s' : @st Md) (m : @amod Md),
  makes_base f -> 0 < prod (sdims (e_act e)) -> create_actor relu f e s = Ok (m, s') ->
  actor_size m (prod (sdims (e_obs e))) = Ok (prod (sdims (e_act e))).
Proof.
  intros Md relu f e s s' m HB HA H. rewrite create_actor_eq in H. destruct (resolve relu f (e_type e)) as [g|] eqn:E; [|discriminate H]. cbn [bind] in H.
  injection H as <- _. apply the_actor_size; [exact (resolve_plain _ _ _ _ E) | exact (resolve_base _ _ _ _ HB E) | exact HA].
Qed.
Lemma cont_size {Md : Type} (p l : @part Md) i h (a : Md) obs act : t_layers p = dense KLinear i h a -> t_layers l = [Linear KLinear (last h i) 1] ->
  obs + match act with Some x => x | None => 0 end = i -> critic_size (CCont p l false) obs act = Ok 1.
Proof.
  intros HP HL HI. unfold critic_size. cbn [bind]. rewrite HI, HP, dense_size. cbn [bind]. rewrite HL. unfold layers_size. cbn [foldM layer_size]. unfold guard.
  rewrite Nat.eqb_refl. reflexivity.
Qed.
Lemma disc_size {Md : Type} (p l : @part Md) i h (a : Md) n o : t_layers p = dense KLinear i h a -> t_layers l = t_layers (the_head KLinear 0 (last h i) o : @part Md) -> 0 < o ->
  n = i -> critic_size (CDisc p l) n None = Ok o.
Proof. intros HP HL HO ->. unfold critic_size. rewrite HP, dense_size. cbn [bind]. rewrite HL. exact (head_size _ _ _ _ HO). Qed.
(** C194. With default critics every learner can evaluate its critics as it does: one value, or for discrete SAC one value for every action.
    (DDPG and REDQ are for continuous environments only.) *)
Lemma C194_critic_lemma : forall (Md : Type) (relu tanh : Md) (k : akind) (af : @afact Md) (h1 h2 ens : list nat) (a1 a2 : Md) (e : envs) (s s' : @st Md) (p : @pol Md),
  0 < prod (sdims (e_act e)) -> (k = DDPG -> e_type e = ECont) -> (forall n, k <> REDQ n) ->
  create_policy relu tanh k af (CDefault h1 a1) (CDefault h2 a2) ens e s = Ok (p, s') ->
  forall c, In c (l_critics p) -> critic_size c (prod (sdims (e_obs e))) (call_with k e) =
    Ok (match k, e_type e with Dual, EDisc => prod (sdims (e_act e)) | _, _ => 1 end).
Proof.
  intros Md relu tanh k af h1 h2 ens a1 a2 e s s' p HA HD HR H c HC. destruct k as [| | |n|]; unfold create_policy in H; cbn [create_critic] in H.
  - destruct (create_actor relu af e s) as [[m s1]|]; [|discriminate H]. cbn [bind] in H.
    destruct (create_dist relu af (e_type e)) as [[d|]|]; try discriminate H. cbn [bind] in H. injection H as <- _. destruct HC.
  - destruct (create_actor relu af e s) as [[m s1]|]; [|discriminate H]. cbn [bind] in H.
    destruct (e_type e) eqn:ET; [rewrite cont_critic_eq in H | rewrite disc_critic_eq in H]; cbn [bind] in H;
      destruct (create_dist relu af _); try discriminate H; cbn [bind] in H; injection H as <- _; destruct HC as [<- | []]; cbn [call_with].
    + eapply cont_size; [reflexivity | reflexivity | lia].
    + eapply disc_size; [reflexivity | reflexivity | cbn; lia | lia].
  - specialize (HD eq_refl). destruct (create_actor relu af e s) as [[m s1]|]; [|discriminate H]. cbn [bind] in H. rewrite HD in *.
    rewrite cont_critic_eq in H. cbn [bind] in H. injection H as <- _. destruct HC as [<- | []]. cbn [call_with]. eapply cont_size; reflexivity.
  - exfalso. exact (HR n eq_refl).
  - destruct (create_actor relu af e s) as [[m s1]|]; [|discriminate H]. cbn [bind] in H. unfold call_with.
    destruct (e_type e) eqn:ET; cbn [is_cont] in H; [rewrite !cont_critic_eq in H | rewrite !disc_critic_eq in H]; cbn [bind] in H;
      [rewrite cont_critic_eq in H | rewrite disc_critic_eq in H]; cbn [bind] in H; injection H as <- _;
      destruct HC as [<- | [<- | []]].
    + eapply cont_size; reflexivity.
    + eapply cont_size; reflexivity.
    + eapply disc_size; [reflexivity | reflexivity | exact HA | cbn [is_cont]; lia].
    + eapply disc_size; [reflexivity | reflexivity | exact HA | cbn [is_cont]; lia].
Qed.

(** ** C194 and C195: critics that reuse the actor *)
Lemma stored_get {Md : Type} (f : @afact Md) (m : @amod Md) (s : @st Md) fut : fut < length (s_futs s) -> get_fut (stored (FStore f fut) m s) fut = Some m.
Proof.
  intros H. cbn [stored]. unfold get_fut, set_fut. cbn [s_futs]. apply nth_upd_same. rewrite stored_len. exact H.
Qed.
Lemma base_not_other {Md : Type} (relu : Md) g e s : plain g -> makes_base g -> forall p, the_actor relu g e s <> AOther p.
Proof. intros HP HB p. destruct g; try (exfalso; exact HP); try (exfalso; exact HB); cbn; discriminate. Qed.
Lemma create_store {Md : Type} (relu : Md) (f : @afact Md) fut e (s : @st Md) m s' : makes_base f -> fut < length (s_futs s) ->
  create_actor relu (FStore f fut) e s = Ok (m, s') ->
  get_fut s' fut = Some m /\ (forall p, m <> AOther p) /\ length (s_futs s') = length (s_futs s) /\ (forall j, fut <> j -> no_store f -> get_fut s' j = get_fut s j) /\
  exists g, resolve relu f (e_type e) = Ok g /\ m = the_actor relu g e s /\ plain g /\ makes_base g /\ s_next s' = used g + s_next s.
Proof.
  intros HB HF H. rewrite create_actor_eq in H. cbn [resolve] in H. destruct (resolve relu f (e_type e)) as [g|] eqn:E; [|discriminate H]. cbn [bind] in H.
  injection H as <- <-. change (set_fut (stored f (the_actor relu g e s) (bump (used g) s)) fut (the_actor relu g e s)) with (stored (FStore f fut) (the_actor relu g e s) (bump (used g) s)).
  split; [|split; [|split; [|split]]].
  - apply (stored_get f). exact HF.
  - apply base_not_other; [exact (resolve_plain _ _ _ _ E) | exact (resolve_base _ _ _ _ HB E)].
  - rewrite stored_len. reflexivity.
  - intros j Hj HN. cbn [stored]. unfold get_fut, set_fut. cbn [s_futs]. rewrite nth_upd_other by exact Hj. destruct f; try reflexivity. destruct HN.
  - exists g. repeat split; [exact (resolve_plain _ _ _ _ E) | exact (resolve_base _ _ _ _ HB E) |]. rewrite stored_next. reflexivity.
Qed.
Lemma actor_body_size {Md : Type} (relu : Md) g e (s : @st Md) : plain g -> makes_base g ->
  layers_size (prod (sdims (e_obs e))) (t_layers (pre_of (the_actor relu g e s))) = Ok (t_out (pre_of (the_actor relu g e s))).
Proof.
  intros HP HB. destruct g as [t h a u c sm|h a|h u c a|h sm a|f fut|h]; try (exfalso; exact HP); try (exfalso; exact HB); cbn; apply dense_size.
Qed.
(** What every reusing critic is, after the actor has been created. *)
Lemma reuse_after {Md : Type} (relu : Md) (f : @afact Md) fut e (s s1 : @st Md) m uas : makes_base f -> fut < length (s_futs s) ->
  create_actor relu (FStore f fut) e s = Ok (m, s1) ->
  forall s2, get_fut s2 fut = get_fut s1 fut ->
  create_critic relu (CReuse fut) e true uas s2 = Ok (match e_type e with EDisc => CDisc (pre_of m) (the_head KLinear (s_next s2) (t_out (pre_of m)) (last_size uas e))
                        | ECont => CCont (pre_of m) (the_head KLinear (s_next s2) (t_out (pre_of m)) 1) true end, bump 1 s2).
Proof.
  intros HB HF H s2 H2. destruct (create_store _ _ _ _ _ _ _ HB HF H) as (HG & HN & _). cbn [create_critic].
  apply reuse_eq; [rewrite H2; exact HG | exact HN].
Qed.
(** C194. Critics that reuse the actor's network work where they are evaluated with the observation only: A2C, PPO, NPG and TRPO, and discrete
    SAC. *)
Lemma C194_reuse_lemma : forall (Md : Type) (relu tanh : Md) (k : akind) (f : @afact Md) (fut : nat) (ens : list nat) (e : envs) (s s' : @st Md) (p : @pol Md),
  0 < prod (sdims (e_act e)) -> makes_base f -> fut < length (s_futs s) -> k = ActorCriticK \/ (k = Dual /\ e_type e = EDisc) ->
  create_policy relu tanh k (FStore f fut) (CReuse fut) (CReuse fut) ens e s = Ok (p, s') ->
  forall c, In c (l_critics p) -> critic_size c (prod (sdims (e_obs e))) (call_with k e) =
    Ok (match k with Dual => prod (sdims (e_act e)) | _ => 1 end).
Proof.
  intros Md relu tanh k f fut ens e s s' p HA HB HF HK H c HC.
  assert (D : forall m s1, create_actor relu (FStore f fut) e s = Ok (m, s1) -> forall n o, 0 < o ->
     critic_size (CDisc (pre_of m) (the_head KLinear n (t_out (pre_of m)) o)) (prod (sdims (e_obs e))) None = Ok o /\
     critic_size (CCont (pre_of m) (the_head KLinear n (t_out (pre_of m)) o) true) (prod (sdims (e_obs e))) None = Ok o).
  { intros m s1 HC0 n o HO. destruct (create_store _ _ _ _ _ _ _ HB HF HC0) as (_ & _ & _ & _ & g & _ & -> & HP & HG & _).
    unfold critic_size. rewrite actor_body_size by assumption. cbn [bind]. rewrite Nat.add_0_r. split; apply head_size; exact HO. }
  destruct HK as [-> | [-> ET]]; unfold create_policy in H;
    destruct (create_actor relu (FStore f fut) e s) as [[m s1]|] eqn:EA; try discriminate H; cbn [bind] in H; specialize (D _ _ eq_refl);
    pose proof (fun uas => reuse_after relu f fut e s s1 m uas HB HF EA) as R; cbn [create_critic] in R, H.
  - rewrite R in H by reflexivity. cbn [bind] in H. destruct (create_dist _ _ _); try discriminate H. cbn [bind] in H. injection H as <- _.
    destruct HC as [<- | []]. cbn [call_with]. destruct (e_type e); apply D; cbn; lia.
  - rewrite (R true s1) in H by reflexivity. cbn [bind] in H. rewrite R in H by reflexivity. cbn [bind] in H. injection H as <- _. unfold call_with. rewrite ET in *.
    destruct HC as [<- | [<- | []]]; apply D; exact HA.
Qed.
(** C194. Refuted where they are evaluated with an action as well: for DDPG, SAC and TD3 in a continuous environment every evaluation of such a
    critic raises. *)
Lemma C194_reuse_refuted_lemma : forall (Md : Type) (relu tanh : Md) (k : akind) (f : @afact Md) (fut : nat) (ens : list nat) (e : envs) (s s' : @st Md) (p : @pol Md),
  0 < prod (sdims (e_act e)) -> makes_base f -> fut < length (s_futs s) -> k = DDPG \/ k = Dual -> e_type e = ECont ->
  create_policy relu tanh k (FStore f fut) (CReuse fut) (CReuse fut) ens e s = Ok (p, s') ->
  l_critics p <> [] /\ forall c, In c (l_critics p) -> critic_size c (prod (sdims (e_obs e))) (call_with k e) = Err RuntimeError.
Proof.
  intros Md relu tanh k f fut ens e s s' p HA HB HF HK ET H.
  assert (D : forall m s1, create_actor relu (FStore f fut) e s = Ok (m, s1) -> forall n,
     critic_size (CCont (pre_of m) (the_head KLinear n (t_out (pre_of m)) 1) true) (prod (sdims (e_obs e))) (Some (prod (sdims (e_act e)))) = Err RuntimeError).
  { intros m s1 HC0 n. destruct (create_store _ _ _ _ _ _ _ HB HF HC0) as (_ & _ & _ & _ & g & _ & -> & HP & HG & _).
    unfold critic_size. rewrite actor_body_size by assumption. cbn [bind]. set (w := t_out _). unfold the_head, layers_size. cbn [t_layers Nat.ltb Nat.leb foldM layer_size].
    unfold guard. destruct (w =? w + prod (sdims (e_act e))) eqn:E; [apply Nat.eqb_eq in E; lia | reflexivity]. }
  destruct HK as [-> | ->]; unfold create_policy in H;
    destruct (create_actor relu (FStore f fut) e s) as [[m s1]|] eqn:EA; try discriminate H; cbn [bind] in H; specialize (D _ _ eq_refl);
    pose proof (fun uas => reuse_after relu f fut e s s1 m uas HB HF EA) as R; cbn [create_critic] in R, H.
  - rewrite R in H by reflexivity. cbn [bind] in H. injection H as <- _. split; [discriminate|]. intros c [<- | []]. cbn [call_with]. rewrite ET. apply D.
  - rewrite (R true s1) in H by reflexivity. cbn [bind] in H. rewrite R in H by reflexivity. cbn [bind] in H. injection H as <- _. unfold call_with. rewrite ET.
    split; [discriminate|]. intros c [<- | [<- | []]]; apply D.
Qed.

(** ** C195: sharing *)
Lemma actor_ids {Md : Type} (relu : Md) g e (s : @st Md) q : In q (parts_a (the_actor relu g e s)) -> s_next s <= t_id q < used g + s_next s.
Proof.
  destruct g as [t h a u c sm|h a|h u c a|h sm a|f fut|h]; cbn [the_actor parts_a used init_actor]; try (intros [<- | [<- | []]]; cbn; lia); try (intros [<- | []]; cbn; lia).
  destruct c; cbn [option_map]; [intros [<- | [<- | [<- | []]]] | intros [<- | [<- | []]]]; cbn; lia.
Qed.
Lemma create_actor_next {Md : Type} (relu : Md) (f : @afact Md) e (s : @st Md) m s' : create_actor relu f e s = Ok (m, s') ->
  s_next s < s_next s' /\ (forall q, In q (parts_a m) -> s_next s <= t_id q < s_next s') /\ t_id (pre_of m) = s_next s.
Proof.
  intros H. rewrite create_actor_eq in H. destruct (resolve relu f (e_type e)) as [g|] eqn:E; [|discriminate H]. cbn [bind] in H. injection H as <- <-.
  rewrite stored_next. cbn [bump s_next]. split; [|split].
  - unfold used. destruct g as [| |? ? c ?| | |]; try destruct c; lia.
  - intros q. apply actor_ids.
  - destruct g; reflexivity.
Qed.
Definition is_reuse {Md : Type} (f : @cfact Md) : bool := match f with CReuse _ => true | _ => false end.
Lemma create_critic_next {Md : Type} (relu : Md) (f : @cfact Md) e ua uas (s : @st Md) c s' : create_critic relu f e ua uas s = Ok (c, s') ->
  s_next s <= s_next s' /\ s_futs s' = s_futs s /\
  (is_reuse f = false -> forall q, In q (parts_c c) -> s_next s <= t_id q < s_next s') /\
  (forall fut, f = CReuse fut -> exists a, get_fut s fut = Some a /\ pre_c c = pre_of a).
Proof.
  intros H. destruct f as [h a|h a|h a|fut]; cbn [create_critic] in H.
  - destruct (e_type e); [rewrite cont_critic_eq in H | rewrite disc_critic_eq in H]; injection H as <- <-; cbn [bump s_next s_futs];
      (split; [lia | split; [reflexivity | split; [|discriminate]]]); intros _ q [<- | [<- | []]]; cbn; lia.
  - rewrite cont_critic_eq in H; injection H as <- <-; cbn [bump s_next s_futs];
      (split; [lia | split; [reflexivity | split; [|discriminate]]]); intros _ q [<- | [<- | []]]; cbn; lia.
  - rewrite disc_critic_eq in H; injection H as <- <-; cbn [bump s_next s_futs];
      (split; [lia | split; [reflexivity | split; [|discriminate]]]); intros _ q [<- | [<- | []]]; cbn; lia.
  - destruct (get_fut s fut) as [a|] eqn:EG; [|unfold reuse_critic in H; rewrite EG in H; discriminate H].
    assert (HN : forall p, a <> AOther p) by (intros p ->; unfold reuse_critic in H; rewrite EG in H; discriminate H).
    rewrite (reuse_eq _ _ _ _ _ _ EG HN) in H. injection H as <- <-. cbn [bump s_next s_futs]. split; [lia | split; [reflexivity | split; [discriminate|]]].
    intros fut' E. injection E as <-. exists a. split; [exact EG|]. destruct (e_type e); reflexivity.
Qed.
Lemma get_actor_base {Md : Type} (relu : Md) (b : @bld Md) : proper_actor b ->
  exists f, get_actor_factory relu b = FStore f (b_fut b) /\ makes_base f /\ no_store f.
Proof. intros H. unfold get_actor_factory, proper_actor in *. destruct (b_actor b) as [f|]; eexists; (split; [reflexivity|]); [exact H | split; exact Logic.I]. Qed.
(** The critic factory with which critic [i] is made. *)
Lemma run_critics {Md : Type} (relu tanh : Md) k ens e (x : @exper Md) (s s' : @st Md) (p : @pol Md) i c : (forall n, k <> REDQ n) ->
  run relu tanh k ens e x s = Ok (p, s') -> nth_error (l_critics p) i = Some c ->
  exists s1 s2 s3 ua uas, create_actor relu (x_actor x) e s = Ok (l_actor p, s1) /\ s_next s1 <= s_next s2 /\ s_futs s2 = s_futs s1 /\
    create_critic relu (if i =? 0 then x_c1 x else x_c2 x) e ua uas s2 = Ok (c, s3).
Proof.
  intros HR H HI. unfold run in H. destruct k as [| | |n|]; unfold create_policy in H.
  - destruct (create_actor relu (x_actor x) e s) as [[m s1]|] eqn:EA; try discriminate H. cbn [bind] in H.
    destruct (create_dist _ _ _) as [[d|]|]; try discriminate H. cbn [bind] in H. injection H as <- _. destruct i; discriminate HI.
  - destruct (create_actor relu (x_actor x) e s) as [[m s1]|] eqn:EA; try discriminate H. cbn [bind] in H.
    destruct (create_critic relu (x_c1 x) e false false s1) as [[c1 s2]|] eqn:EC; try discriminate H. cbn [bind] in H.
    destruct (create_dist _ _ _); try discriminate H. cbn [bind] in H. injection H as <- _. destruct i as [|[|i]]; try discriminate HI. injection HI as <-.
    exists s1, s1, s2, false, false. split; [reflexivity|]. split; [lia|]. split; [reflexivity | exact EC].
  - destruct (create_actor relu (x_actor x) e s) as [[m s1]|] eqn:EA; try discriminate H. cbn [bind] in H.
    destruct (create_critic relu (x_c1 x) e true false s1) as [[c1 s2]|] eqn:EC; try discriminate H. cbn [bind] in H.
    injection H as <- _. destruct i as [|[|i]]; try discriminate HI. injection HI as <-.
    exists s1, s1, s2, true, false. split; [reflexivity|]. split; [lia|]. split; [reflexivity | exact EC].
  - exfalso. exact (HR n eq_refl).
  - destruct (create_actor relu (x_actor x) e s) as [[m s1]|] eqn:EA; try discriminate H. cbn [bind] in H.
    destruct (create_critic relu (x_c1 x) e _ true s1) as [[c1 s2]|] eqn:EC; try discriminate H. cbn [bind] in H.
    destruct (create_critic relu (x_c2 x) e _ true s2) as [[c2 s3]|] eqn:EC2; try discriminate H. cbn [bind] in H.
    injection H as <- _. destruct (create_critic_next _ _ _ _ _ _ _ _ EC) as (HL & HF & _).
    destruct i as [|[|[|i]]]; try discriminate HI; injection HI as <-.
    + exists s1, s1, s2, (is_cont (e_type e)), true. split; [reflexivity|]. split; [lia|]. split; [reflexivity | exact EC].
    + exists s1, s2, s3, (is_cont (e_type e)), true. split; [reflexivity|]. split; [lia|]. split; [exact HF | exact EC2].
Qed.
(** C195. In a policy made by a built experiment, a critic that was set to use the actor has the actor's own preprocessing network (the same
    object), and every other critic shares nothing with the actor. *)
Lemma C195_shared_lemma : forall (Md : Type) (relu tanh : Md) (k : akind) (ens : list nat) (e : envs) (b : @bld Md) (s s' : @st Md) (p : @pol Md) (i : nat) (c : @cmod Md),
  (forall n, k <> REDQ n) -> own_future relu b -> proper_actor b -> b_fut b < length (s_futs s) -> i < 2 ->
  run relu tanh k ens e (build relu b) s = Ok (p, s') -> nth_error (l_critics p) i = Some c ->
  (get_critic_factory relu b i = CReuse (b_fut b) -> pre_c c = pre_of (l_actor p)) /\
  ((forall fut, get_critic_factory relu b i <> CReuse fut) -> forall q r, In q (parts_c c) -> In r (parts_a (l_actor p)) -> t_id q <> t_id r).
Proof.
  intros Md relu tanh k ens e b s s' p i c HR HO HP HF Hi H HI.
  destruct (run_critics _ _ _ _ _ _ _ _ _ _ _ HR H HI) as (s1 & s2 & s3 & ua & uas & EA & HN & HU & EC).
  assert (EF : (if i =? 0 then x_c1 (build relu b) else x_c2 (build relu b)) = get_critic_factory relu b i) by (destruct i as [|[|i]]; [reflexivity | reflexivity | lia]).
  rewrite EF in EC. destruct (create_critic_next _ _ _ _ _ _ _ _ EC) as (_ & _ & C1 & C2).
  cbn [build x_actor] in EA. destruct (get_actor_base relu b HP) as (f & EG & HB & HS). rewrite EG in EA.
  destruct (create_store _ _ _ _ _ _ _ HB HF EA) as (HG & _). destruct (create_actor_next _ _ _ _ _ _ EA) as (_ & HA & _). split.
  - intros E. destruct (C2 _ E) as (a & Ha & ->). unfold get_fut in Ha, HG. rewrite HU, HG in Ha. injection Ha as <-. reflexivity.
  - intros E q r Hq Hr. assert (HZ : is_reuse (get_critic_factory relu b i) = false) by (destruct (get_critic_factory relu b i); try reflexivity; exfalso; exact (E _ eq_refl)).
    specialize (C1 HZ q Hq). specialize (HA r Hr). lia.
Qed.
Lemma run_futs {Md : Type} (relu tanh : Md) k ens e (b : @bld Md) (s s' : @st Md) (p : @pol Md) : proper_actor b ->
  run relu tanh k ens e (build relu b) s = Ok (p, s') ->
  length (s_futs s') = length (s_futs s) /\ forall j, j <> b_fut b -> get_fut s' j = get_fut s j.
Proof.
  intros HP H. destruct (get_actor_base relu b HP) as (f & EG & HB & HS). unfold run in H.
  assert (A : forall m s1, create_actor relu (x_actor (build relu b)) e s = Ok (m, s1) ->
     length (s_futs s1) = length (s_futs s) /\ forall j, j <> b_fut b -> get_fut s1 j = get_fut s j).
  { intros m s1 EA. cbn [build x_actor] in EA. rewrite EG, create_actor_eq in EA. cbn [resolve] in EA. destruct (resolve relu f (e_type e)) as [g|]; [|discriminate EA].
    cbn [bind] in EA. injection EA as <- <-. split; [unfold set_fut; cbn [s_futs]; rewrite upd_length, stored_len; reflexivity|].
    intros j Hj. unfold get_fut, set_fut. cbn [s_futs]. rewrite nth_upd_other by congruence. destruct f; try reflexivity. destruct HS. }
  assert (Q : forall f ua uas (t : @st Md) c t', create_critic relu f e ua uas t = Ok (c, t') -> s_futs t' = s_futs t) by (intros; eapply create_critic_next; eassumption).
  assert (F : forall t t' : @st Md, s_futs t' = s_futs t -> length (s_futs t) = length (s_futs s) /\ (forall j, j <> b_fut b -> get_fut t j = get_fut s j) ->
     length (s_futs t') = length (s_futs s) /\ (forall j, j <> b_fut b -> get_fut t' j = get_fut s j)) by (intros t t' E; unfold get_fut; rewrite E; auto).
  destruct k as [| | |n|]; unfold create_policy in H.
  - destruct (create_actor _ _ e s) as [[m s1]|] eqn:EA; try discriminate H. cbn [bind] in H. destruct (create_dist _ _ _) as [[d|]|]; try discriminate H.
    cbn [bind] in H. injection H as _ <-. exact (A _ _ eq_refl).
  - destruct (create_actor _ _ e s) as [[m s1]|] eqn:EA; try discriminate H. cbn [bind] in H. destruct (create_critic relu _ e _ _ s1) as [[c1 s2]|] eqn:EC; try discriminate H.
    cbn [bind] in H. destruct (create_dist _ _ _); try discriminate H. cbn [bind] in H. injection H as _ <-. eapply F; [exact (Q _ _ _ _ _ _ EC) | exact (A _ _ eq_refl)].
  - destruct (create_actor _ _ e s) as [[m s1]|] eqn:EA; try discriminate H. cbn [bind] in H. destruct (create_critic relu _ e _ _ s1) as [[c1 s2]|] eqn:EC; try discriminate H.
    cbn [bind] in H. injection H as _ <-. eapply F; [exact (Q _ _ _ _ _ _ EC) | exact (A _ _ eq_refl)].
  - destruct (assert_type ECont (e_type e)) eqn:ET; [|discriminate H]. cbn [bind] in H. destruct (create_actor _ _ e s) as [[m s1]|] eqn:EA; try discriminate H. cbn [bind] in H.
    assert (EC : e_type e = ECont) by (destruct (e_type e); [reflexivity | discriminate ET]). rewrite ensemble_eq in H by exact EC. cbn [bind] in H. injection H as _ <-.
    eapply F; [|exact (A _ _ eq_refl)]. reflexivity.
  - destruct (create_actor _ _ e s) as [[m s1]|] eqn:EA; try discriminate H. cbn [bind] in H. destruct (create_critic relu _ e _ _ s1) as [[c1 s2]|] eqn:EC; try discriminate H.
    cbn [bind] in H. destruct (create_critic relu _ e _ _ s2) as [[c2 s3]|] eqn:EC2; try discriminate H. cbn [bind] in H. injection H as _ <-.
    eapply F; [exact (Q _ _ _ _ _ _ EC2) |]. eapply F; [exact (Q _ _ _ _ _ _ EC) | exact (A _ _ eq_refl)].
Qed.
Lemma copy_factory {Md : Type} (relu : Md) (b : @bld Md) s i :
  get_critic_factory relu (fst (copy_builder b s)) i = move_c (length (s_futs s)) (get_critic_factory relu b i).
Proof.
  unfold copy_builder, get_critic_factory. cbn [fst b_critics].
  change (nth i (map (option_map (move_c (length (s_futs s)))) (b_critics b)) None) with (nth i (map (option_map (move_c (length (s_futs s)))) (b_critics b)) (option_map (move_c (length (s_futs s))) None)).
  rewrite map_nth. destruct (nth i (b_critics b) None); reflexivity.
Qed.
(** C195. A copy of a builder is a builder of the same kind with a future of its own: what is said above holds for its experiments (as in
    [build_seeded_collection]), and their runs leave the futures of the original alone; runs of the original leave that of the copy alone. *)
Lemma C195_copy_lemma : forall (Md : Type) (relu tanh : Md) (k : akind) (ens : list nat) (e : envs) (b : @bld Md) (s : @st Md),
  own_future relu b -> proper_actor b -> b_fut b < length (s_futs s) ->
  let b' := fst (copy_builder b s) in let s0 := snd (copy_builder b s) in
  own_future relu b' /\ proper_actor b' /\ b_fut b' < length (s_futs s0) /\ b_fut b < length (s_futs s0) /\
  (forall i, get_critic_factory relu b i = CReuse (b_fut b) <-> get_critic_factory relu b' i = CReuse (b_fut b')) /\
  (forall p s', run relu tanh k ens e (build relu b') s0 = Ok (p, s') -> forall j, j < length (s_futs s) -> get_fut s' j = get_fut s j) /\
  (forall p s', run relu tanh k ens e (build relu b) s0 = Ok (p, s') -> get_fut s' (b_fut b') = get_fut s0 (b_fut b')).
Proof.
  intros Md relu tanh k ens e b s HO HP HF b' s0.
  assert (L : length (s_futs s0) = length (s_futs s) + length (s_futs s)) by (unfold s0, copy_builder, copy_futs; cbn [snd s_futs]; rewrite app_length, map_length; reflexivity).
  assert (B : b_fut b' = length (s_futs s) + b_fut b) by reflexivity.
  assert (P : proper_actor b') by exact HP.
  split; [|split; [exact P | split; [rewrite L, B; lia | split; [rewrite L; lia | split; [|split]]]]].
  - intros i fut E. unfold b' in E. rewrite copy_factory in E. destruct (get_critic_factory relu b i) as [h a|h a|h a|fut0] eqn:EG; try discriminate E. cbn in E. injection E as <-.
    rewrite (HO i fut0 EG). reflexivity.
  - intro i. unfold b' at 1. rewrite copy_factory. split; intros E.
    + rewrite E. reflexivity.
    + destruct (get_critic_factory relu b i) as [h a|h a|h a|fut0] eqn:EG; try discriminate E. rewrite (HO i fut0 EG). reflexivity.
  - intros p s' H j Hj. destruct (run_futs _ _ _ _ _ _ _ _ _ P H) as [_ HG]. rewrite HG by lia. unfold s0, copy_builder, copy_futs, get_fut. cbn [snd s_futs]. apply app_nth1, Hj.
  - intros p s' H. destruct (run_futs _ _ _ _ _ _ _ _ _ HP H) as [_ HG]. apply HG. lia.
Qed.
(** C195. Refuted for an experiment that has been saved and loaded, or sent to another process: the future of the actor factory is replaced by a
    new one. If the experiment had not been run, creating the policy raises a ValueError; otherwise the critic gets an old actor's network. *)
Lemma C195_pickle_refuted_lemma : forall (Md : Type) (relu tanh : Md) (k : akind) (ens : list nat) (e : envs) (b : @bld Md) (s : @st Md),
  k = ActorCriticK \/ k = DDPG \/ k = Dual -> proper_actor b -> b_fut b < length (s_futs s) -> known s -> get_critic_factory relu b 0 = CReuse (b_fut b) ->
  let x := fst (reload (build relu b) s) in let s0 := snd (reload (build relu b) s) in
  (get_fut s (b_fut b) = None -> is_ok (create_actor relu (x_actor x) e s0) = true -> run relu tanh k ens e x s0 = Err ValueError) /\
  (forall p s' c, run relu tanh k ens e x s0 = Ok (p, s') -> nth_error (l_critics p) 0 = Some c -> t_id (pre_c c) <> t_id (pre_of (l_actor p))).
Proof.
  intros Md relu tanh k ens e b s HK HP HF HW HC x s0. destruct (get_actor_base relu b HP) as (f & EG & HB & HS).
  set (n := length (s_futs s)) in *.
  assert (EX : x = mkX (FStore f (n + n)) (CReuse (n + b_fut b)) (move_c n (get_critic_factory relu b 1))).
  { unfold x, reload, build. cbn [x_actor x_c1 x_c2]. rewrite EG. cbn [reload_a fst]. rewrite HC. unfold copy_futs. cbn [s_futs]. rewrite app_length, map_length. reflexivity. }
  assert (ES : s_futs s0 = s_futs s ++ map (option_map (copy_actor (s_next s))) (s_futs s) ++ [None] /\ s_next s0 = s_next s + s_next s).
  { unfold s0, reload, build. cbn [x_actor]. rewrite EG. cbn [reload_a snd s_futs copy_futs s_next]. rewrite <- app_assoc. split; reflexivity. }
  destruct ES as [ES EN].
  assert (ST : forall m s1, create_actor relu (x_actor x) e s0 = Ok (m, s1) ->
     get_fut s1 (n + b_fut b) = option_map (copy_actor (s_next s)) (get_fut s (b_fut b)) /\ t_id (pre_of m) = s_next s + s_next s).
  { intros m s1 H. split; [|rewrite <- EN; exact (proj2 (proj2 (create_actor_next _ _ _ _ _ _ H)))].
    rewrite EX in H. cbn [x_actor] in H. rewrite create_actor_eq in H. cbn [resolve] in H. destruct (resolve relu f (e_type e)) as [g|]; [|discriminate H].
    cbn [bind] in H. injection H as <- <-. unfold get_fut, set_fut. cbn [s_futs]. rewrite nth_upd_other by lia.
    assert (EF : s_futs (stored f (the_actor relu g e s0) (bump (used g) s0)) = s_futs s0) by (destruct f; try reflexivity; destruct HS). rewrite EF, ES.
    rewrite app_nth2 by lia. replace (n + b_fut b - length (s_futs s)) with (b_fut b) by (unfold n; lia).
    rewrite app_nth1 by (rewrite map_length; exact HF). change (@None (@amod Md)) with (option_map (copy_actor (s_next s)) (@None (@amod Md))) at 1. apply map_nth. }
  split.
  - intros HE HO. destruct (create_actor relu (x_actor x) e s0) as [[m s1]|] eqn:EA; [|discriminate HO]. destruct (ST _ _ eq_refl) as [HG _]. rewrite HE in HG. cbn in HG.
    assert (EC : forall ua uas, create_critic relu (x_c1 x) e ua uas s1 = Err ValueError).
    { intros. rewrite EX. cbn [x_c1 create_critic]. unfold reuse_critic. rewrite HG. reflexivity. }
    unfold run. destruct HK as [-> | [-> | ->]]; unfold create_policy; rewrite EA; cbn [bind]; rewrite EC; reflexivity.
  - intros p s' c H HI. destruct (run_critics relu tanh k ens e x s0 s' p 0 c ltac:(intros nn ->; destruct HK as [D | [D | D]]; discriminate D) H HI)
      as (s1 & s2 & s3 & ua & uas & EA & _ & HU & EC). destruct (ST _ _ EA) as [HG HT]. cbn [Nat.eqb] in EC. rewrite EX in EC. cbn [x_c1] in EC.
    destruct (create_critic_next _ _ _ _ _ _ _ _ EC) as (_ & _ & _ & C2). destruct (C2 _ eq_refl) as (a & Ha & ->). unfold get_fut in Ha, HG. rewrite HU, HG in Ha.
    destruct (get_fut s (b_fut b)) as [a0|] eqn:EZ; unfold get_fut in EZ; rewrite EZ in Ha; [|discriminate Ha]. cbn in Ha. injection Ha as <-.
    pose proof (HW _ _ EZ) as HL. rewrite HT. assert (EI : t_id (pre_of (copy_actor (s_next s) a0)) = s_next s + t_id (pre_of a0)) by (destruct a0; reflexivity). lia.
Qed.

(** ** C196: distributions *)
(** C196. The distribution function of an actor factory fits the actor that it creates: probabilities after a softmax, logits without, location and
    scale for a Gaussian actor, none otherwise. In particular neither step fails if the other succeeds in an environment of the right type. *)
Lemma C196_dist_lemma : forall (Md : Type) (relu : Md) (f : @afact Md) (e : envs) (s s' : @st Md) (m : @amod Md) (d : option dist),
  create_actor relu f e s = Ok (m, s') -> create_dist relu f (e_type e) = Ok d ->
  d = match m with ADisc _ _ sm => Some (if sm then DProbs else DLogits) | AProb _ _ _ _ => Some DGauss | _ => None end.
Proof.
  intros Md relu f e s s' m d HA HD. rewrite create_actor_eq in HA. rewrite create_dist_eq in HD. destruct (resolve relu f (e_type e)) as [g|] eqn:ER; [|discriminate HA].
  cbn [bind] in HA, HD. injection HA as <- _. apply resolve_plain in ER. destruct g as [t h a u c sm|h a|h u c a|h sm a|f' fut|h]; try (exfalso; exact ER); cbn [base_dist] in HD.
  - injection HD as <-. reflexivity.
  - destruct (assert_type _ _); [|discriminate HD]. injection HD as <-. reflexivity.
  - destruct (assert_type _ _); [|discriminate HD]. injection HD as <-. reflexivity.
  - injection HD as <-. reflexivity.
Qed.
Lemma nth_map_at {A B : Type} (f : A -> B) l j d d' : j < length l -> nth j (map f l) d = f (nth j l d').
Proof. intros H. rewrite (nth_indep (map f l) d (f d')) by (rewrite map_length; exact H). apply map_nth. Qed.
Lemma map_nonempty {A B : Type} (f : A -> B) l : l <> [] -> map f l <> [].
Proof. destruct l; [congruence | discriminate]. Qed.
Lemma softmax_total e l : (forall x, 0 < e x)%Qc -> l <> [] -> qsum (softmax e l) = 1%Qc.
Proof.
  intros HE HL. unfold softmax. rewrite qsum_scale. apply div_self, qsum_pos; [apply map_nonempty, HL|]. intros x Hx. apply in_map_iff in Hx. destruct Hx as (y & <- & _). apply HE.
Qed.
(** C196. With it, the distribution that is sampled from is the softmax of the output of the last linear layer, whether or not the actor applies the
    softmax itself. *)
Lemma C196_softmax_lemma : forall (e : Qc -> Qc) (sm : bool) (l : row), (forall x, (0 < e x)%Qc) -> l <> [] ->
  categorical e (if sm then DProbs else DLogits) (disc_out e sm l) = softmax e l.
Proof.
  intros e sm l HE HL. destruct sm; cbn [categorical disc_out]; [|reflexivity]. unfold normalize. rewrite (softmax_total e l HE HL). rewrite <- (map_id (softmax e l)) at 2.
  apply map_ext. intros x. unfold Qcdiv. replace (/ 1)%Qc with 1%Qc by (apply Qc_is_canon; reflexivity). ring.
Qed.
Lemma fold_actor {Md : Type} : forall (ops : list (@bop Md)) (b : @bld Md),
  b_actor (fold_left bstep ops b) = match latest (sets_actor (b_type b)) ops with Some f => Some f | None => b_actor b end /\
  b_type (fold_left bstep ops b) = b_type b /\ b_fut (fold_left bstep ops b) = b_fut b /\ length (b_critics (fold_left bstep ops b)) = length (b_critics b).
Proof.
  induction ops as [|o ops IH]; intros b; [cbn; auto|]. cbn [fold_left latest]. destruct (IH (bstep b o)) as (A & T & F & L). rewrite A, T, F, L.
  destruct o; cbn [bstep b_actor b_type b_fut b_critics sets_actor]; rewrite ?upd_length, ?map_length; (split; [|auto]); destruct (latest _ ops); reflexivity.
Qed.
(** C196. Refuted for discrete SAC: it takes the output of the actor for logits, while the actor of its builder applies a softmax, whatever is set
    with [with_actor_factory_default]. So the policy is nearly uniform: no action is more probable than e times any other. *)
Lemma C196_dsac_refuted_lemma : forall (Md : Type) (relu tanh : Md) (t : catype) (fut : nat) (cs : list (option (@cfact Md))) (ops : list (@bop Md)) (ens : list nat)
  (e : envs) (s s' : @st Md) (p : @pol Md) (ex : Qc -> Qc) (l : row) (i j : nat),
  (forall o f, In o ops -> o <> WActor f) -> e_type e = EDisc ->
  run relu tanh Dual ens e (build relu (fold_left bstep ops (mkBld t fut None cs))) s = Ok (p, s') ->
  (forall x, 0 < ex x)%Qc -> (forall x y, x <= y -> ex x <= ex y)%Qc -> i < length l -> j < length l ->
  (exists q r, l_actor p = ADisc q r true) /\
  (nth i (dsac_probs ex true l) 0 * ex 0 <= nth j (dsac_probs ex true l) 0 * ex 1)%Qc.
Proof.
  intros Md relu tanh t fut cs ops ens e s s' p ex l i j HO HE H EP EM Hi Hj. split.
  - unfold run, create_policy in H. destruct (create_actor relu (x_actor _) e s) as [[m s1]|] eqn:EA; try discriminate H. cbn [bind] in H.
    destruct (create_critic relu _ e _ _ s1) as [[c1 s2]|]; try discriminate H. cbn [bind] in H.
    destruct (create_critic relu _ e _ _ s2) as [[c2 s3]|]; try discriminate H. cbn [bind] in H. injection H as <- _. cbn [l_actor].
    cbn [build x_actor] in EA. unfold get_actor_factory in EA. destruct (fold_actor ops (mkBld t fut None cs)) as (A & T & F & _). rewrite A, T, F in EA. cbn [b_type b_fut b_actor] in EA.
    assert (G : match latest (sets_actor t) ops with Some f => exists h a u c, f = FDefault t h a u c true | None => True end).
    { clear - HO. induction ops as [|o ops IH]; [exact Logic.I|]. cbn [latest]. assert (IH' := IH (fun o' f Ho => HO o' f (in_cons _ _ _ Ho))).
      destruct (latest (sets_actor t) ops) as [f|]; [exact IH'|]. destruct o as [f|h a u c| | | | | |]; cbn [sets_actor]; try exact Logic.I;
        [exfalso; exact (HO (WActor f) f (or_introl eq_refl) eq_refl) | exists h, a, u, c; reflexivity]. }
    rewrite create_actor_eq in EA. destruct (latest (sets_actor t) ops) as [f|].
    + destruct G as (h & a & u & c & ->). cbn [resolve] in EA. rewrite HE in EA. cbn [pick_factory bind] in EA. injection EA as <- _. eexists _, _. reflexivity.
    + cbn [resolve] in EA. rewrite HE in EA. cbn [pick_factory bind] in EA. injection EA as <- _. eexists _, _. reflexivity.
  - unfold dsac_probs, categorical, disc_out. set (z := softmax ex l).
    assert (LZ : length z = length l) by apply softmax_len.
    assert (HS : (0 < qsum (map ex z))%Qc).
    { apply qsum_pos; [apply map_nonempty; intros E; rewrite E in LZ; cbn in LZ; lia|]. intros x Hx. apply in_map_iff in Hx. destruct Hx as (y & <- & _). apply EP. }
    assert (HN : forall k, k < length l -> nth k (softmax ex z) 0%Qc = (ex (nth k z 0%Qc) / qsum (map ex z))%Qc).
    { intros k Hk. unfold softmax at 1. rewrite nth_map_at with (d' := 0%Qc) by lia. reflexivity. }
    rewrite !HN by assumption.
    assert (HB : forall k, k < length l -> (0 <= nth k z 0%Qc <= 1)%Qc).
    { intros k Hk. assert (HS2 : (0 < qsum (map ex l))%Qc).
      { apply qsum_pos; [apply map_nonempty; intros E; rewrite E in Hk; cbn in Hk; lia|]. intros x Hx. apply in_map_iff in Hx. destruct Hx as (y & <- & _). apply EP. }
      unfold z, softmax. rewrite nth_map_at with (d' := 0%Qc) by assumption. split; [apply Qclt_le_weak, div_pos; [exact HS2 | apply EP]|].
      assert (HQ : (ex (nth k l 0%Qc) <= qsum (map ex l))%Qc).
      { clear - EP Hk. revert k Hk. induction l as [|x l IH]; intros k Hk; [cbn in Hk; lia|]. cbn [map qsum].
        assert (P : (0 <= qsum (map ex l))%Qc). { clear - EP. induction l as [|x l IH]; cbn [map qsum]; [qclra|]. assert (H := EP x). qclra. }
        destruct k as [|k]; cbn [nth]; [qclra|]. cbn [length] in Hk. assert (H := IH k ltac:(lia)). assert (H2 := EP x). qclra. }
      set (a := ex (nth k l 0%Qc)) in *. set (b := qsum (map ex l)) in *. destruct (Qc_eq_dec a b) as [-> | NE]; [rewrite div_self by exact HS2; qclra|].
      apply Qclt_le_weak. rewrite <- (div_self b HS2). apply div_lt_iff; [exact HS2|]. apply Qcle_lt_or_eq in HQ. destruct HQ; [assumption | contradiction]. }
    destruct (HB i Hi) as [_ I1]. destruct (HB j Hj) as [J0 _].
    assert (A := EM _ _ I1). assert (B := EM _ _ J0). set (x := ex (nth i z 0%Qc)) in *. set (y := ex (nth j z 0%Qc)) in *. set (sum := qsum (map ex z)) in *.
    assert (PR : (x * ex 0 <= y * ex 1)%Qc).
    { apply Qcle_trans with (ex 1 * ex 0)%Qc; [apply Qcmult_le_compat_r; [exact A | apply Qclt_le_weak, EP]|]. rewrite (Qcmult_comm (ex 1%Qc) (ex 0%Qc)). apply Qcmult_le_compat_r; [exact B | apply Qclt_le_weak, EP]. }
    replace (x / sum * ex 0)%Qc with (x * ex 0 * / sum)%Qc by (unfold Qcdiv; ring). replace (y / sum * ex 1)%Qc with (y * ex 1 * / sum)%Qc by (unfold Qcdiv; ring).
    apply Qcmult_le_compat_r; [exact PR|]. assert (V := div_pos 1%Qc sum HS ltac:(qclra)). unfold Qcdiv in V. replace (1 * / sum)%Qc with (/ sum)%Qc in V by ring. apply Qclt_le_weak, V.
Qed.
(** C196. Discrete SAC with an actor without softmax samples from the softmax of the last layer's output. *)
Lemma C196_dsac_lemma : forall (Md : Type) (relu tanh : Md) (b : @bld Md) (h : list nat) (a : Md) (ens : list nat) (e : envs) (s s' : @st Md) (p : @pol Md) (ex : Qc -> Qc) (l : row),
  b_actor b = Some (FDisc h false a) -> run relu tanh Dual ens e (build relu b) s = Ok (p, s') ->
  (exists q r, l_actor p = ADisc q r false) /\ dsac_probs ex false l = softmax ex l.
Proof.
  intros Md relu tanh b h a ens e s s' p ex l HB H. split; [|reflexivity]. unfold run, create_policy in H. cbn [build x_actor] in H. unfold get_actor_factory in H. rewrite HB, create_actor_eq in H.
  cbn [resolve bind] in H. destruct (create_critic relu _ e _ _ _) as [[c1 s2]|]; try discriminate H. cbn [bind] in H.
  destruct (create_critic relu _ e _ _ s2) as [[c2 s3]|]; try discriminate H. cbn [bind] in H. injection H as <- _. eexists _, _. reflexivity.
Qed.

(** ** C197: types of environments *)
Lemma critic_total {Md : Type} (relu : Md) h (a : Md) e ua uas s : exists c s', create_critic relu (CDefault h a) e ua uas s = Ok (c, s').
Proof. cbn [create_critic]. destruct (e_type e); [rewrite cont_critic_eq | rewrite disc_critic_eq]; eexists _, _; reflexivity. Qed.
(** C197. With the default factories: the agents with a Gaussian actor (PG, A2C, PPO, NPG, TRPO, SAC) are created for both types of environments,
    with a distribution function where one is used; the agents with a deterministic actor (DDPG, TD3) in continuous environments; those for which
    no continuous actor is defined (DQN, IQN, discrete SAC) exactly for discrete environments, with a ValueError otherwise; REDQ exactly for continuous
    environments, with an AssertionError otherwise. *)
Lemma C197_default_lemma : forall (Md : Type) (relu tanh : Md) (h1 h2 h3 ens : list nat) (a1 a2 a3 : Md) (u c sm : bool) (n : nat) (e : envs) (s : @st Md),
  let mk k t := create_policy relu tanh k (FDefault t h1 a1 u c sm) (CDefault h2 a2) (CDefault h3 a3) ens e s in
  (forall k, k = PG \/ k = ActorCriticK -> exists p s', mk k Gaussian = Ok (p, s') /\ l_dist p = Some (match e_type e with ECont => DGauss | EDisc => if sm then DProbs else DLogits end)) /\
  is_ok (mk Dual Gaussian) = true /\
  (e_type e = ECont -> is_ok (mk DDPG Deterministic) = true /\ is_ok (mk Dual Deterministic) = true) /\
  (forall t, mk Dual t = Err ValueError <-> t = Unsupported /\ e_type e = ECont) /\
  (intermediate relu (FDefault Unsupported h1 a1 u c sm) e s = Err ValueError <-> e_type e = ECont) /\
  (e_type e = EDisc -> is_ok (intermediate relu (FDefault Unsupported h1 a1 u c sm) e s) = true) /\
  (mk (REDQ n) Gaussian = Err AssertionError <-> e_type e = EDisc) /\ (e_type e = ECont -> is_ok (mk (REDQ n) Gaussian) = true).
Proof.
  intros Md relu tanh h1 h2 h3 ens a1 a2 a3 u c sm n e s mk.
  assert (D : forall t, (t = Unsupported -> e_type e = EDisc) -> is_ok (mk Dual t) = true).
  { intros t Ht. unfold mk, create_policy. rewrite create_actor_eq. cbn [resolve].
    assert (ER : exists g, pick_factory relu t h1 a1 u c sm (e_type e) = Ok g) by (unfold pick_factory; destruct (e_type e); [destruct t|]; try (eexists; reflexivity); specialize (Ht eq_refl); discriminate Ht).
    destruct ER as [g ->]. cbn [bind].
    match goal with |- context [create_critic relu (CDefault h2 a2) e ?x ?y ?z] => destruct (critic_total relu h2 a2 e x y z) as (c1 & s1 & ->) end. cbn [bind].
    match goal with |- context [create_critic relu (CDefault h3 a3) e ?x ?y ?z] => destruct (critic_total relu h3 a3 e x y z) as (c2 & s2 & ->) end. reflexivity. }
  split; [|split; [|split; [|split; [|split; [|split; [|split]]]]]].
  - intros k [-> | ->]; unfold mk, create_policy; rewrite create_actor_eq; cbn [resolve].
    + unfold create_dist, pick_factory. destruct (e_type e); cbn; eexists _, _; split; reflexivity.
    + assert (ER : exists g, pick_factory relu Gaussian h1 a1 u c sm (e_type e) = Ok g) by (unfold pick_factory; destruct (e_type e); eexists; reflexivity).
      destruct ER as [g EG]. rewrite EG. cbn [bind].
      match goal with |- context [create_critic relu (CDefault h2 a2) e ?x ?y ?z] => destruct (critic_total relu h2 a2 e x y z) as (c1 & s1 & ->) end. cbn [bind].
      unfold create_dist, pick_factory. destruct (e_type e); cbn; eexists _, _; split; reflexivity.
  - apply D. discriminate.
  - intros EC. split; [|apply D; discriminate]. unfold mk, create_policy. rewrite create_actor_eq. cbn [resolve]. rewrite EC. cbn [pick_factory bind].
    match goal with |- context [create_critic relu (CDefault h2 a2) e ?x ?y ?z] => destruct (critic_total relu h2 a2 e x y z) as (c1 & s1 & ->) end. reflexivity.
  - intros t. split.
    + intros H. assert (N : is_ok (mk Dual t) = true -> False) by (rewrite H; discriminate).
      destruct t; [exfalso; apply N, D; discriminate | exfalso; apply N, D; discriminate |]. split; [reflexivity|]. destruct (e_type e) eqn:EE; [reflexivity|]. exfalso. apply N, D. intros _. reflexivity.
    + intros [-> EC]. unfold mk, create_policy. rewrite create_actor_eq. cbn [resolve]. rewrite EC. reflexivity.
  - unfold intermediate. rewrite create_actor_eq. cbn [resolve]. destruct (e_type e) eqn:EE; cbn; split; intros H; try reflexivity; discriminate H.
  - intros EE. unfold intermediate. rewrite create_actor_eq. cbn [resolve]. rewrite EE. reflexivity.
  - unfold mk, create_policy. destruct (e_type e) eqn:EE; cbn [assert_type is_cont Bool.eqb guard bind]; split; intros H; try reflexivity; try discriminate H.
    exfalso. rewrite create_actor_eq in H. cbn [resolve] in H. rewrite EE in H. cbn [pick_factory bind] in H. rewrite ensemble_eq in H by exact EE. discriminate H.
  - intros EE. unfold mk, create_policy. rewrite EE. cbn [assert_type is_cont Bool.eqb guard bind]. rewrite create_actor_eq. cbn [resolve]. rewrite EE. cbn [pick_factory bind]. rewrite ensemble_eq by exact EE. reflexivity.
Qed.
(** C197. Refuted for A2C, PPO, NPG and TRPO with an actor factory that defines no distribution: the policy is created with None for a distribution
    function (calling it raises a TypeError later), where PG raises an AssertionError. *)
Lemma C197_no_dist_refuted_lemma : forall (Md : Type) (relu tanh : Md) (h1 h2 ens : list nat) (a1 a2 : Md) (e : envs) (s : @st Md) (c2 : @cfact Md) (f : @afact Md),
  f = FDet h1 a1 \/ f = FOther h1 ->
  create_policy relu tanh PG f (CDefault h2 a2) c2 ens e s = Err AssertionError /\
  exists p s', create_policy relu tanh ActorCriticK f (CDefault h2 a2) c2 ens e s = Ok (p, s') /\ l_dist p = None.
Proof.
  intros Md relu tanh h1 h2 ens a1 a2 e s c2 f [-> | ->]; unfold create_policy; rewrite create_actor_eq; cbn [resolve bind create_dist base_dist]; (split; [reflexivity|]);
    match goal with |- context [create_critic relu (CDefault h2 a2) e ?x ?y ?z] => destruct (critic_total relu h2 a2 e x y z) as (c1 & s1 & ->) end; cbn [bind]; eexists _, _; split; reflexivity.
Qed.

(** ** C198: optimizers *)
Lemma actor_nodup {Md : Type} (relu : Md) g e (s : @st Md) : NoDup (ids (parts_a (the_actor relu g e s))).
Proof.
  destruct g as [t h a u c sm|h a|h u c a|h sm a|f fut|h]; cbn; try (repeat constructor; cbn; intuition lia).
  destruct c; cbn; repeat constructor; cbn; intuition lia.
Qed.
Lemma critic_new {Md : Type} (relu : Md) f e ua uas (s : @st Md) c s' : is_reuse f = false -> create_critic relu f e ua uas s = Ok (c, s') -> ids (parts_c c) = [s_next s; S (s_next s)] /\ s_next s' = 2 + s_next s.
Proof.
  intros HR H. destruct f as [h a|h a|h a|fut]; cbn [create_critic] in H; [destruct (e_type e) | | | discriminate HR];
    try (rewrite cont_critic_eq in H; injection H as <- <-; split; reflexivity); rewrite disc_critic_eq in H; injection H as <- <-; split; reflexivity.
Qed.
Lemma nodup_app {A : Type} (l m : list A) : NoDup l -> NoDup m -> (forall x, In x l -> In x m -> False) -> NoDup (l ++ m).
Proof.
  induction l as [|x l IH]; intros HL HM HD; [exact HM|]. inversion HL as [|? ? HX HL']; subst. cbn. constructor.
  - rewrite in_app_iff. intros [Q | Q]; [exact (HX Q) | exact (HD x (or_introl eq_refl) Q)].
  - apply IH; [exact HL' | exact HM | intros y Hy; apply HD, in_cons, Hy].
Qed.
Lemma union_spec a b x : In x (union_ids a b) <-> In x a \/ In x b.
Proof.
  unfold union_ids. rewrite in_app_iff, filter_In. split; [intros [H | [H _]]; auto|]. intros [H | H]; [auto|].
  destruct (existsb (Nat.eqb x) a) eqn:E; [left | right; split; [exact H | reflexivity]]. apply existsb_exists in E. destruct E as (y & HY & EY). apply Nat.eqb_eq in EY. subst y. exact HY.
Qed.
Lemma union_nodup a b : NoDup a -> NoDup b -> NoDup (union_ids a b).
Proof.
  intros HA HB. apply nodup_app; [exact HA | apply NoDup_filter, HB|]. intros x HX HF. apply filter_In in HF. destruct HF as [_ HF].
  assert (E : existsb (Nat.eqb x) a = true) by (apply existsb_exists; exists x; split; [exact HX | apply Nat.eqb_refl]). rewrite E in HF. discriminate HF.
Qed.
(** C198. With critics of their own, every part of the actor and of the critics is given to exactly one optimizer. *)
Lemma C198_once_lemma : forall (Md : Type) (relu tanh : Md) (k : akind) (f : @afact Md) (c1 c2 : @cfact Md) (ens : list nat) (e : envs) (s s' : @st Md) (p : @pol Md),
  (forall fut, c1 <> CReuse fut) -> (forall fut, c2 <> CReuse fut) -> create_policy relu tanh k f c1 c2 ens e s = Ok (p, s') ->
  NoDup (concat (l_optims p)) /\ forall i, In i (concat (l_optims p)) <-> In i (all_ids p).
Proof.
  intros Md relu tanh k f c1 c2 ens e s s' p H1 H2 H.
  assert (R1 : is_reuse c1 = false) by (destruct c1; try reflexivity; exfalso; exact (H1 _ eq_refl)).
  assert (R2 : is_reuse c2 = false) by (destruct c2; try reflexivity; exfalso; exact (H2 _ eq_refl)).
  assert (ND : forall m s1, create_actor relu f e s = Ok (m, s1) -> NoDup (ids (parts_a m)) /\ forall i, In i (ids (parts_a m)) -> i < s_next s1).
  { intros m s1 EA. split.
    - rewrite create_actor_eq in EA. destruct (resolve relu f (e_type e)); [|discriminate EA]. injection EA as <- _. apply actor_nodup.
    - intros i Hi. unfold ids in Hi. apply in_map_iff in Hi. destruct Hi as (q & <- & Hq). exact (proj2 (proj1 (proj2 (create_actor_next _ _ _ _ _ _ EA)) q Hq)). }
  assert (N2 : forall a, NoDup [a; S a]) by (intros a; repeat constructor; cbn; intuition lia).
  destruct k as [| | |n|]; unfold create_policy in H.
  - destruct (create_actor relu f e s) as [[m s1]|] eqn:EA; try discriminate H. destruct (ND _ _ eq_refl) as [NA LA]. cbn [bind] in H. destruct (create_dist _ _ _) as [[d|]|]; try discriminate H.
    cbn [bind] in H. injection H as <- _. unfold all_ids. cbn [l_optims l_actor l_critics map concat]. rewrite !app_nil_r. split; [exact NA | reflexivity].
  - destruct (create_actor relu f e s) as [[m s1]|] eqn:EA; try discriminate H. destruct (ND _ _ eq_refl) as [NA LA]. cbn [bind] in H.
    destruct (create_critic relu c1 e _ _ s1) as [[x s2]|] eqn:EC; try discriminate H. destruct (critic_new _ _ _ _ _ _ _ _ R1 EC) as [I1 L1].
    cbn [bind] in H. destruct (create_dist _ _ _); try discriminate H. cbn [bind] in H. injection H as <- _. unfold all_ids. cbn [l_optims l_actor l_critics map concat]. rewrite !app_nil_r.
    split; [apply union_nodup; [exact NA | rewrite I1; apply N2]|]. intros i. rewrite union_spec, in_app_iff. reflexivity.
  - destruct (create_actor relu f e s) as [[m s1]|] eqn:EA; try discriminate H. destruct (ND _ _ eq_refl) as [NA LA]. cbn [bind] in H.
    destruct (create_critic relu c1 e _ _ s1) as [[x s2]|] eqn:EC; try discriminate H. destruct (critic_new _ _ _ _ _ _ _ _ R1 EC) as [I1 L1].
    cbn [bind] in H. injection H as <- _. unfold all_ids. cbn [l_optims l_actor l_critics map concat]. rewrite !app_nil_r. split; [|reflexivity].
    apply nodup_app; [exact NA | rewrite I1; apply N2|]. intros i Hi Hj. apply LA in Hi. rewrite I1 in Hj. cbn in Hj. lia.
  - destruct (assert_type ECont (e_type e)) eqn:ET; [|discriminate H]. cbn [bind] in H. destruct (create_actor relu f e s) as [[m s1]|] eqn:EA; try discriminate H. destruct (ND _ _ eq_refl) as [NA LA]. cbn [bind] in H.
    assert (EC : e_type e = ECont) by (destruct (e_type e); [reflexivity | discriminate ET]). rewrite ensemble_eq in H by exact EC. cbn [bind] in H. injection H as <- _.
    unfold all_ids. cbn [l_optims l_actor l_critics map concat]. rewrite !app_nil_r. split; [|reflexivity].
    apply nodup_app; [exact NA | cbn; repeat constructor; cbn; intuition lia|]. intros i Hi Hj. apply LA in Hi. cbn in Hj. lia.
  - destruct (create_actor relu f e s) as [[m s1]|] eqn:EA; try discriminate H. destruct (ND _ _ eq_refl) as [NA LA]. cbn [bind] in H.
    destruct (create_critic relu c1 e _ _ s1) as [[x s2]|] eqn:EC; try discriminate H. destruct (critic_new _ _ _ _ _ _ _ _ R1 EC) as [I1 L1]. cbn [bind] in H.
    destruct (create_critic relu c2 e _ _ s2) as [[y s3]|] eqn:EC2; try discriminate H. destruct (critic_new _ _ _ _ _ _ _ _ R2 EC2) as [I2 L2].
    cbn [bind] in H. injection H as <- _. unfold all_ids. cbn [l_optims l_actor l_critics map concat]. rewrite !app_nil_r. split; [|reflexivity].
    rewrite I1, I2. apply nodup_app; [exact NA | |].
    + apply nodup_app; [apply N2 | apply N2|]. intros i Hi Hj. cbn in Hi, Hj. lia.
    + intros i Hi Hj. apply LA in Hi. cbn in Hj. lia.
Qed.
(** C198. Refuted with the critic of a continuous single-critic learner (DDPG) or the critics of SAC and TD3 using the actor: the shared network is
    given to two optimizers. A2C, PPO, NPG and TRPO have one optimizer, which has it once. *)
Lemma C198_twice_refuted_lemma : forall (Md : Type) (relu tanh : Md) (k : akind) (f : @afact Md) (fut : nat) (c2 : @cfact Md) (ens : list nat) (e : envs) (s s' : @st Md) (p : @pol Md),
  makes_base f -> fut < length (s_futs s) -> k = ActorCriticK \/ k = DDPG \/ k = Dual -> create_policy relu tanh k (FStore f fut) (CReuse fut) c2 ens e s = Ok (p, s') ->
  let i := t_id (pre_of (l_actor p)) in
  (k <> ActorCriticK -> In i (nth 0 (l_optims p) []) /\ In i (nth 1 (l_optims p) []) /\ ~ NoDup (concat (l_optims p))) /\
  (k = ActorCriticK -> NoDup (concat (l_optims p)) /\ forall j, In j (concat (l_optims p)) <-> In j (all_ids p)).
Proof.
  intros Md relu tanh k f fut c2 ens e s s' p HB HF HK H i.
  assert (PA : forall m : @amod Md, In (t_id (pre_of m)) (ids (parts_a m))) by (intros m; destruct m as [|? ? sg ?| |]; try destruct sg; left; reflexivity).
  assert (PC : forall c : @cmod Md, In (t_id (pre_c c)) (ids (parts_c c))) by (intros c; destruct c; left; reflexivity).
  assert (ND : forall a b : list nat, In i a -> In i b -> forall r, ~ NoDup (a ++ b ++ r)).
  { intros a b Ha Hb r HN. clear - Ha Hb HN. induction a as [|x a IH]; [destruct Ha|]. inversion HN as [|? ? HX HN']; subst. destruct Ha as [-> | Ha]; [|exact (IH Ha HN')].
    apply HX. rewrite !in_app_iff. auto. }
  destruct HK as [-> | [-> | ->]]; unfold create_policy in H.
  - split; [intros Q; contradiction|]. intros _. destruct (create_actor relu (FStore f fut) e s) as [[m s1]|] eqn:EA; try discriminate H. cbn [bind] in H.
    destruct (create_critic relu (CReuse fut) e _ _ s1) as [[x s2]|] eqn:EC; try discriminate H. cbn [bind] in H. destruct (create_dist _ _ _); try discriminate H. cbn [bind] in H. injection H as <- _.
    unfold all_ids. cbn [l_optims l_actor l_critics map concat]. rewrite !app_nil_r. split; [|intros j; rewrite union_spec, in_app_iff; reflexivity]. apply union_nodup.
    + rewrite create_actor_eq in EA. destruct (resolve relu _ _); [|discriminate EA]. injection EA as <- _. apply actor_nodup.
    + destruct (create_store _ _ _ _ _ _ _ HB HF EA) as (HG & HO & _). cbn [create_critic] in EC. rewrite (reuse_eq _ _ _ _ _ _ HG HO) in EC. injection EC as <- _.
      destruct (create_actor_next _ _ _ _ _ _ EA) as (HN & _ & HI). destruct (e_type e); cbn; rewrite HI; repeat constructor; cbn; intuition lia.
  - split; [|discriminate]. intros _. destruct (create_actor relu (FStore f fut) e s) as [[m s1]|] eqn:EA; try discriminate H. cbn [bind] in H.
    destruct (create_critic relu (CReuse fut) e _ _ s1) as [[x s2]|] eqn:EC; try discriminate H. cbn [bind] in H. injection H as <- _. cbn [l_actor] in i. cbn [l_optims nth concat].
    destruct (create_store _ _ _ _ _ _ _ HB HF EA) as (HG & _). destruct (create_critic_next _ _ _ _ _ _ _ _ EC) as (_ & _ & _ & C2). destruct (C2 _ eq_refl) as (a & Ha & Hp).
    rewrite HG in Ha. injection Ha as <-. assert (I1 : In i (ids (parts_a m))) by apply PA. assert (I2 : In i (ids (parts_c x))) by (unfold i; rewrite <- Hp; apply PC).
    split; [exact I1|]. split; [exact I2|]. apply ND; assumption.
  - split; [|discriminate]. intros _. destruct (create_actor relu (FStore f fut) e s) as [[m s1]|] eqn:EA; try discriminate H. cbn [bind] in H.
    destruct (create_critic relu (CReuse fut) e _ _ s1) as [[x s2]|] eqn:EC; try discriminate H. cbn [bind] in H.
    destruct (create_critic relu c2 e _ _ s2) as [[y s3]|] eqn:EC2; try discriminate H. cbn [bind] in H. injection H as <- _. cbn [l_actor] in i. cbn [l_optims nth concat].
    destruct (create_store _ _ _ _ _ _ _ HB HF EA) as (HG & _). destruct (create_critic_next _ _ _ _ _ _ _ _ EC) as (_ & _ & _ & C2). destruct (C2 _ eq_refl) as (a & Ha & Hp).
    rewrite HG in Ha. injection Ha as <-. assert (I1 : In i (ids (parts_a m))) by apply PA. assert (I2 : In i (ids (parts_c x))) by (unfold i; rewrite <- Hp; apply PC).
    split; [exact I1|]. split; [exact I2|]. apply ND; assumption.
Qed.
Lemma steps_other {V : Type} given uses (us : list (nat -> V -> V)) i : ~ In i uses -> forall w, critic_steps given uses us w i = w i.
Proof.
  intros H. induction us as [|u us IH]; intros w; [reflexivity|]. cbn [critic_steps]. rewrite IH. unfold critic_step.
  assert (E : existsb (Nat.eqb i) uses = false) by (apply not_true_iff_false; intros E; apply existsb_exists in E; destruct E as (y & HY & EY); apply Nat.eqb_eq in EY; subst y; exact (H HY)).
  rewrite E, andb_false_r. reflexivity.
Qed.
Lemma steps_same {V : Type} given uses (us : list (nat -> V -> V)) i : In i given -> In i uses -> forall w, critic_steps given uses us w i = fold_left (fun v u => u i v) us (w i).
Proof.
  intros HG HU. induction us as [|u us IH]; intros w; [reflexivity|]. cbn [critic_steps fold_left]. rewrite IH. unfold critic_step.
  assert (E : forall l, In i l -> existsb (Nat.eqb i) l = true) by (intros l Hl; apply existsb_exists; exists i; split; [exact Hl | apply Nat.eqb_refl]). rewrite !E by assumption. reflexivity.
Qed.
(** C198. NPG and TRPO: with a critic of its own, the steps of the critic's regression leave the actor unchanged although the optimizer was given
    its parameters too. *)
Lemma C198_trust_lemma : forall (Md V : Type) (relu tanh : Md) (f : @afact Md) (c1 c2 : @cfact Md) (ens : list nat) (e : envs) (s s' : @st Md) (p : @pol Md)
  (us : list (nat -> V -> V)) (w : nat -> V) (c : @cmod Md) (i : nat),
  (forall fut, c1 <> CReuse fut) -> create_policy relu tanh ActorCriticK f c1 c2 ens e s = Ok (p, s') -> l_critics p = [c] -> In i (ids (parts_a (l_actor p))) ->
  In i (concat (l_optims p)) /\ critic_steps (concat (l_optims p)) (ids (parts_c c)) us w i = w i.
Proof.
  intros Md V relu tanh f c1 c2 ens e s s' p us w c i H1 H HC HI. assert (R1 : is_reuse c1 = false) by (destruct c1; try reflexivity; exfalso; exact (H1 _ eq_refl)).
  unfold create_policy in H. destruct (create_actor relu f e s) as [[m s1]|] eqn:EA; try discriminate H. cbn [bind] in H.
  destruct (create_critic relu c1 e _ _ s1) as [[x s2]|] eqn:EC; try discriminate H. destruct (critic_new _ _ _ _ _ _ _ _ R1 EC) as [I1 L1]. cbn [bind] in H.
  destruct (create_dist _ _ _); try discriminate H. cbn [bind] in H. injection H as <- _. cbn [l_critics] in HC. injection HC as <-. cbn [l_actor] in HI. cbn [l_optims concat].
  rewrite app_nil_r. split; [apply union_spec; auto|]. apply steps_other. rewrite I1. intros HJ. unfold ids in HI. apply in_map_iff in HI. destruct HI as (q & <- & Hq).
  assert (L := proj2 (proj1 (proj2 (create_actor_next _ _ _ _ _ _ EA)) q Hq)). cbn in HJ. lia.
Qed.
(** C198. Refuted if the critic uses the actor: every step of the critic's regression also changes the actor's network, after the natural gradient
    step and the check of the divergence. *)
Lemma C198_trust_refuted_lemma : forall (Md V : Type) (relu tanh : Md) (f : @afact Md) (fut : nat) (c2 : @cfact Md) (ens : list nat) (e : envs) (s s' : @st Md) (p : @pol Md)
  (us : list (nat -> V -> V)) (w : nat -> V) (c : @cmod Md),
  makes_base f -> fut < length (s_futs s) -> create_policy relu tanh ActorCriticK (FStore f fut) (CReuse fut) c2 ens e s = Ok (p, s') -> l_critics p = [c] ->
  let i := t_id (pre_of (l_actor p)) in
  In i (ids (parts_a (l_actor p))) /\ critic_steps (concat (l_optims p)) (ids (parts_c c)) us w i = fold_left (fun v u => u i v) us (w i).
Proof.
  intros Md V relu tanh f fut c2 ens e s s' p us w c HB HF H HC i.
  assert (PA : forall m : @amod Md, In (t_id (pre_of m)) (ids (parts_a m))) by (intros m; destruct m as [|? ? sg ?| |]; try destruct sg; left; reflexivity).
  assert (PC : forall c : @cmod Md, In (t_id (pre_c c)) (ids (parts_c c))) by (intros c0; destruct c0; left; reflexivity).
  split; [apply PA|]. unfold create_policy in H. destruct (create_actor relu (FStore f fut) e s) as [[m s1]|] eqn:EA; try discriminate H. cbn [bind] in H.
  destruct (create_critic relu (CReuse fut) e _ _ s1) as [[x s2]|] eqn:EC; try discriminate H. cbn [bind] in H. destruct (create_dist _ _ _); try discriminate H. cbn [bind] in H. injection H as <- _.
  cbn [l_critics] in HC. injection HC as <-. cbn [l_actor] in i. cbn [l_optims concat]. rewrite app_nil_r.
  destruct (create_store _ _ _ _ _ _ _ HB HF EA) as (HG & _). destruct (create_critic_next _ _ _ _ _ _ _ _ EC) as (_ & _ & _ & C2). destruct (C2 _ eq_refl) as (act & Ha & Hp).
  rewrite HG in Ha. injection Ha as <-. apply steps_same; [apply union_spec; left; apply PA | unfold i; rewrite <- Hp; apply PC].
Qed.

(** ** C199: initialisation *)
Lemma inits_net {Md : Type} k n i h (a : Md) j : In j (inits (the_net k n i h a)) -> j = Default.
Proof. unfold inits, the_net, defaults. cbn [t_ini]. rewrite map_map. intros H. apply in_map_iff in H. destruct H as (x & <- & _). reflexivity. Qed.
Lemma inits_head {Md : Type} k n i o j : In j (inits (the_head k n i o : @part Md)) -> j = Default.
Proof. unfold inits, the_head. destruct (0 <? o); cbn; intuition congruence. Qed.
Lemma net_kinds {Md : Type} k n i h (a : Md) x : In x (t_ini (the_net k n i h a)) -> fst x = k /\ snd x = Default.
Proof. unfold the_net, defaults. cbn [t_ini]. intros H. apply in_map_iff in H. destruct H as (y & <- & _). split; reflexivity. Qed.
Lemma head_kinds {Md : Type} k n i o x : In x (t_ini (the_head k n i o : @part Md)) -> fst x = k /\ snd x = Default.
Proof. unfold the_head. destruct (0 <? o); cbn; [intros [<- | []] | intros []]; split; reflexivity. Qed.
Lemma orth_all {Md : Type} (p : @part Md) j : (forall x, In x (t_ini p) -> fst x = KLinear) -> In j (inits (orth p)) -> j = Orth.
Proof.
  intros H. unfold inits, orth. cbn [t_ini]. rewrite map_map. intros HJ. apply in_map_iff in HJ. destruct HJ as (x & <- & Hx). specialize (H x Hx). destruct x as [k i]. cbn in H. subst k. reflexivity.
Qed.
Lemma scale_all {Md : Type} (p : @part Md) j : (forall x, In x (t_ini p) -> fst x = KLinear) -> In j (inits (scale (orth p))) -> j = Scaled.
Proof.
  intros H. unfold inits, scale, orth. cbn [t_ini]. rewrite !map_map. intros HJ. apply in_map_iff in HJ. destruct HJ as (x & <- & Hx). specialize (H x Hx). destruct x as [k i]. cbn in H. subst k. reflexivity.
Qed.
(** C199. The critics of the built-in factories are initialised orthogonally, so are the networks and the deviation of Gaussian actors, and the layer
    of their mean is in addition scaled by 0.01; deterministic and discrete actors, and the heads of critics that use the actor, keep torch's
    initialisation. *)
Lemma C199_init_lemma : forall (Md : Type) (relu : Md) (f : @afact Md) (cf : @cfact Md) (e : envs) (ua uas : bool) (s s' s'' : @st Md) (m : @amod Md) (c : @cmod Md),
  create_actor relu f e s = Ok (m, s') -> create_critic relu cf e ua uas s' = Ok (c, s'') ->
  match m with
  | AProb p mu sg _ => all_inits Orth [p] /\ all_inits Scaled [mu] /\ match sg with Some g => all_inits Orth [g] | None => True end
  | _ => all_inits Default (parts_a m) end /\
  match cf with CReuse _ => all_inits Default [match c with CCont _ l _ | CDisc _ l => l end] | _ => all_inits Orth (parts_c c) end.
Proof.
  intros Md relu f cf e ua uas s s' s'' m c HA HC. split.
  - rewrite create_actor_eq in HA. destruct (resolve relu f (e_type e)) as [g|]; [|discriminate HA]. injection HA as <- _.
    destruct g as [t h a u cc sm|h a|h u cc a|h sm a|f' fut|h]; cbn [the_actor init_actor parts_a];
      try (intros q [<- | [<- | []]] j Hj; [exact (inits_net _ _ _ _ _ _ Hj) | exact (inits_head _ _ _ _ _ Hj)]); try (intros q [<- | []] j Hj; exact (inits_net _ _ _ _ _ _ Hj)).
    split; [|split].
    + intros q [<- | []] j Hj. eapply orth_all; [|exact Hj]. intros x Hx. exact (proj1 (net_kinds _ _ _ _ _ _ Hx)).
    + intros q [<- | []] j Hj. eapply scale_all; [|exact Hj]. intros x Hx. exact (proj1 (head_kinds _ _ _ _ _ Hx)).
    + destruct cc; cbn [option_map]; [|exact Logic.I]. intros q [<- | []] j Hj. eapply orth_all; [|exact Hj]. intros x Hx. exact (proj1 (head_kinds _ _ _ _ _ Hx)).
  - assert (K : forall n i h (z : Md) n' i' o, all_inits Orth [orth (the_net KLinear n i h z); orth (the_head KLinear n' i' o)]).
    { intros n i h z n' i' o q [<- | [<- | []]] j Hj; (eapply orth_all; [|exact Hj]); intros x Hx; [exact (proj1 (net_kinds _ _ _ _ _ _ Hx)) | exact (proj1 (head_kinds _ _ _ _ _ Hx))]. }
    destruct cf as [h a|h a|h a|fut]; cbn [create_critic] in HC.
    + destruct (e_type e); [rewrite cont_critic_eq in HC | rewrite disc_critic_eq in HC]; injection HC as <- _; apply K.
    + rewrite cont_critic_eq in HC; injection HC as <- _; apply K.
    + rewrite disc_critic_eq in HC; injection HC as <- _; apply K.
    + destruct (get_fut s' fut) as [a|] eqn:EG; [|unfold reuse_critic in HC; rewrite EG in HC; discriminate HC].
      assert (HN : forall p, a <> AOther p) by (intros p ->; unfold reuse_critic in HC; rewrite EG in HC; discriminate HC).
      rewrite (reuse_eq _ _ _ _ _ _ EG HN) in HC. injection HC as <- _. intros q [<- | []] j Hj. destruct (e_type e); exact (inits_head _ _ _ _ _ Hj).
Qed.
(** C199. Refuted for ensembles of critics (REDQ): the orthogonal initialisation that is asked for reaches none of their layers, which are no
    [nn.Linear]. *)
Lemma C199_ensemble_refuted_lemma : forall (Md : Type) (relu tanh : Md) (hidden : list nat) (e : envs) (n : nat) (ua : bool) (s s' : @st Md) (c : @cmod Md),
  create_ensemble relu tanh hidden e n ua s = Ok (c, s') ->
  all_inits Default (parts_c c) /\ length (concat (map inits (parts_c c))) = S (length hidden).
Proof.
  intros Md relu tanh hidden e n ua s s' c H. assert (EC : e_type e = ECont) by (unfold create_ensemble in H; destruct (e_type e); [reflexivity | discriminate H]).
  rewrite ensemble_eq in H by exact EC. injection H as <- _. cbn [parts_c]. split.
  - assert (K : forall (p : @part Md) j, (forall x, In x (t_ini p) -> fst x = KEnsemble n /\ snd x = Default) -> In j (inits (orth p)) -> j = Default).
    { intros p j H. unfold inits, orth. cbn [t_ini]. rewrite map_map. intros HJ. apply in_map_iff in HJ. destruct HJ as (x & <- & Hx). destruct (H x Hx) as [Hk Hd]. destruct x as [k i].
      cbn in Hk, Hd. subst. reflexivity. }
    intros q [<- | [<- | []]] j Hj; (eapply K; [|exact Hj]); intros x Hx; [exact (net_kinds _ _ _ _ _ _ Hx) | exact (head_kinds _ _ _ _ _ Hx)].
  - cbn. unfold inits, orth. cbn [t_ini the_net]. rewrite !app_length, !map_length. unfold defaults. rewrite map_length. cbn. lia.
Qed.

(** ** C200: builders *)
Lemma upd_nth_opt {A : Type} (l : list (option A)) j i x : nth i (upd l j (Some x)) None = if (j =? i) && (j <? length l) then Some x else nth i l None.
Proof.
  destruct (Nat.eqb_spec j i) as [-> | N]; cbn [andb].
  - destruct (Nat.ltb_spec i (length l)) as [L | L]; [apply nth_upd_same, L|]. rewrite !nth_overflow by (rewrite ?upd_length; exact L). reflexivity.
  - apply nth_upd_other. congruence.
Qed.
Lemma map_some_nth {A : Type} (l : list (option A)) i (x : A) : nth i (map (fun _ => Some x) l) None = if i <? length l then Some x else nth i l None.
Proof.
  destruct (Nat.ltb_spec i (length l)) as [L | L].
  - rewrite nth_map_at with (d' := None) by exact L. reflexivity.
  - rewrite !nth_overflow by (rewrite ?map_length; exact L). reflexivity.
Qed.
(** C200. After any sequence of calls, the factory of each critic, and that of the actor, is the one set last for it, or the default if there is none;
    the actor's is always wrapped so that it stores the actor in the builder's future, and critics use that future. *)
Lemma C200_latest_lemma : forall (Md : Type) (relu : Md) (t : catype) (fut n : nat) (ops : list (@bop Md)) (i : nat),
  let b := fold_left bstep ops (mkBld t fut None (repeat None n)) in
  get_critic_factory relu b i = match latest (sets_critic fut n i) ops with Some f => f | None => CDefault [64; 64] relu end /\
  get_actor_factory relu b = FStore (match latest (sets_actor t) ops with Some f => f | None => FDefault t [64; 64] relu false false true end) fut.
Proof.
  intros Md relu t fut n ops i b. split.
  - unfold get_critic_factory. assert (G : forall b0 : @bld Md, b_fut b0 = fut -> length (b_critics b0) = n ->
      nth i (b_critics (fold_left bstep ops b0)) None = match latest (sets_critic fut n i) ops with Some f => Some f | None => nth i (b_critics b0) None end).
    { clear. induction ops as [|o ops IH]; intros b0 HF HL; [reflexivity|]. cbn [fold_left latest].
      rewrite IH; [| destruct o; exact HF | destruct o; cbn [bstep b_critics]; rewrite ?upd_length, ?map_length; exact HL].
      destruct (latest (sets_critic fut n i) ops); [reflexivity|]. destruct o; cbn [bstep b_critics sets_critic]; try reflexivity;
        rewrite ?upd_nth_opt, ?map_some_nth, ?HL, ?HF; destruct (_ : bool); reflexivity. }
    unfold b. rewrite G; [| reflexivity | apply repeat_length]. destruct (latest (sets_critic fut n i) ops); [reflexivity|]. cbn [b_critics].
    replace (nth i (repeat None n) None) with (@None (@cfact Md)); [reflexivity|]. clear. revert i. induction n as [|n IH]; intros [|i]; cbn; auto.
  - unfold get_actor_factory. destruct (fold_actor ops (mkBld t fut None (repeat None n))) as (A & T & F & _). fold b in A, T, F. rewrite A, T, F. cbn [b_type b_fut b_actor].
    destruct (latest (sets_actor t) ops); reflexivity.
Qed.

(** ** C201: intermediate modules *)
Lemma net_head_size {Md : Type} k (a : Md) : forall h i o, 0 < o -> layers_size i (dense k i h a ++ if 0 <? o then [Linear k (last h i) o] else []) = Ok o.
Proof.
  induction h as [|x h IH]; intros i o Ho.
  - cbn [dense app last]. exact (head_size (Md := Md) k 0 i o Ho).
  - rewrite last_cons. unfold layers_size in *. cbn [dense app foldM layer_size]. unfold guard at 1. rewrite Nat.eqb_refl. cbn [bind layer_size]. apply IH, Ho.
Qed.
(** C201. The module of DQN and the preprocessing network of IQN have outputs of exactly the size that is announced for them, and the layers of IQN
    map outputs of that size to one value per action. *)
Lemma C201_intermediate_lemma : forall (Md : Type) (relu : Md) (f : @afact Md) (hidden : list nat) (e : envs) (s s' : @st Md) (m : @amod Md) (l : mlp Md unit lkind),
  makes_base f -> 0 < prod (sdims (e_act e)) -> iqn_sizes relu f hidden e s = Ok (m, l, s') ->
  exists d, intermediate relu f e s = Ok (m, d, s') /\ actor_size m (prod (sdims (e_obs e))) = Ok d /\ layers_size d (m_layers l) = Ok (prod (sdims (e_act e))).
Proof.
  intros Md relu f hidden e s s' m l HB HA H. unfold iqn_sizes in H. unfold intermediate in *. destruct (create_actor relu f e s) as [[a s1]|] eqn:EA; [|discriminate H]. cbn [bind] in *.
  exists (prod (sdims (e_act e))). assert (HS := C194_actor_lemma Md relu f e s s1 a HB HA EA).
  destruct a as [p q|p mu sg u|p q sm|p]; cbn [bind] in H; try discriminate H; rewrite mlp_one in H; cbn [bind] in H; injection H as <- <- <-;
    (split; [reflexivity | split; [exact HS|]]); cbn [m_layers]; clear - HA; set (d := prod (sdims (e_act e))) in *; clearbody d.
  all: apply net_head_size; exact HA.
Qed.
(** C201. A module that is no [BaseActor] has no known output size: an AssertionError. *)
Lemma C201_unknown_size_lemma : forall (Md : Type) (relu : Md) (f : @afact Md) (hidden : list nat) (e : envs) (s s' : @st Md) (p : part),
  create_actor relu f e s = Ok (AOther p, s') -> intermediate relu f e s = Err AssertionError /\ iqn_sizes relu f hidden e s = Err AssertionError.
Proof. intros Md relu f hidden e s s' p H. unfold iqn_sizes, intermediate. rewrite H. split; reflexivity. Qed.
(** C201. The ICM wrapper factory needs the number of actions of a discrete space, as an instance of [int]; otherwise it raises a ValueError. *)
Lemma C201_icm_lemma : forall (py_int : bool) (obs act : space) (e : envs), envs_of obs act = Ok e ->
  (forall n, icm_action_dim py_int e = Ok n <-> act = Discrete n /\ py_int = true) /\
  ((exists l, act = Box l) \/ py_int = false -> icm_action_dim py_int e = Err ValueError).
Proof.
  intros py_int obs act e H. unfold envs_of in H. destruct act as [n|l|l]; cbn [type_of bind] in H; [| |discriminate H].
  - unfold disc_envs in H. destruct (shape_or_n obs) as [o|]; [|discriminate H]. cbn [bind shape_or_n] in H. injection H as <-. unfold icm_action_dim. cbn [e_act]. split.
    + intros m. unfold guard. destruct py_int; split; intros Q; [injection Q as <-; auto | destruct Q as [Q _]; injection Q as <-; reflexivity | discriminate Q | destruct Q as [_ Q]; discriminate Q].
    + intros [[l Q] | ->]; [discriminate Q | reflexivity].
  - unfold cont_envs in H. destruct (shape_or_n obs) as [o|]; [|discriminate H]. cbn [bind] in H. unfold guard in H.
    assert (E : e_act e = STuple l) by (destruct o; try destruct n; try discriminate H; destruct l; try discriminate H; injection H as <-; reflexivity).
    unfold icm_action_dim. rewrite E. split; [|intros _; reflexivity]. intros n. split; [discriminate|]. intros [Q _]. discriminate Q.
Qed.

(** ** C202: experiments and the builder that made them *)
(** C202. What is set on a builder later does not change the name and the optimizer of an experiment that was built; an experiment built from a copy
    is not changed by anything that is set on the original, and the other way round. *)
Lemma C202_copy_lemma : forall (F N : Type) (ops : list (rop F N)) (b : rbld N) (h : list (cbs F)),
  r_cb b < length h ->
  (snd (fst (seen b (snd (fold_left rstep ops (b, h))))) = r_name b /\ snd (seen b (snd (fold_left rstep ops (b, h)))) = r_optim b) /\
  (let '(b', h') := rcopy (b, h) in
   seen b' h' = seen b h /\ seen b' (snd (fold_left rstep ops (b, h'))) = seen b h /\ seen b (snd (fold_left rstep ops (b', h'))) = seen b h).
Proof.
  intros F N ops b h HB.
  assert (G : forall (ops : list (rop F N)) (x : rbld N) (h : list (cbs F)) j, j <> r_cb x -> nth j (snd (fold_left rstep ops (x, h))) (mkCbs None None None) = nth j h (mkCbs None None None)).
  { clear. induction ops as [|o ops IH]; intros x h j Hj; [reflexivity|]. cbn [fold_left]. destruct o; cbn [rstep]; rewrite IH by exact Hj; try reflexivity; apply nth_upd_other; congruence. }
  split; [split; reflexivity|]. cbn [rcopy]. unfold seen. cbn [r_cb r_name r_optim].
  assert (E : nth (length h) (h ++ [nth (r_cb b) h (mkCbs None None None)]) (mkCbs None None None) = nth (r_cb b) h (mkCbs None None None)) by (rewrite app_nth2 by lia; rewrite Nat.sub_diag; reflexivity).
  split; [rewrite E; reflexivity|]. split.
  - rewrite G by lia. rewrite E. reflexivity.
  - rewrite G by (cbn [r_cb]; lia). rewrite app_nth1 by exact HB. reflexivity.
Qed.
(** C202. Refuted for the callbacks: one that is set on the builder later is used by every experiment that was built before. *)
Lemma C202_callbacks_refuted_lemma : forall (F N : Type) (ops : list (rop F N)) (b : rbld N) (h : list (cbs F)),
  r_cb b < length h ->
  let later := latest (fun o : rop F N => match o with RTrain f => Some f | _ => None end) ops in
  k_train (fst (fst (seen b (snd (fold_left rstep ops (b, h)))))) = match later with Some f => Some f | None => k_train (fst (fst (seen b h))) end.
Proof.
  intros F N ops b h HB. unfold seen. cbn [fst].
  assert (G : forall (ops : list (rop F N)) (x : rbld N) (h : list (cbs F)), r_cb x < length h ->
     k_train (nth (r_cb x) (snd (fold_left rstep ops (x, h))) (mkCbs None None None)) =
       match latest (fun o : rop F N => match o with RTrain f => Some f | _ => None end) ops with Some f => Some f | None => k_train (nth (r_cb x) h (mkCbs None None None)) end).
  { clear. induction ops as [|o ops IH]; intros x h Hx; [reflexivity|]. cbn [fold_left latest].
    destruct o as [f|f|f|n|n]; cbn [rstep].
    - rewrite IH by (rewrite upd_length; exact Hx). destruct (latest _ ops); [reflexivity|]. rewrite nth_upd_same by exact Hx. reflexivity.
    - rewrite IH by (rewrite upd_length; exact Hx). destruct (latest _ ops); [reflexivity|]. rewrite nth_upd_same by exact Hx. reflexivity.
    - rewrite IH by (rewrite upd_length; exact Hx). destruct (latest _ ops); [reflexivity|]. rewrite nth_upd_same by exact Hx. reflexivity.
    - assert (Q := IH (mkR (r_cb x) n (r_optim x)) h Hx). cbn [r_cb] in Q. rewrite Q. destruct (latest _ ops); reflexivity.
    - assert (Q := IH (mkR (r_cb x) (r_name x) (Some n)) h Hx). cbn [r_cb] in Q. rewrite Q. destruct (latest _ ops); reflexivity. }
  exact (G ops b h HB).
Qed.
(** ** Environments and kinds of actors *)
(** C193. The environments have the type of the action space and the shapes of both spaces, the number of actions or observations for discrete
    ones; building continuous environments on any other action space fails. *)
Lemma C193_envs_lemma : forall (o : nat) (os : list nat) (a : nat) (l : list nat) (m n : nat) (obs : space),
  envs_of (Box (o :: os)) (Box (a :: l)) = Ok (mkEnvs ECont (STuple (o :: os)) (STuple (a :: l)))
  /\ envs_of (Box (o :: os)) (Discrete n) = Ok (mkEnvs EDisc (STuple (o :: os)) (SInt n))
  /\ envs_of (Discrete m) (Discrete n) = Ok (mkEnvs EDisc (SInt m) (SInt n))
  /\ envs_of (Discrete (S m)) (Box (a :: l)) = Ok (mkEnvs ECont (SInt (S m)) (STuple (a :: l)))
  /\ is_ok (envs_of obs (OtherSpace l)) = false
  /\ cont_envs obs (Discrete n) = Err ValueError /\ cont_envs obs (OtherSpace l) = Err ValueError.
Proof. intros. repeat split; reflexivity. Qed.
(** C196. The default factory makes the actor that the agent asked for: a Gaussian one, with the given bound and with a network for the scale if
    that is to depend on the observation, a deterministic one, or in discrete environments one with or without softmax as asked. *)
Lemma C196_kind_lemma : forall (Md : Type) (relu : Md) (t : catype) (hidden : list nat) (a : Md) (u c sm : bool) (e : envs) (s s' : @st Md) (m : @amod Md),
  create_actor relu (FDefault t hidden a u c sm) e s = Ok (m, s') ->
  match e_type e, t with
  | ECont, Gaussian => exists p mu sg, m = AProb p mu sg u /\ (sg = None <-> c = false)
  | ECont, Deterministic => exists p l, m = ADet p l
  | ECont, Unsupported => False
  | EDisc, _ => exists p l, m = ADisc p l sm end.
Proof.
  intros Md relu t hidden a u c sm e s s' m H. rewrite create_actor_eq in H. cbn [resolve] in H. unfold pick_factory in H.
  destruct (e_type e); [destruct t|]; cbn [bind] in H; try discriminate H; injection H as <- _; cbn [the_actor init_actor].
  - do 3 eexists. split; [reflexivity|]. destruct c; cbn; split; intro Q; try reflexivity; discriminate Q.
  - do 2 eexists. reflexivity.
  - do 2 eexists. reflexivity.
Qed.
