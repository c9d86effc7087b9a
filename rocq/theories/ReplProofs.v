(** * Proofs: the policies a MultiAgentPolicyManager holds *)
From Verif Require Import Py PyLemmas MaModel MaProofs ReplModel.
From Coq Require Import Permutation.
Open Scope nat_scope.

Lemma get_set d k v j : dict_get (dict_set d k v) j = if k =? j then Some v else dict_get d j.
Proof.
  induction d as [|[k' v'] d IH]; cbn [dict_set dict_get]; [destruct (k =? j); reflexivity|].
  destruct (Nat.eqb_spec k' k) as [->|N]; cbn [dict_get]; [destruct (k =? j); reflexivity|].
  rewrite IH. destruct (Nat.eqb_spec k' j) as [->|M]; [|reflexivity]. destruct (Nat.eqb_spec k j) as [->|]; [contradiction|reflexivity].
Qed.
Lemma keys_set d k v : map fst (dict_set d k v) = if existsb (Nat.eqb k) (map fst d) then map fst d else map fst d ++ [k].
Proof.
  induction d as [|[k' v'] d IH]; [reflexivity|]. cbn [dict_set map existsb fst].
  destruct (Nat.eqb_spec k' k) as [->|N]; [rewrite Nat.eqb_refl; reflexivity|]. destruct (Nat.eqb_spec k k') as [->|]; [contradiction|].
  cbn [map fst orb]. rewrite IH. destruct (existsb _ _); reflexivity.
Qed.
Lemma existsb_out k l : ~ In k l -> existsb (Nat.eqb k) l = false.
Proof. intros N. destruct (existsb (Nat.eqb k) l) eqn:E; [|reflexivity]. apply existsb_exists in E as (x & Hx & Ex). apply Nat.eqb_eq in Ex. subst x. contradiction. Qed.
Lemma keys_in d k v : In k (map fst d) -> map fst (dict_set d k v) = map fst d.
Proof. intros H. rewrite keys_set, (existsb_In k _ H). reflexivity. Qed.
Lemma keys_out d k v : ~ In k (map fst d) -> map fst (dict_set d k v) = map fst d ++ [k].
Proof. intros H. rewrite keys_set, (existsb_out k _ H). reflexivity. Qed.
Lemma get_none d k : ~ In k (map fst d) -> dict_get d k = None.
Proof. induction d as [|[k' v] d IH]; intros N; [reflexivity|]. cbn in N |- *. destruct (Nat.eqb_spec k' k) as [->|]; [exfalso; apply N; left; reflexivity|]. apply IH. intros H. apply N. right. exact H. Qed.
Lemma set_new d k v : ~ In k (map fst d) -> dict_set d k v = d ++ [(k, v)].
Proof. induction d as [|[k' v'] d IH]; intros N; [reflexivity|]. cbn in N |- *. destruct (Nat.eqb_spec k' k) as [->|]; [exfalso; apply N; left; reflexivity|]. rewrite IH; [reflexivity|]. intros H. apply N. right. exact H. Qed.
Lemma get_in d k v : NoDup (map fst d) -> In (k, v) d -> dict_get d k = Some v.
Proof.
  induction d as [|[k' v'] d IH]; intros N H0; [destruct H0|]; destruct H0 as [E|H]; cbn [map fst] in N; apply NoDup_cons_iff in N as [N1 N2]; cbn [dict_get].
  - injection E as -> ->. rewrite Nat.eqb_refl. reflexivity.
  - destruct (Nat.eqb_spec k' k) as [->|]; [exfalso; apply N1; apply in_map_iff; exists (k, v); split; [reflexivity|exact H]|]. apply IH; assumption.
Qed.
Lemma get_In d k v : dict_get d k = Some v -> In (k, v) d.
Proof. induction d as [|[k' v'] d IH]; [discriminate|]. cbn. destruct (Nat.eqb_spec k' k) as [->|]; intros E; [injection E as ->; left; reflexivity|right; apply IH, E]. Qed.
Lemma fold_dict : forall (l d : list (nat * nat)), NoDup (map fst (d ++ l)) -> fold_left (fun d ap => dict_set d (fst ap) (snd ap)) l d = d ++ l.
Proof.
  induction l as [|[k v] l IH]; intros d N; [symmetry; apply app_nil_r|]. cbn [fold_left fst snd]. rewrite set_new.
  - rewrite IH; rewrite <- app_assoc; [reflexivity|exact N].
  - rewrite map_app in N. cbn [map fst] in N. apply NoDup_remove_2 in N. intros H. apply N. apply in_or_app. left. exact H.
Qed.
Lemma map_fst_combine {A B} : forall (a : list A) (b : list B), length b = length a -> map fst (combine a b) = a.
Proof. induction a as [|x a IH]; intros [|y b] H; try discriminate; [reflexivity|]. cbn. rewrite IH; [reflexivity|]. cbn in H. lia. Qed.
Lemma map_snd_combine {A B} : forall (a : list A) (b : list B), length b = length a -> map snd (combine a b) = b.
Proof. induction a as [|x a IH]; intros [|y b] H; try discriminate; [reflexivity|]. cbn. rewrite IH; [reflexivity|]. cbn in H. lia. Qed.
Lemma fold_id : forall (l : list (nat * nat)) id p, ~ In p (map snd l) -> fold_left (fun id ap => set_agent_id (snd ap) (fst ap) id) l id p = id p.
Proof.
  induction l as [|[k v] l IH]; intros id p N; [reflexivity|]. cbn [fold_left fst snd]. rewrite IH by (intros H; apply N; right; exact H).
  unfold set_agent_id. destruct (Nat.eqb_spec p v) as [->|]; [exfalso; apply N; left; reflexivity|reflexivity].
Qed.
Lemma fold_id_in : forall (l : list (nat * nat)) id a p, NoDup (map snd l) -> In (a, p) l -> fold_left (fun id ap => set_agent_id (snd ap) (fst ap) id) l id p = a.
Proof.
  induction l as [|[k v] l IH]; intros id a p N H0; [destruct H0|]; destruct H0 as [E|H]; cbn [map snd] in N; apply NoDup_cons_iff in N as [N1 N2]; cbn [fold_left fst snd].
  - injection E as -> ->. rewrite fold_id by exact N1. unfold set_agent_id. rewrite Nat.eqb_refl. reflexivity.
  - apply IH; assumption.
Qed.

(** C375.  A manager made for agents with distinct ids holds for every agent the policy given for
    it, in the order of the agents; distinct policies know their agent. *)
Lemma C375_init_lemma : forall (agents policies : list nat) (id : nat -> nat),
  NoDup agents -> length policies = length agents ->
  exists m, pm_init agents policies id = Ok m /\ pm_agents m = agents /\ map snd (pm_dict m) = policies
    /\ (forall i a p, nth_error agents i = Some a -> nth_error policies i = Some p ->
          dict_get (pm_dict m) a = Some p /\ (NoDup policies -> pm_id m p = a)).
Proof.
  intros agents policies id N L. unfold pm_init. rewrite L, Nat.eqb_refl. cbn [guard negb]. eexists. split; [reflexivity|]. unfold pm_agents. cbn [pm_dict pm_id].
  rewrite fold_dict by (cbn [app]; rewrite map_fst_combine by exact L; exact N). cbn [app].
  split; [apply map_fst_combine, L|]. split; [apply map_snd_combine, L|]. intros i a p Ha Hp.
  assert (I : In (a, p) (combine agents policies)).
  { revert policies L i Ha Hp. clear. induction agents as [|x agents IH]; intros [|y policies] L [|i] Ha Hp; try discriminate; cbn in *.
    - injection Ha as ->. injection Hp as ->. left. reflexivity.
    - right. apply (IH policies ltac:(lia) i); assumption. }
  split; [apply get_in; [rewrite map_fst_combine by exact L; exact N|exact I]|]. intros Np. apply fold_id_in; [rewrite map_snd_combine by exact L; exact Np|exact I].
Qed.
(** C375.  There must be one policy for each agent. *)
Lemma C375_number_lemma : forall (agents policies : list nat) (id : nat -> nat),
  length policies <> length agents -> pm_init agents policies id = Err AssertionError.
Proof. intros agents policies id N. unfold pm_init. apply Nat.eqb_neq in N. rewrite N. reflexivity. Qed.
(** C375.  A policy object shared by all agents takes the id of the last one. *)
Lemma C375_shared_lemma : forall (agents : list nat) (a p : nat) (id : nat -> nat) (m : pm),
  pm_init (agents ++ [a]) (repeat p (S (length agents))) id = Ok m -> pm_id m p = a /\ (forall q, q <> p -> pm_id m q = id q).
Proof.
  intros agents a p id m H. unfold pm_init in H. rewrite repeat_length, app_length, Nat.add_1_r, Nat.eqb_refl in H. cbn [guard negb] in H. injection H as <-. cbn [pm_id].
  revert id. induction agents as [|b agents IH]; intros id; cbn [app length repeat combine fold_left fst snd].
  - split; [unfold set_agent_id; rewrite Nat.eqb_refl; reflexivity|]. intros q Q. unfold set_agent_id. apply Nat.eqb_neq in Q. rewrite Q. reflexivity.
  - destruct (IH (set_agent_id p b id)) as [I1 I2]. split; [exact I1|]. intros q Q. rewrite I2 by exact Q. unfold set_agent_id. apply Nat.eqb_neq in Q. rewrite Q. reflexivity.
Qed.
(** C375.  replace_policy changes the policy of that agent only and keeps the order of the agents;
    of two replacements for one agent the second counts, and those for two agents commute. *)
Lemma C375_replace_lemma : forall (m : pm) (p q a b : nat),
  (forall c, dict_get (pm_dict (pm_replace m p a)) c = if c =? a then Some p else dict_get (pm_dict m) c)
  /\ (In a (pm_agents m) -> pm_agents (pm_replace m p a) = pm_agents m)
  /\ (~ In a (pm_agents m) -> pm_agents (pm_replace m p a) = pm_agents m ++ [a])
  /\ pm_id (pm_replace m p a) p = a /\ (forall r, r <> p -> pm_id (pm_replace m p a) r = pm_id m r)
  /\ pm_dict (pm_replace (pm_replace m q a) p a) = pm_dict (pm_replace m p a)
  /\ (a <> b -> In a (pm_agents m) -> pm_dict (pm_replace (pm_replace m q b) p a) = pm_dict (pm_replace (pm_replace m p a) q b)).
Proof.
  intros m p q a b. unfold pm_replace, pm_agents. cbn [pm_dict pm_id]. split; [intros c; rewrite get_set, (Nat.eqb_sym a c); reflexivity|].
  split; [apply keys_in|]. split; [apply keys_out|]. split; [unfold set_agent_id; rewrite Nat.eqb_refl; reflexivity|].
  split; [intros r Hr; unfold set_agent_id; apply Nat.eqb_neq in Hr; rewrite Hr; reflexivity|]. split.
  - induction (pm_dict m) as [|[k v] d IH]; cbn [dict_set]; [rewrite Nat.eqb_refl; reflexivity|]. destruct (k =? a) eqn:E; cbn [dict_set]; rewrite E; [reflexivity|]. rewrite IH. reflexivity.
  - intros N. induction (pm_dict m) as [|[k v] d IH]; intros H; [destruct H|]. cbn [dict_set]. destruct (Nat.eqb_spec k b) as [->|Nb]; cbn [dict_set].
    + destruct (Nat.eqb_spec b a) as [->|]; [contradiction|]. cbn [dict_set]. rewrite Nat.eqb_refl. reflexivity.
    + destruct (Nat.eqb_spec k a) as [->|Na]; cbn [dict_set].
      * apply Nat.eqb_neq in N. rewrite N. reflexivity.
      * apply Nat.eqb_neq in Nb. rewrite Nb. rewrite IH; [reflexivity|]. destruct H as [H|H]; [contradiction|exact H].
Qed.

Lemma mapM_each {A B} (f : A -> res B) : forall l r, mapM f l = Ok r -> forall x, In x l -> exists y, f x = Ok y.
Proof.
  induction l as [|z l IH]; intros r H x I0; [destruct I0|]; destruct I0 as [->|I]; cbn [mapM] in H; destruct (f _) as [y|] eqn:E; try discriminate; cbn [bind] in H; destruct (mapM f l) as [r'|] eqn:F; try discriminate; [exists y; reflexivity|exact (IH r' eq_refl x I)].
Qed.
Lemma forward_each {Row Act St} (policy : nat -> option (option St) -> list Row -> res (list Act * option St)) agents ids rows state out :
  length ids = length rows -> forward policy agents ids rows state = Ok out ->
  forall b, In b agents -> rows_of ids rows b <> [] -> exists o, policy b (option_map (fun st => st b) state) (rows_of ids rows b) = Ok o.
Proof.
  intros L H b Hb Hn. unfold forward in H. destruct (mapM (forward_one policy (ids, rows) state) agents) as [r|] eqn:E; [|discriminate].
  destruct (mapM_each _ _ _ E b Hb) as (y & Hy). unfold forward_one in Hy. rewrite (take_rows ids rows b L) in Hy. rewrite <- (rows_of_length ids rows b L) in Hy.
  destruct (rows_of ids rows b) as [|r0 rs] eqn:R; [contradiction|]. cbn [length Nat.eqb bind] in Hy. destruct (policy b _ (r0 :: rs)) as [o|]; [exists o; reflexivity|discriminate].
Qed.

(** C375.  After replace_policy the rows of the other agents get the actions they got before, and
    those of the agent get the actions of the new policy; likewise the states. *)
Lemma C375_act_lemma : forall (Row Act St : Type) (fw : nat -> option (option St) -> list Row -> res (list Act * option St))
  (m : pm) (p a : nat) (ids : list nat) (rows : list Row) (state : option (nat -> option St)) act sts new s,
  NoDup (pm_agents m) -> In a (pm_agents m) -> length ids = length rows -> (forall b, In b ids -> In b (pm_agents m)) ->
  (forall q st rs out, fw q st rs = Ok out -> length (fst out) = length rs) ->
  pm_forward fw m ids rows state = Ok (act, sts) ->
  fw p (option_map (fun st => st a) state) (rows_of ids rows a) = Ok (new, s) ->
  exists act', pm_forward fw (pm_replace m p a) ids rows state
      = Ok (act', map (fun bs => if fst bs =? a then (a, match rows_of ids rows a with [] => None | _ => s end) else bs) sts)
    /\ length act' = length rows
    /\ (forall i, nth_error ids i <> Some a -> nth_error act' i = nth_error act i)
    /\ (forall i, nth_error ids i = Some a -> nth_error act' i = nth_error new (rank ids a i)).
Proof.
  intros Row Act St fw m p a ids rows state act sts new s N Ha L Hin Hw H Hp. unfold pm_forward in *.
  set (pol := fun b st rs => at_key m (fun q => fw q st rs) b) in *. set (pol' := fun b st rs => at_key (pm_replace m p a) (fun q => fw q st rs) b).
  destruct (C375_replace_lemma m p 0 a 0) as (G & K & _). rewrite (K Ha).
  assert (Pa : forall st rs, pol' a st rs = fw p st rs) by (intros; unfold pol', at_key; rewrite G, Nat.eqb_refl; reflexivity).
  assert (Pb : forall b st rs, b <> a -> pol' b st rs = pol b st rs) by (intros b st rs Q; unfold pol', pol, at_key; rewrite G; apply Nat.eqb_neq in Q; rewrite Q; reflexivity).
  assert (Wl : forall b st rs out, pol b st rs = Ok out -> length (fst out) = length rs) by (intros b st rs out Q; unfold pol, at_key in Q; destruct (dict_get (pm_dict m) b); [apply (Hw _ _ _ _ Q)|discriminate]).
  set (st := fun b => option_map (fun st : nat -> option St => st b) state).
  pose (o := fun b => match pol b (st b) (rows_of ids rows b) with Ok x => x | Err _ => ([], None) end).
  pose (o' := fun b => match pol' b (st b) (rows_of ids rows b) with Ok x => x | Err _ => ([], None) end).
  pose proof (forward_each pol (pm_agents m) ids rows state _ L H) as Ei.
  destruct (C43_forward_lemma Row Act St pol (pm_agents m) ids rows state (fun b => fst (o b)) (fun b => snd (o b)) N L Hin) as (act1 & E1 & L1 & G1).
  { intros b Hb Hne. destruct (Ei b Hb Hne) as ([x y] & E). fold (st b) in E |- *. unfold o. rewrite E. split; [reflexivity|]. cbn [fst]. exact (Wl _ _ _ _ E). }
  rewrite H in E1. injection E1 as -> ->.
  destruct (C43_forward_lemma Row Act St pol' (pm_agents m) ids rows state (fun b => fst (o' b)) (fun b => snd (o' b)) N L Hin) as (act2 & E2 & L2 & G2).
  { intros b Hb Hne. destruct (Nat.eq_dec b a) as [->|Q].
    - unfold o'. rewrite !Pa. unfold st. rewrite Hp. split; [reflexivity|]. exact (Hw _ _ _ _ Hp).
    - destruct (Ei b Hb Hne) as ([x y] & E). fold (st b) in E |- *. unfold o'. rewrite !Pb by exact Q. rewrite E. split; [reflexivity|]. exact (Wl _ _ _ _ E). }
  assert (Oa : o' a = (new, s)) by (unfold o'; rewrite Pa; unfold st; rewrite Hp; reflexivity).
  assert (Ob : forall b, b <> a -> o' b = o b) by (intros b Q; unfold o', o; rewrite Pb by exact Q; reflexivity).
  exists act2. split; [|split; [exact L2|split]].
  - rewrite E2. f_equal. f_equal. rewrite map_map. apply map_ext. intros b. cbn [fst]. destruct (Nat.eqb_spec b a) as [->|Q].
    + rewrite Oa. destruct (rows_of ids rows a); reflexivity.
    + rewrite (Ob b Q). reflexivity.
  - intros i Hi. destruct (nth_error ids i) as [b|] eqn:Eb.
    + assert (Q : b <> a) by congruence. destruct (G1 i b Eb) as (x & X1 & X2). destruct (G2 i b Eb) as (y & Y1 & Y2). rewrite (Ob b Q) in Y2. congruence.
    + apply nth_error_None in Eb. transitivity (@None Act); [|symmetry]; apply nth_error_None; lia.
  - intros i Hi. destruct (G2 i a Hi) as (y & Y1 & Y2). rewrite Oa in Y2. cbn [fst] in Y2. congruence.
Qed.

Lemma index_none (ids : list nat) (a : nat) : ~ In a ids -> agent_index ids a = [].
Proof. intros N. destruct (agent_index ids a) as [|i l] eqn:E; [reflexivity|]. exfalso. apply N. assert (I : In i (agent_index ids a)) by (rewrite E; left; reflexivity). apply index_in in I. apply nth_error_In in I. exact I. Qed.
Lemma mapM_ext_in {A B} (f g : A -> res B) : forall l, (forall x, In x l -> f x = g x) -> mapM f l = mapM g l.
Proof. induction l as [|x l IH]; intros H; [reflexivity|]. cbn [mapM]. rewrite (H x) by (left; reflexivity). rewrite IH; [reflexivity|]. intros y Hy. apply H. right. exact Hy. Qed.
Lemma mapM_app' {A B} (f : A -> res B) : forall l1 l2, mapM f (l1 ++ l2) = let* a := mapM f l1 in let* b := mapM f l2 in Ok (a ++ b).
Proof. induction l1 as [|x l1 IH]; intros l2; cbn [app mapM bind]; [destruct (mapM f l2); reflexivity|]. destruct (f x); cbn [bind]; [|reflexivity]. rewrite IH. destruct (mapM f l1); cbn [bind]; [|reflexivity]. destruct (mapM f l2); reflexivity. Qed.
Lemma mapM_len {A B} (f : A -> res B) : forall l r, mapM f l = Ok r -> length r = length l.
Proof. induction l as [|x l IH]; intros r H; cbn [mapM] in H; [injection H as <-; reflexivity|]. destruct (f x); [|discriminate]. cbn [bind] in H. destruct (mapM f l) as [r'|]; [|discriminate]. cbn [bind] in H. injection H as <-. cbn. rewrite (IH r' eq_refl). reflexivity. Qed.
Lemma combine_app' {A B} : forall (a : list A) (b : list B) a2 b2, length b = length a -> combine (a ++ a2) (b ++ b2) = combine a b ++ combine a2 b2.
Proof. induction a as [|x a IH]; intros [|y b] a2 b2 H; try discriminate; [reflexivity|]. cbn. rewrite IH; [reflexivity|]. cbn in H. lia. Qed.
Lemma foldM_app' {A S} (f : S -> A -> res S) : forall l1 l2 s, foldM f (l1 ++ l2) s = let* t := foldM f l1 s in foldM f l2 t.
Proof. induction l1 as [|x l1 IH]; intros l2 s; [reflexivity|]. cbn [app foldM]. destruct (f s x); cbn [bind]; [apply IH|reflexivity]. Qed.

(** C375.  Under an id that is no agent's (a position, as the docstring puts it) the new policy
    never acts: the actions stay, and the states get one empty entry more. *)
Lemma C375_no_agent_lemma : forall (Row Act St : Type) (fw : nat -> option (option St) -> list Row -> res (list Act * option St)) (nz : nat -> list Act -> list Row -> res (list Act))
  (m : pm) (p a : nat) (ids : list nat) (rows : list Row) (state : option (nat -> option St)) (act : list Act),
  ~ In a (pm_agents m) -> ~ In a ids ->
  pm_forward fw (pm_replace m p a) ids rows state = (let* out := pm_forward fw m ids rows state in Ok (fst out, snd out ++ [(a, None)]))
  /\ pm_noise nz (pm_replace m p a) ids rows act = pm_noise nz m ids rows act.
Proof.
  intros Row Act St fw nz m p a ids rows state act N Ni. destruct (C375_replace_lemma m p 0 a 0) as (G & _ & K & _).
  unfold pm_forward, pm_noise. rewrite (K N).
  assert (Kb : forall T (f : nat -> res T) b, In b (pm_agents m) -> at_key (pm_replace m p a) f b = at_key m f b).
  { intros T f b Hb. unfold at_key. rewrite G. destruct (Nat.eqb_spec b a) as [->|]; [contradiction|reflexivity]. }
  split.
  - unfold forward. rewrite mapM_app'.
    rewrite (mapM_ext_in _ (forward_one (fun b st rs => at_key m (fun q => fw q st rs) b) (ids, rows) state) (pm_agents m)).
    2:{ intros b Hb. unfold forward_one. destruct (length _ =? 0); [reflexivity|]. destruct (take rows _); [|reflexivity]. cbn [bind]. rewrite Kb by exact Hb. reflexivity. }
    destruct (mapM (forward_one _ (ids, rows) state) (pm_agents m)) as [r|] eqn:E; [|reflexivity]. cbn [bind mapM]. unfold forward_one at 1. rewrite (index_none ids a Ni). cbn [length Nat.eqb bind].
    rewrite foldM_app'. unfold acts_of at 1. rewrite flat_map_app. cbn [flat_map fst]. rewrite !app_nil_r. fold (@acts_of Act St (list nat) r).
    destruct (foldM _ r (acts_of r)) as [act'|]; [|reflexivity]. cbn [bind foldM fst snd]. rewrite map_app, combine_app'; [reflexivity|]. rewrite map_length. exact (mapM_len _ _ _ E).
  - unfold exploration. rewrite foldM_app'.
    assert (F : forall l act0, (forall b, In b l -> In b (pm_agents m)) ->
      foldM (fun act0 agent => if length (agent_index ids agent) =? 0 then Ok act0 else let* a0 := take act0 (agent_index ids agent) in let* tmp := take rows (agent_index ids agent) in
         let* new := at_key (pm_replace m p a) (fun q => nz q a0 tmp) agent in put act0 (agent_index ids agent) new) l act0
      = foldM (fun act0 agent => if length (agent_index ids agent) =? 0 then Ok act0 else let* a0 := take act0 (agent_index ids agent) in let* tmp := take rows (agent_index ids agent) in
         let* new := at_key m (fun q => nz q a0 tmp) agent in put act0 (agent_index ids agent) new) l act0).
    { induction l as [|b l IH]; intros act0 Hl; [reflexivity|]. cbn [foldM].
      assert (Q : forall a0 tmp, at_key (pm_replace m p a) (fun q => nz q a0 tmp) b = at_key m (fun q => nz q a0 tmp) b) by (intros; apply Kb, Hl; left; reflexivity).
      destruct (length (agent_index ids b) =? 0); cbn [bind]; [apply IH; intros c Hc; apply Hl; right; exact Hc|].
      destruct (take act0 _) as [a0|]; cbn [bind]; [|reflexivity]. destruct (take rows _) as [tmp|]; cbn [bind]; [|reflexivity]. rewrite Q. destruct (at_key m _ b) as [new|]; cbn [bind]; [|reflexivity].
      destruct (put act0 _ new); cbn [bind]; [|reflexivity]. apply IH. intros c Hc. apply Hl. right. exact Hc. }
    cbv zeta. rewrite F by (intros; assumption). destruct (foldM _ (pm_agents m) act) as [act'|]; cbn [bind]; [|reflexivity]. cbn [foldM]. rewrite (index_none ids a Ni). reflexivity.
Qed.

(** C375.  process_fn and learn: the data and statistics of the other agents stay, those of the
    agent are the new policy's. *)
Lemma C375_learn_lemma : forall (Row R X Stats : Type) (agent_idx : nat -> nat) (pfn : nat -> list Row -> list R -> list nat -> list R -> res X) (ln : nat -> X -> res Stats)
  (m : pm) (p a : nat) (ids : list nat) (rows : list Row) (rews : list (list R)) (indice : list nat) (save : list (list R)) results stats x s,
  In a (pm_agents m) -> length ids = length rows -> length ids = length rews -> length ids = length indice ->
  snd (pm_process pfn agent_idx m ids rows rews indice save) = Ok results -> pm_learn ln m results = Ok stats ->
  (forall tr br, map Some tr = map (fun r => nth_error r (agent_idx a)) (rows_of ids rews a) -> map Some br = map (fun r => nth_error r (agent_idx a)) save ->
     pfn p (rows_of ids rows a) tr (rows_of ids indice a) br = Ok x) ->
  ln p x = Ok s ->
  let results' := map (fun br => if fst br =? a then (a, option_map (fun _ => x) (snd br)) else br) results in
  pm_process pfn agent_idx (pm_replace m p a) ids rows rews indice save = (RFull save, Ok results')
  /\ pm_learn ln (pm_replace m p a) results' = Ok (map (fun bs => if fst bs =? a then (a, s) else bs) stats).
Proof.
  intros Row R X Stats agent_idx pfn ln m p a ids rows rews indice save results stats x s Ha L1 L2 L3 Hp Hl Hx Hs results'.
  destruct (C375_replace_lemma m p 0 a 0) as (G & K & _).
  assert (Col : forall c l r, @column R c l = Ok r -> map Some r = map (fun y => nth_error y c) l).
  { intros c. induction l as [|y l IH]; intros r H; unfold column in H; cbn [mapM] in H; [injection H as <-; reflexivity|]. destruct (nth_error y c) eqn:E; [|discriminate]. cbn [bind] in H.
    destruct (mapM _ l) as [r'|] eqn:F; [|discriminate]. cbn [bind] in H. injection H as <-. cbn. rewrite E, (IH r' F). reflexivity. }
  split.
  - unfold pm_process, process in *. rewrite (K Ha).
    set (f := fun b rs tr ti br => at_key m (fun q => pfn q rs tr ti br) b) in *. set (f' := fun b rs tr ti br => at_key (pm_replace m p a) (fun q => pfn q rs tr ti br) b).
    assert (F : forall agents cur cur1 l, process_loop agent_idx f agents ids rows rews indice save cur = (cur1, Ok l) ->
       forall cur', exists cur2, process_loop agent_idx f' agents ids rows rews indice save cur' = (cur2, Ok (map (fun br => if fst br =? a then (a, option_map (fun _ => x) (snd br)) else br) l))).
    { induction agents as [|b agents IH]; intros cur cur1 l H cur'; cbn [process_loop] in *; [injection H as <- <-; eexists; reflexivity|].
      destruct (process_one agent_idx f ids rows rews indice save b cur) as [c [y|]] eqn:E; [|discriminate]. destruct (process_loop agent_idx f agents ids rows rews indice save c) as [c2 [l2|]] eqn:E2; [|discriminate]. injection H as <- <-.
      assert (O : exists c', process_one agent_idx f' ids rows rews indice save b cur' = (c', Ok (if b =? a then option_map (fun _ => x) y else y))).
      { unfold process_one in E |- *. rewrite (take_rows ids rows b L1), (take_rows ids rews b L2), (take_rows ids indice b L3) in *. cbn [bind] in *.
        destruct (length (agent_index ids b) =? 0); [injection E as _ <-; eexists; destruct (b =? a); reflexivity|].
        destruct (column (agent_idx b) (rows_of ids rews b)) as [tr|] eqn:Et; cbn [bind] in *; [|discriminate]. destruct (column (agent_idx b) save) as [br|] eqn:Eb; cbn [bind] in *; [|discriminate].
        unfold f' at 1, at_key. rewrite G. destruct (Nat.eqb_spec b a) as [->|Q].
        - rewrite (Hx tr br (Col _ _ _ Et) (Col _ _ _ Eb)). destruct (f a _ _ _ _); [|discriminate]. injection E as _ <-. eexists. reflexivity.
        - unfold f, at_key in E. destruct (dict_get (pm_dict m) b); [|discriminate]. destruct (pfn _ _ _ _ _); [|discriminate]. injection E as _ <-. eexists. reflexivity. }
      destruct O as (c' & O). rewrite O. destruct (IH c c2 l2 E2 c') as (c3 & E3). rewrite E3. eexists. cbn [map fst snd]. destruct (Nat.eqb_spec b a) as [->|]; reflexivity. }
    destruct (process_loop agent_idx f (pm_agents m) ids rows rews indice save REmpty) as [c1 [l|]] eqn:E; [|discriminate]. cbn [snd] in Hp. injection Hp as ->.
    destruct (F _ _ _ _ E REmpty) as (c2 & E2). rewrite E2. reflexivity.
  - unfold pm_learn, ma_learn in *. subst results'. clear Hp.
    destruct (mapM _ results) as [l|] eqn:E; [|discriminate]. cbn [bind] in Hl. injection Hl as <-.
    assert (F : mapM (fun ax : nat * option X => match snd ax with None => Ok [] | Some x0 => let* s0 := at_key (pm_replace m p a) (fun q => ln q x0) (fst ax) in Ok [(fst ax, s0)] end)
       (map (fun br => if fst br =? a then (a, option_map (fun _ => x) (snd br)) else br) results) = Ok (map (map (fun bs => if fst bs =? a then (a, s) else bs)) l)).
    { revert l E. induction results as [|[b y] results IH]; intros l E; cbn [mapM map] in *; [injection E as <-; reflexivity|]. cbn [fst snd] in *.
      destruct (match y with None => Ok [] | Some x0 => let* s0 := at_key m (fun q => ln q x0) b in Ok [(b, s0)] end) as [l0|] eqn:E0; cbn [bind] in E; [|discriminate].
      destruct (mapM _ results) as [l1|] eqn:E1; cbn [bind] in E; [|discriminate]. injection E as <-. rewrite (IH l1 eq_refl). cbn [map].
      unfold at_key at 1. rewrite G. destruct (Nat.eqb_spec b a) as [->|Q]; cbn [fst snd].
      - rewrite Nat.eqb_refl. destruct y as [y|]; cbn [option_map].
        + rewrite Hs. cbn [bind]. destruct (at_key m _ a); [|discriminate]. cbn [bind] in E0. injection E0 as <-. cbn [map fst]. rewrite Nat.eqb_refl. reflexivity.
        + injection E0 as <-. reflexivity.
      - apply Nat.eqb_neq in Q. rewrite Q. unfold at_key in E0. destruct y as [y|]; [|injection E0 as <-; reflexivity].
        destruct (dict_get (pm_dict m) b) as [q|]; [|discriminate]. destruct (ln q y); [|discriminate]. cbn [bind] in E0 |- *. injection E0 as <-. cbn [map fst]. rewrite Q. reflexivity. }
    rewrite F. cbn [bind]. rewrite concat_map. reflexivity.
Qed.
