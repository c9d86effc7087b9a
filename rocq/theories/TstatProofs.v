(** * Proofs about what training reports *)
From Coq Require Import String Ascii Qround.
From Verif Require Import Py PyLemmas Num StatModel StatProofs TstatModel TstatSpec.
Open Scope nat_scope.
Open Scope list_scope.

(** ** Dicts *)
Section D.
Context {X : Type}.
Implicit Types (d l a b : list (string * X)) (v : X).
Lemma getd_put k v d k' : getd k' (putd k v d) = if String.eqb k' k then Some v else getd k' d.
Proof.
  induction d as [|[j w] d IH]; cbn.
  - reflexivity.
  - destruct (String.eqb_spec k j) as [->|Hn]; cbn.
    + destruct (String.eqb k' j); reflexivity.
    + rewrite IH. destruct (String.eqb_spec k' j) as [->|]; [|reflexivity]. destruct (String.eqb_spec j k) as [->|]; [contradiction|reflexivity].
Qed.
Lemma getd_put_same k v d : getd k (putd k v d) = Some v.
Proof. rewrite getd_put, String.eqb_refl. reflexivity. Qed.
Lemma getd_put_other k v d k' : k' <> k -> getd k' (putd k v d) = getd k' d.
Proof. intro H. rewrite getd_put. destruct (String.eqb_spec k' k); [contradiction|reflexivity]. Qed.
Lemma getd_in k v d : getd k d = Some v -> In (k, v) d.
Proof. induction d as [|[j w] d IH]; cbn; [discriminate|]. destruct (String.eqb_spec k j) as [->|]; [intros [= ->]; left; reflexivity | right; auto]. Qed.
Lemma getd_none k d : getd k d = None <-> ~ In k (map fst d).
Proof.
  induction d as [|[j w] d IH]; cbn; [tauto|]. destruct (String.eqb_spec k j) as [->|Hn].
  - split; [discriminate|intro H; exfalso; apply H; left; reflexivity].
  - rewrite IH. split; intros H; [intros [E|E]; [congruence|auto] | intro E; apply H; right; exact E].
Qed.
Lemma getd_nodup k v d : NoDup (map fst d) -> In (k, v) d -> getd k d = Some v.
Proof.
  induction d as [|[j w] d IH]; cbn; [intros _ []|]. intros Hn [E|E].
  - injection E as -> ->. rewrite String.eqb_refl. reflexivity.
  - inversion Hn as [|? ? H1 H2]; subst. destruct (String.eqb_spec k j) as [->|]; [exfalso; apply H1; apply (in_map fst) in E; exact E | auto].
Qed.
Lemma put_keys k v d : map fst (putd k v d) = if existsb (String.eqb k) (map fst d) then map fst d else map fst d ++ [k].
Proof.
  induction d as [|[j w] d IH]; cbn; [reflexivity|]. destruct (String.eqb_spec k j) as [->|Hn]; cbn; [reflexivity|].
  rewrite IH. destruct (existsb (String.eqb k) (map fst d)); reflexivity.
Qed.
Lemma put_nodup k v d : NoDup (map fst d) -> NoDup (map fst (putd k v d)).
Proof.
  intro H. rewrite put_keys. destruct (existsb (String.eqb k) (map fst d)) eqn:E; [exact H|].
  assert (~ In k (map fst d)) by (intro F; assert (existsb (String.eqb k) (map fst d) = true) by (apply existsb_exists; exists k; split; [exact F|apply String.eqb_refl]); congruence).
  clear E. induction (map fst d) as [|x l IH]; cbn; [constructor; [intros []|constructor]|].
  inversion H as [|? ? H1 H2]; subst. constructor; [rewrite in_app_iff; intros [F|[F|[]]]; [auto|subst; apply H0; left; reflexivity] | apply IH; [exact H2|intro F; apply H0; right; exact F]].
Qed.
Lemma merge_nodup a b : NoDup (map fst a) -> NoDup (map fst (merge a b)).
Proof. unfold merge. revert a. induction b as [|x b IH]; intros a H; cbn; [exact H|]. apply IH. apply put_nodup. exact H. Qed.
(** Entries under a prefix. *)
Lemma fold_put (f : string -> string) l : (forall a b : string, f a = f b -> a = b) -> NoDup (map fst l) -> forall r k,
  getd (f k) (fold_left (fun r (kv : string * X) => putd (f (fst kv)) (snd kv) r) l r) = match getd k l with Some v => Some v | None => getd (f k) r end.
Proof.
  intros Hf. induction l as [|[j w] l IH]; intros Hn r k; cbn; [reflexivity|]. cbn in Hn. inversion Hn as [|? ? H1 H2]; subst.
  rewrite (IH H2). cbn [fst snd]. destruct (String.eqb_spec k j) as [->|Hne].
  - assert (E : getd j l = None) by (apply getd_none; exact H1). rewrite E. apply getd_put_same.
  - destruct (getd k l); [reflexivity|]. apply getd_put_other. intro E. apply Hne, Hf, E.
Qed.
Lemma fold_put_other (f : string -> string) l key : (forall k, key <> f k) -> forall r,
  getd key (fold_left (fun r (kv : string * X) => putd (f (fst kv)) (snd kv) r) l r) = getd key r.
Proof. intro H. induction l as [|[j w] l IH]; intro r; cbn; [reflexivity|]. rewrite IH. cbn [fst]. apply getd_put_other, H. Qed.
Lemma merge_get a b k : NoDup (map fst b) -> getd k (merge a b) = match getd k b with Some v => Some v | None => getd k a end.
Proof. intro H. unfold merge. apply (fold_put (fun x => x)); auto. Qed.
End D.

Lemma base_spec k : is_base k = true <-> In k base_fields.
Proof. unfold is_base. rewrite existsb_exists. split; [intros (x & H & E); apply String.eqb_eq in E; subst; exact H | intro H; exists k; split; [exact H|apply String.eqb_refl]]. Qed.
Lemma base_spec_false k : is_base k = false <-> ~ In k base_fields.
Proof. rewrite <- base_spec. destruct (is_base k); split; intro H; try congruence; try discriminate; exfalso; apply H; reflexivity. Qed.

(** ** The wrapper *)
Lemma set_base_ok s k v : In k base_fields -> exists s', setattr s k v = Ok s' /\ getattr s' k = Some v /\ (forall j, j <> k -> getattr s' j = getattr s j).
Proof.
  intro H. assert (Hb := proj2 (base_spec k) H). induction s as [d|d a|own i IH]; cbn [setattr].
  - eexists. split; [reflexivity|]. cbn. split; [apply getd_put_same | intros j Hj; apply getd_put_other, Hj].
  - eexists. split; [reflexivity|]. cbn. split; [apply getd_put_same | intros j Hj; apply getd_put_other, Hj].
  - rewrite Hb. destruct IH as (i' & E & G & O). rewrite E. cbn [bind]. eexists. split; [reflexivity|]. cbn [getattr]. rewrite getd_put_same. split; [reflexivity|].
    intros j Hj. rewrite getd_put_other by exact Hj. rewrite (O j Hj). reflexivity.
Qed.
Lemma set_known_ok s k v : ~ In k base_fields -> getattr s k <> None -> exists s', setattr s k v = Ok s' /\ (~ shadowed s k -> getattr s' k = Some v) /\ (forall j, j <> k -> getattr s' j = getattr s j).
Proof.
  intros Hb. assert (Hf := proj2 (base_spec_false k) Hb). induction s as [d|d a|own i IH]; intro H; cbn [setattr].
  - eexists. split; [reflexivity|]. cbn. split; [intros _; apply getd_put_same | intros j Hj; apply getd_put_other, Hj].
  - eexists. split; [reflexivity|]. cbn. split; [intros _; apply getd_put_same | intros j Hj; apply getd_put_other, Hj].
  - rewrite Hf. destruct (getattr (Wrap own i) k) eqn:E; [|contradiction]. destruct (getattr i k) eqn:Ei.
    + destruct IH as (i' & E' & G & O); [discriminate|]. rewrite E'. cbn [bind]. eexists. split; [reflexivity|]. cbn [getattr shadowed]. split.
      * intro Hs. destruct (getd k own) eqn:Eo; [exfalso; apply Hs; left; split; congruence|]. apply G. intro F. apply Hs. right. exact F.
      * intros j Hj. rewrite (O j Hj). reflexivity.
    + eexists. split; [reflexivity|]. cbn [getattr]. split; [intros _; rewrite getd_put_same; reflexivity|]. intros j Hj. rewrite getd_put_other by exact Hj. reflexivity.
Qed.

(** C239.  Assigning to an attribute that exists (or is one of [train_time], [smoothed_loss]) changes this attribute and no other; any number of
    wrappers around each other. A new attribute of a wrapper is an AttributeError. *)
Lemma C239_assign_lemma : forall s k v,
  (In k base_fields \/ getattr s k <> None ->
     exists s', setattr s k v = Ok s' /\ (forall j, j <> k -> getattr s' j = getattr s j) /\ (In k base_fields \/ ~ shadowed s k -> getattr s' k = Some v))
  /\ (~ In k base_fields -> getattr s k = None -> forall own i, s = Wrap own i -> setattr s k v = Err AttributeError).
Proof.
  intros s k v. split.
  - intros H. destruct (in_dec string_dec k base_fields) as [Hb|Hb].
    + destruct (set_base_ok s k v Hb) as (s' & E & G & O). exists s'. split; [exact E|]. split; [exact O|]. intros _. exact G.
    + destruct H as [H|H]; [contradiction|]. destruct (set_known_ok s k v Hb H) as (s' & E & G & O). exists s'. split; [exact E|]. split; [exact O|].
      intros [F|F]; [contradiction|]. apply G, F.
  - intros Hb Hn own i ->. cbn [setattr]. rewrite (proj2 (base_spec_false k) Hb). rewrite Hn. reflexivity.
Qed.
(** C239.  An attribute that both the wrapper and the wrapped object have is changed inside although the wrapper's own is the one that is read:
    the assignment has no visible effect. *)
Lemma C239_shadow_refuted_lemma : (forall own i k v w, ~ In k base_fields -> getd k own = Some w -> getattr i k <> None ->
    exists s', setattr (Wrap own i) k v = Ok s' /\ getattr s' k = Some w)
  /\ exists s s' s'', icm_stats (Plain (base_part 0)) 1 1 1 = Ok s /\ icm_stats s 0 0 0 = Ok s' /\ setattr s' "icm_loss"%string (VNum (1 + 1)) = Ok s''
       /\ getattr s'' "icm_loss"%string = Some (VNum 0).
Proof.
  split.
  - intros own i k v w Hb Ho Hi. destruct (set_known_ok i k v Hb Hi) as (i' & E & _). exists (Wrap own i'). cbn [setattr getattr].
    rewrite (proj2 (base_spec_false k) Hb), Ho. destruct (getattr i k); [|contradiction]. rewrite E. split; reflexivity.
  - do 3 eexists. split; [vm_compute; reflexivity|]. split; [vm_compute; reflexivity|]. split; [vm_compute; reflexivity|]. vm_compute. reflexivity.
Qed.

Lemma sync_set s k v s' : in_sync s -> setattr s k v = Ok s' -> in_sync s'.
Proof.
  revert s'. induction s as [d|d a|own i IH]; intros s' H E.
  - injection E as <-. intros j Hj. cbn. rewrite getd_put. destruct (String.eqb j k); [discriminate|]. apply (H j Hj).
  - injection E as <-. intros j Hj. cbn. rewrite getd_put. destruct (String.eqb j k); [discriminate|]. apply (H j Hj).
  - destruct H as [H1 H2]. cbn [setattr] in E. destruct (is_base k) eqn:Eb.
    + destruct (set_base_ok i k v (proj1 (base_spec k) Eb)) as (i' & Ei & G & O). rewrite Ei in E. cbn [bind] in E. injection E as <-. split; [|exact (IH i' H2 Ei)].
      intros j Hj. destruct (String.eqb_spec j k) as [->|Hn]; [rewrite getd_put_same; symmetry; exact G | rewrite getd_put_other by exact Hn; rewrite (O j Hn); apply H1, Hj].
    + assert (Hnb := proj1 (base_spec_false k) Eb). destruct (getattr (Wrap own i) k) eqn:Eg; [|discriminate]. destruct (getattr i k) eqn:Ei.
      * assert (Hi : getattr i k <> None) by congruence. destruct (set_known_ok i k v Hnb Hi) as (i' & Es & _ & O). rewrite Es in E. cbn [bind] in E. injection E as <-. split; [|exact (IH i' H2 Es)].
        intros j Hj. rewrite (O j); [apply H1, Hj | intros ->; contradiction].
      * injection E as <-. split; [|exact H2]. intros j Hj. rewrite getd_put_other; [apply H1, Hj | intros ->; contradiction].
Qed.
Lemma sync_has s k : in_sync s -> In k base_fields -> getattr s k <> None.
Proof. induction s as [d|d a|own i IH]; intros H Hk; cbn [getattr]; [apply H, Hk | apply H, Hk |]. destruct H as [H1 H2]. rewrite (H1 k Hk). specialize (IH H2 Hk). destruct (getattr i k); [discriminate|contradiction]. Qed.
Lemma merge_fresh_base (fields : dict) k : existsb (fun kv : string * val => is_base (fst kv)) fields = false -> In k base_fields -> getd k (merge [] fields) = None.
Proof.
  intros E Hk. unfold merge. assert (G : forall r : dict, getd k r = None -> getd k (fold_left (fun d (kv : string * val) => putd (fst kv) (snd kv) d) fields r) = None); [|apply G; reflexivity].
  induction fields as [|[j w] l IH]; intros r Hr; cbn; [exact Hr|]. cbn in E. apply orb_false_elim in E. destruct E as [E1 E2]. apply (IH E2). cbn [fst snd].
  rewrite getd_put_other; [exact Hr|]. intros ->. apply base_spec_false in E1. contradiction.
Qed.
(** C239.  A wrapper is made with the base fields of the wrapped object, and whatever is assigned to it afterwards, [train_time] and [smoothed_loss] have
    the same value on all levels. *)
Lemma C239_sync_lemma : forall fields i l s, existsb (fun kv => is_base (fst kv)) fields = false -> in_sync i ->
  (let* s := new_wrapper fields i in foldM (fun s kv => setattr s (fst kv) (snd kv)) l s) = Ok s -> in_sync s.
Proof.
  intros fields i l s Hf Hi. unfold new_wrapper. rewrite Hf. cbn [foldM base_fields].
  destruct (getattr i "train_time"%string) as [a|] eqn:Ea; [|cbn [bind]; discriminate]. cbn [bind]. destruct (getattr i "smoothed_loss"%string) as [b|] eqn:Eb; [|cbn [bind]; discriminate]. cbn [bind].
  set (w := Wrap _ _). assert (Hw : in_sync w).
  { split; [|exact Hi]. intros k [<-|[<-|[]]]; rewrite getd_put; cbn [String.eqb]; [rewrite getd_put; cbn; congruence | cbn; congruence]. }
  clearbody w. revert w Hw. induction l as [|[k v] l IH]; intros w Hw E; cbn [foldM] in E; [injection E as <-; exact Hw|].
  cbn [fst snd] in E. destruct (setattr w k v) as [w'|e] eqn:Es; cbn [bind] in E; [|discriminate]. exact (IH w' (sync_set w k v w' Hw Es) E).
Qed.
(** C239.  Assigning the base fields of the wrapped object itself is not seen by the wrapper: for all wrappers in that state. *)
Lemma C239_inner_refuted_lemma : (forall own i k v, In k base_fields -> in_sync (Wrap own i) ->
    exists s', set_at 1 (Wrap own i) k v = Ok s' /\ getattr s' k = getattr (Wrap own i) k)
  /\ exists s s', icm_stats (Plain (base_part 0)) 1 1 1 = Ok s /\ set_at 1 s "train_time"%string (VNum 1) = Ok s' /\ getattr s' "train_time"%string = Some (VNum 0).
Proof.
  split.
  - intros own i k v Hk [H1 H2]. destruct (set_base_ok i k v Hk) as (i' & E & _). exists (Wrap own i'). cbn [set_at]. rewrite E. split; [reflexivity|]. cbn [getattr].
    rewrite (H1 k Hk). assert (G := sync_has i k H2 Hk). destruct (getattr i k); [reflexivity|contradiction].
  - do 2 eexists. split; [vm_compute; reflexivity|]. split; [vm_compute; reflexivity|]. reflexivity.
Qed.

(** ** Losses *)
Definition entry (k : string) (v : val) : dict := if private k || is_base k then [] else match v with VNone => [] | VSum m _ _ _ => [(k, VNum m)] | v => [(k, v)] end.
Lemma entries_cons j v d : loss_entries ((j, v) :: d) = entry j v ++ loss_entries d.
Proof. unfold loss_entries. cbn [flat_map fst snd]. f_equal. unfold entry. destruct (private j || is_base j); [reflexivity|]. destruct v; reflexivity. Qed.
Lemma entry_keys k j v : In k (map fst (entry j v)) -> k = j.
Proof. unfold entry. destruct (private j || is_base j); [intros []|]. destruct v; cbn; intuition. Qed.
Lemma entry_get k v : getd k (entry k v) = reported k (Some v).
Proof.
  unfold entry, reported. fold (private k). destruct (private k); cbn [orb]; [destruct v; reflexivity|].
  destruct (in_dec string_dec k base_fields) as [Hb|Hb]; [rewrite (proj2 (base_spec k) Hb); destruct v; reflexivity|].
  rewrite (proj2 (base_spec_false k) Hb). destruct v; cbn [getd]; rewrite ?String.eqb_refl; reflexivity.
Qed.
Lemma get_app (a b : dict) k : getd k (a ++ b) = match getd k a with Some v => Some v | None => getd k b end.
Proof. induction a as [|[j w] a IH]; cbn; [reflexivity|]. destruct (String.eqb k j); [reflexivity|exact IH]. Qed.
Lemma entries_keys d : forall k, In k (map fst (loss_entries d)) -> In k (map fst d).
Proof.
  intro k. induction d as [|[j v] d IH]; [intros []|]. rewrite entries_cons, map_app, in_app_iff. intros [H|H]; [left; symmetry; exact (entry_keys _ _ _ H) | right; exact (IH H)].
Qed.
Lemma entries_nodup d : NoDup (map fst d) -> NoDup (map fst (loss_entries d)).
Proof.
  induction d as [|[j v] d IH]; [auto|]. cbn [map fst]. intro H. inversion H as [|? ? H1 H2]; subst. specialize (IH H2). rewrite entries_cons, map_app.
  assert (G : ~ In j (map fst (loss_entries d))) by (intro F; apply H1, entries_keys, F).
  unfold entry. destruct (private j || is_base j); [exact IH|]. destruct v; [exact IH | | | |]; constructor; assumption.
Qed.
Lemma entries_get d k : NoDup (map fst d) -> getd k (loss_entries d) = reported k (getd k d).
Proof.
  induction d as [|[j v] d IH]; intro H; [reflexivity|]. cbn [map fst] in H. inversion H as [|? ? H1 H2]; subst. specialize (IH H2).
  rewrite entries_cons, get_app. cbn [getd]. destruct (String.eqb_spec k j) as [->|Hn].
  - rewrite entry_get. assert (G : getd j (loss_entries d) = None) by (apply getd_none; intro F; apply H1, entries_keys, F). rewrite G. destruct (reported j (Some v)); reflexivity.
  - assert (G : getd k (entry j v) = None) by (apply getd_none; intro F; apply Hn, (entry_keys k j v F)). rewrite G. exact IH.
Qed.
Lemma self_nodup s : wf s -> NoDup (map fst (self_dict s)).
Proof. induction s as [d|d a|own i IH]; cbn; [auto|auto|]. intros [_ H]. apply merge_nodup, IH, H. Qed.
Lemma self_get s k : wf s -> getd k (self_dict s) = getattr s k.
Proof. induction s as [d|d a|own i IH]; cbn; [auto|auto|]. intros [H1 H2]. rewrite merge_get by exact H1. rewrite (IH H2). reflexivity. Qed.
(** The entries of one agent. *)
Definition key_of (a : agent) (k : string) : string := String.append (String.append (str_of a) slash) k.
Definition add_agent (r : dict) (x : agent * stats) : dict := fold_left (fun r (kv : string * val) => putd (key_of (fst x) (fst kv)) (snd kv) r) (loss_dict (snd x)) r.
Lemma map_loss d ags : loss_dict (MapS d ags) = fold_left add_agent ags [].
Proof. cbn [loss_dict]. generalize (@nil (string * val)). induction ags as [|[a t] ags IH]; intro r; [reflexivity|]. rewrite IH. reflexivity. Qed.
Lemma add_nodup r x : NoDup (map fst r) -> NoDup (map fst (add_agent r x)).
Proof. unfold add_agent. generalize (loss_dict (snd x)). intro l. revert r. induction l as [|y l IH]; intros r H; cbn; [exact H|]. apply IH, put_nodup, H. Qed.
Lemma loss_nodup s : wf s -> NoDup (map fst (loss_dict s)).
Proof.
  intro H. destruct s as [d|d ags|own i].
  - cbn. apply entries_nodup, H.
  - rewrite map_loss. clear. assert (G : forall r, NoDup (map fst r) -> NoDup (map fst (fold_left add_agent ags r))); [|apply G; constructor].
    induction ags as [|x ags IH]; intros r Hr; cbn; [exact Hr|]. apply IH, add_nodup, Hr.
  - cbn [loss_dict]. apply entries_nodup, self_nodup, H.
Qed.
(** C240.  The losses reported by a dataclass, in any number of wrappers, are exactly its readable attributes that are public, not None and
    not [train_time] or [smoothed_loss]; summaries count with their mean. *)
Lemma C240_reported_lemma : forall s k, chain s -> wf s -> getd k (loss_dict s) = reported k (getattr s k).
Proof.
  intros s k Hc Hw. assert (E : loss_dict s = loss_entries (self_dict s)) by (destruct s; [reflexivity|destruct Hc|reflexivity]).
  rewrite E, entries_get by (apply self_nodup, Hw). rewrite self_get by exact Hw. reflexivity.
Qed.
(** C240.  PPO and GAIL report the means of their sequences; the number of gradient steps is among the losses. *)
Lemma C240_sequences_lemma : forall sd a b c d n x y z,
  loss_dict (ppo_stats sd a b c d n) = [("loss", VNum (np_mean a)); ("clip_loss", VNum (np_mean b)); ("vf_loss", VNum (np_mean c)); ("ent_loss", VNum (np_mean d)); ("gradient_steps", VNum n)]%string
  /\ loss_dict (gail_stats sd (ppo_stats sd a b c d n) x y z) = loss_dict (ppo_stats sd a b c d n) ++ [("disc_loss", VNum (np_mean x)); ("acc_pi", VNum (np_mean y)); ("acc_exp", VNum (np_mean z))]%string.
Proof.
  assert (S : forall sd l, exists s mx mn, summary sd l = VSum (np_mean l) s mx mn).
  { intros sd [|q l]; [exists 0%Qc, 0%Qc, 0%Qc; cbn; f_equal; unfold np_mean; cbn; apply Qc_is_canon; reflexivity | do 3 eexists; reflexivity]. }
  intros sd a b c d n x y z. unfold gail_stats, ppo_stats.
  destruct (S sd a) as (a1 & a2 & a3 & ->), (S sd b) as (b1 & b2 & b3 & ->), (S sd c) as (c1 & c2 & c3 & ->), (S sd d) as (d1 & d2 & d3 & ->),
    (S sd x) as (x1 & x2 & x3 & ->), (S sd y) as (y1 & y2 & y3 & ->), (S sd z) as (z1 & z2 & z3 & ->).
  split; reflexivity.
Qed.
(** C240.  A wrapper around the statistics of several agents reports nothing of what they report: the agents do not matter. *)
Lemma C240_agents_refuted_lemma : (forall own d ags, loss_dict (Wrap own (MapS d ags)) = loss_dict (Wrap own (Plain d)))
  /\ exists ags m s, new_map ags AMax = Ok m /\ icm_stats m 1 1 1 = Ok s /\ getd "a/loss"%string (loss_dict m) = Some (VNum 1)
       /\ map fst (loss_dict s) = ["icm_loss"; "icm_forward_loss"; "icm_inverse_loss"]%string.
Proof.
  split; [reflexivity|]. exists [(AStr "a"%string, Plain (base_part 0 ++ [("loss"%string, VNum 1)]))]. do 2 eexists.
  split; [vm_compute; reflexivity|]. split; [vm_compute; reflexivity|]. split; vm_compute; reflexivity.
Qed.
Lemma icm_own i l f v s : icm_stats i l f v = Ok s -> exists a b, s = Wrap [("icm_loss", VNum l); ("icm_forward_loss", VNum f); ("icm_inverse_loss", VNum v); ("train_time", a); ("smoothed_loss", b)]%string i
  /\ getattr i "train_time"%string = Some a /\ getattr i "smoothed_loss"%string = Some b.
Proof.
  unfold icm_stats, new_wrapper. cbn [existsb fst is_base base_fields orb String.eqb Ascii.eqb Bool.eqb foldM].
  destruct (getattr i "train_time"%string) as [a|]; [|intro E; discriminate E]. destruct (getattr i "smoothed_loss"%string) as [b|]; [|intro E; discriminate E].
  intro E. injection E as <-. exists a, b. repeat split.
Qed.
(** C240.  The losses of an ICM policy inside an ICM policy are not reported: they do not matter. *)
Lemma C240_nested_refuted_lemma : forall i l f v l' f' v' x y z s s' t t', wf i ->
  icm_stats i l f v = Ok s -> icm_stats i l' f' v' = Ok s' -> icm_stats s x y z = Ok t -> icm_stats s' x y z = Ok t' ->
  chain i -> forall k, getd k (loss_dict t) = getd k (loss_dict t') /\ getd "icm_loss"%string (loss_dict t) = Some (VNum x).
Proof.
  intros i l f v l' f' v' x y z s s' t t' Hw E1 E2 E3 E4 Hc k.
  destruct (icm_own _ _ _ _ _ E1) as (a & b & -> & A1 & B1). destruct (icm_own _ _ _ _ _ E2) as (a' & b' & -> & A2 & B2).
  destruct (icm_own _ _ _ _ _ E3) as (c & d & -> & A3 & B3). destruct (icm_own _ _ _ _ _ E4) as (c' & d' & -> & A4 & B4).
  assert (a' = a) by congruence. assert (b' = b) by congruence. subst a' b'. cbn in A3, B3, A4, B4. injection A3 as <-. injection B3 as <-. injection A4 as <-. injection B4 as <-.
  assert (ND : forall p q r : Qc, NoDup (map fst [("icm_loss", VNum p); ("icm_forward_loss", VNum q); ("icm_inverse_loss", VNum r); ("train_time", a); ("smoothed_loss", b)]%string)).
  { intros p q r. cbn. repeat constructor; cbn; intuition discriminate. }
  rewrite !C240_reported_lemma by (cbn [chain wf]; auto). split; [|reflexivity]. f_equal. cbn [getattr getd].
  repeat (match goal with |- context [String.eqb k ?c] => destruct (String.eqb k c) end; [reflexivity|]). reflexivity.
Qed.

(** ** Agents *)
Lemma app_inj p a b : String.append p a = String.append p b -> a = b.
Proof. induction p as [|c p IH]; cbn; [auto|]. intro E. injection E as E. auto. Qed.
Lemma app_assoc_s a b c : String.append (String.append a b) c = String.append a (String.append b c).
Proof. induction a as [|x a IH]; cbn; [reflexivity|]. rewrite IH. reflexivity. Qed.
Lemma has_slash s k : ~ no_slash (String.append (String.append s slash) k).
Proof. induction s as [|c s IH]; cbn; [intros [H _]; apply H; reflexivity|]. intros [_ H]. exact (IH H). Qed.
Lemma key_inj s1 : forall s2 k1 k2, no_slash k1 -> no_slash k2 -> String.append (String.append s1 slash) k1 = String.append (String.append s2 slash) k2 -> s1 = s2 /\ k1 = k2.
Proof.
  induction s1 as [|c s1 IH]; intros [|c2 s2] k1 k2 H1 H2 E; cbn in E.
  - injection E as ->. auto.
  - injection E as _ E. subst k1. exfalso. exact (has_slash _ _ H1).
  - injection E as _ E. subst k2. exfalso. exact (has_slash _ _ H2).
  - injection E as -> E. destruct (IH s2 k1 k2 H1 H2 E) as [-> ->]. auto.
Qed.
Lemma add_get r a t k : wf t -> getd (key_of a k) (add_agent r (a, t)) = match getd k (loss_dict t) with Some v => Some v | None => getd (key_of a k) r end.
Proof. intro H. unfold add_agent. cbn [fst snd]. apply (fold_put (key_of a)); [intros x y E; exact (app_inj _ _ _ E) | apply loss_nodup, H]. Qed.
Lemma fold_put_none (f : string -> string) (l : dict) key : (forall k, In k (map fst l) -> key <> f k) -> forall r,
  getd key (fold_left (fun r (kv : string * val) => putd (f (fst kv)) (snd kv) r) l r) = getd key r.
Proof. induction l as [|[j w] l IH]; intros H r; cbn; [reflexivity|]. rewrite IH by (intros k Hk; apply H; right; exact Hk). cbn [fst]. apply getd_put_other, H. left. reflexivity. Qed.
Definition good (x : agent * stats) : Prop := wf (snd x) /\ forall k, In k (map fst (loss_dict (snd x))) -> no_slash k.
Lemma add_get_other r x a k : good x -> str_of (fst x) <> str_of a -> no_slash k -> getd (key_of a k) (add_agent r x) = getd (key_of a k) r.
Proof. intros [_ H] Hn Hk. unfold add_agent. apply fold_put_none. intros j Hj E. destruct (key_inj (str_of a) (str_of (fst x)) k j Hk (H j Hj) E) as [E' _]. congruence. Qed.
Lemma agents_get ags : Forall good ags -> NoDup (map (fun x => str_of (fst x)) ags) -> forall r a t k, In (a, t) ags -> no_slash k -> getd (key_of a k) r = None ->
  getd (key_of a k) (fold_left add_agent ags r) = getd k (loss_dict t).
Proof.
  induction ags as [|x ags IH]; intros Hg Hn r a t k Hin Hk Hr; [destruct Hin|]. inversion Hg as [|? ? G1 G2]; subst. inversion Hn as [|? ? N1 N2]; subst. cbn [fold_left]. destruct Hin as [->|Hin].
  - assert (E : forall r', getd (key_of a k) (fold_left add_agent ags r') = getd (key_of a k) r').
    { clear - G2 N1 Hk. induction ags as [|y ags IH]; intro r'; cbn; [reflexivity|]. inversion G2; subst. rewrite IH; [|assumption|intro F; apply N1; right; exact F].
      apply add_get_other; [assumption| |exact Hk]. intro F. apply N1. left. exact F. }
    rewrite E, add_get by apply G1. rewrite Hr. destruct (getd k (loss_dict t)); reflexivity.
  - apply IH; [exact G2|exact N2|exact Hin|exact Hk|]. rewrite add_get_other; [exact Hr|exact G1| |exact Hk]. intro F. apply N1. rewrite F. apply (in_map (fun x => str_of (fst x)) _ _ Hin).
Qed.
Lemma add_sound r x key v : wf (snd x) -> getd key (add_agent r x) = Some v -> getd key r = Some v \/ exists k, key = key_of (fst x) k /\ getd k (loss_dict (snd x)) = Some v.
Proof.
  intros Hw H. destruct x as [a t]. cbn [fst snd] in *. unfold add_agent in H. cbn [fst snd] in H.
  assert (D : (exists k, key = key_of a k) \/ forall k, key <> key_of a k).
  { destruct (String.prefix (String.append (str_of a) slash) key) eqn:E.
    - left. clear - E. unfold key_of. revert key E. generalize (String.append (str_of a) slash). intro p. induction p as [|c p IH]; intros key E; [exists key; reflexivity|].
      destruct key as [|c' key]; cbn in E; [discriminate|]. destruct (ascii_dec c c') as [->|]; [|discriminate]. destruct (IH key E) as [k ->]. exists k. reflexivity.
    - right. intros k ->. assert (P : forall p q, String.prefix p (String.append p q) = true) by (intros p q; induction p as [|c p IH]; cbn; [destruct q; reflexivity | destruct (ascii_dec c c); [exact IH|congruence]]).
      unfold key_of in E. rewrite P in E. discriminate. }
  destruct D as [[k ->]|D].
  - change (getd (key_of a k) (add_agent r (a, t)) = Some v) in H. rewrite add_get in H by exact Hw. destruct (getd k (loss_dict t)) eqn:E; [right; exists k; split; [reflexivity|congruence] | left; exact H].
  - rewrite (fold_put_other (key_of a)) in H by exact D. left. exact H.
Qed.
(** C241.  If the agents' names differ as strings and the names of losses contain no slash, the manager reports the losses of every agent under
    its name, and nothing else. *)
Lemma C241_keys_lemma : forall d ags, (forall a t, In (a, t) ags -> wf t /\ forall k, In k (map fst (loss_dict t)) -> no_slash k) -> NoDup (map (fun x => str_of (fst x)) ags) ->
  let key := fun (a : agent) (k : string) => (str_of a ++ "/" ++ k)%string in
  (forall a t k, In (a, t) ags -> no_slash k -> getd (key a k) (loss_dict (MapS d ags)) = getd k (loss_dict t))
  /\ (forall j v, getd j (loss_dict (MapS d ags)) = Some v -> exists a t k, In (a, t) ags /\ j = key a k /\ getd k (loss_dict t) = Some v).
Proof.
  intros d ags Hg Hn key. assert (K : forall a k, key a k = key_of a k).
  { intros a k. symmetry. apply app_assoc_s. }
  rewrite map_loss. split.
  - intros a t k Hin Hk. rewrite K. apply agents_get; auto. apply Forall_forall. intros [b u] Hb. exact (Hg b u Hb).
  - assert (G : forall r, (forall j v, getd j r = Some v -> exists a t k, In (a, t) ags /\ j = key a k /\ getd k (loss_dict t) = Some v) ->
      forall l, incl l ags -> forall j v, getd j (fold_left add_agent l r) = Some v -> exists a t k, In (a, t) ags /\ j = key a k /\ getd k (loss_dict t) = Some v).
    { intros r Hr l. revert r Hr. induction l as [|[a t] l IH]; intros r Hr Hl; cbn; [exact Hr|]. apply IH; [|intros x Hx; apply Hl; right; exact Hx].
      intros j v H. assert (Hin : In (a, t) ags) by (apply Hl; left; reflexivity). destruct (add_sound r (a, t) j v (proj1 (Hg a t Hin)) H) as [F|(k & -> & F)]; [exact (Hr j v F)|].
      exists a, t, k. split; [exact Hin|]. split; [symmetry; apply K|exact F]. }
    apply G; [cbn; discriminate | intros x Hx; exact Hx].
Qed.
(** C241.  Names that differ can be written alike: the losses of one agent are lost. *)
Lemma C241_collision_refuted_lemma : exists m, new_map [(AInt 1, Plain (base_part 0 ++ [("loss"%string, VNum 0)])); (AStr "1"%string, Plain (base_part 0 ++ [("loss"%string, VNum 1)]))] AMax = Ok m
  /\ loss_dict m = [("1/loss"%string, VNum 1)].
Proof. eexists. split; vm_compute; reflexivity. Qed.
Lemma qmaxl_spec l : l <> [] -> In (qmaxl l) l /\ forall x, In x l -> (x <= qmaxl l)%Qc.
Proof.
  destruct l as [|y l]; [contradiction|]. intros _. cbn [qmaxl]. revert y. induction l as [|z l IH]; intro y; cbn [fold_left].
  - split; [left; reflexivity|]. intros x [<- | []]. qclra.
  - destruct (IH (Qcmaxb y z)) as [H1 H2]. unfold Qcmaxb at 1 in H1. unfold Qcmaxb in H1, H2 |- *. destruct (Qcleb_spec y z) as [Hl|Hl].
    + split; [destruct H1 as [<- | H1]; [right; left; reflexivity | right; right; exact H1]|]. intros x [<- | [<- | Hx]]; [|apply H2; left; reflexivity|apply H2; right; exact Hx].
      assert (G := H2 z (or_introl eq_refl)). qclra.
    + split; [destruct H1 as [<- | H1]; [left; reflexivity | right; right; exact H1]|]. intros x [<- | [<- | Hx]]; [apply H2; left; reflexivity | |apply H2; right; exact Hx].
      assert (G := H2 y (or_introl eq_refl)). qclra.
Qed.
Lemma qminl_spec l : l <> [] -> In (qminl l) l /\ forall x, In x l -> (qminl l <= x)%Qc.
Proof.
  destruct l as [|y l]; [contradiction|]. intros _. cbn [qminl]. revert y. induction l as [|z l IH]; intro y; cbn [fold_left].
  - split; [left; reflexivity|]. intros x [<- | []]. qclra.
  - destruct (IH (Qcminb y z)) as [H1 H2]. unfold Qcminb in H1, H2 |- *. destruct (Qcleb_spec y z) as [Hl|Hl].
    + split; [destruct H1 as [<- | H1]; [left; reflexivity | right; right; exact H1]|]. intros x [<- | [<- | Hx]]; [apply H2; left; reflexivity | |apply H2; right; exact Hx].
      assert (G := H2 y (or_introl eq_refl)). qclra.
    + split; [destruct H1 as [<- | H1]; [right; left; reflexivity | right; right; exact H1]|]. intros x [<- | [<- | Hx]]; [|apply H2; left; reflexivity|apply H2; right; exact Hx].
      assert (G := H2 z (or_introl eq_refl)). qclra.
Qed.
Lemma times_ok ags : (forall a t, In (a, t) ags -> exists q, getattr t "train_time"%string = Some (VNum q)) ->
  exists ts, mapM (fun x : agent * stats => time_of (snd x)) ags = Ok ts /\ length ts = length ags /\ forall q, In q ts <-> exists a t, In (a, t) ags /\ getattr t "train_time"%string = Some (VNum q).
Proof.
  induction ags as [|[a t] ags IH]; intro H; [exists []; split; [reflexivity|]; split; [reflexivity|]; intro q; split; [intros [] | intros (? & ? & [] & _)]|].
  destruct IH as (ts & E & L & S); [intros b u Hb; apply (H b u); right; exact Hb|]. destruct (H a t (or_introl eq_refl)) as [q Hq].
  exists (q :: ts). cbn [mapM snd]. unfold time_of at 1. rewrite Hq. cbn [bind]. rewrite E. split; [reflexivity|]. split; [cbn; congruence|]. intro p. split.
  - intros [<- | Hp]; [exists a, t; split; [left; reflexivity|exact Hq]|]. apply S in Hp. destruct Hp as (b & u & Hb & Hu). exists b, u. split; [right; exact Hb|exact Hu].
  - intros (b & u & [Hb|Hb] & Hu); [injection Hb as <- <-; left; congruence | right; apply S; exists b, u; auto].
Qed.
(** C241.  The time of the manager is the largest or smallest one of an agent, or lies between them; without agents there is none. *)
Lemma C241_time_lemma : forall ags, ags <> [] -> (forall a t, In (a, t) ags -> exists q, getattr t "train_time"%string = Some (VNum q)) ->
  let times := fun q => exists a t, In (a, t) ags /\ getattr t "train_time"%string = Some (VNum q) in
  exists mx mn av s1 s2 s3, new_map ags AMax = Ok s1 /\ new_map ags AMin = Ok s2 /\ new_map ags AMean = Ok s3
    /\ getattr s1 "train_time"%string = Some (VNum mx) /\ getattr s2 "train_time"%string = Some (VNum mn) /\ getattr s3 "train_time"%string = Some (VNum av)
    /\ times mx /\ times mn /\ (mn <= av)%Qc /\ (av <= mx)%Qc /\ (forall q, times q -> (mn <= q)%Qc /\ (q <= mx)%Qc) /\ new_map ags AOther = Err ValueError.
Proof.
  intros ags Hne H times. destruct (times_ok ags H) as (ts & E & L & S). assert (Ht : ts <> []) by (destruct ts; [destruct ags; [contradiction|discriminate]|discriminate]).
  destruct (qmaxl_spec ts Ht) as [M1 M2]. destruct (qminl_spec ts Ht) as [N1 N2].
  assert (B : (qminl ts <= np_mean ts)%Qc /\ (np_mean ts <= qmaxl ts)%Qc).
  { assert (G : forall l (lo hi : Qc), (forall x, In x l -> (lo <= x)%Qc /\ (x <= hi)%Qc) -> (sq (length l) * lo <= qsum l)%Qc /\ (qsum l <= sq (length l) * hi)%Qc).
    { clear. induction l as [|x l IH]; intros lo hi Hx; [cbn [length qsum]; change (sq 0) with 0%Qc; split; qclra|]. destruct (IH lo hi) as [A1 A2]; [intros y Hy; apply Hx; right; exact Hy|].
      destruct (Hx x (or_introl eq_refl)) as [B1 B2]. cbn [length qsum]. rewrite sq_S. split; qcnra. }
    destruct (G ts (qminl ts) (qmaxl ts)) as [A1 A2]; [intros x Hx; split; auto|]. assert (P := sq_pos (length ts)). assert (Lp : 0 < length ts) by (destruct ts; [contradiction|cbn; lia]). specialize (P Lp).
    assert (Hz : sq (length ts) <> 0%Qc) by (intro Z; rewrite Z in P; discriminate P). unfold np_mean. assert (I := Qcmult_inv_r _ Hz).
    assert (Ip : (0 < / sq (length ts))%Qc).
    { destruct (Qcltb_spec 0%Qc (/ sq (length ts))%Qc) as [F|F]; [exact F|]. exfalso. set (n := sq (length ts)) in *. set (m := (/ n)%Qc) in *. clearbody n m. qcnra. }
    unfold Qcdiv. set (n := sq (length ts)) in *. set (m := (/ n)%Qc) in *. set (q := qsum ts) in *. set (lo := qminl ts) in *. set (hi := qmaxl ts) in *. clearbody n m q lo hi.
    assert (E1 : lo = (n * lo * m)%Qc) by (transitivity (lo * (n * m))%Qc; [rewrite I; ring|ring]). assert (E2 : hi = (n * hi * m)%Qc) by (transitivity (hi * (n * m))%Qc; [rewrite I; ring|ring]).
    split; [rewrite E1 | rewrite E2]; apply Qcmult_le_compat_r; try assumption; apply Qclt_le_weak; exact Ip. }
  exists (qmaxl ts), (qminl ts), (np_mean ts). unfold new_map. rewrite E. cbn [bind].
  destruct ts as [|t0 ts0]; [contradiction|]. do 3 eexists. split; [reflexivity|]. split; [reflexivity|]. split; [reflexivity|]. split; [reflexivity|]. split; [reflexivity|]. split; [reflexivity|].
  split; [apply S; exact M1|]. split; [apply S; exact N1|]. split; [apply B|]. split; [apply B|]. split; [|reflexivity]. intros q Hq. apply S in Hq. split; auto.
Qed.
(** C241.  In an update the way of aggregating plays no role: the time is overwritten. Without data for any agent the update fails. *)
Lemma C241_aggregator_refuted_lemma : (forall ags g g' t, ags <> [] -> (forall a s, In (a, s) ags -> exists q, getattr s "train_time"%string = Some (VNum q)) -> g <> AOther -> g' <> AOther ->
    manager_update ags g t = manager_update ags g' t)
  /\ forall t, manager_update [] AMax t = Err ValueError.
Proof.
  split; [|reflexivity]. intros ags g g' t Hne H Hg Hg'. destruct (times_ok ags H) as (ts & E & L & _).
  assert (G : forall g, g <> AOther -> manager_update ags g t = Ok (MapS [("train_time", VNum t); ("smoothed_loss", VDict [])]%string ags)).
  { intros h Hh. unfold manager_update, new_map. rewrite E. cbn [bind]. destruct ts; [destruct ags; [contradiction|discriminate]|]. destruct h; [reflexivity|reflexivity|reflexivity|contradiction]. }
  rewrite !G by assumption. reflexivity.
Qed.

(** ** Smoothing *)
Lemma skipn2 {A} n m (l : list A) : skipn n (skipn m l) = skipn (n + m) l.
Proof. revert l. induction m as [|m IH]; intro l; [rewrite Nat.add_0_r; reflexivity|]. rewrite Nat.add_succ_r. destruct l; [rewrite !skipn_nil; reflexivity|]. cbn [skipn]. apply IH. Qed.
Lemma last_app l q : length l >= 100 -> skipn 1 (last_100 l ++ [q]) = last_100 (l ++ [q]).
Proof.
  intro E. unfold last_100. rewrite app_length. cbn [length]. rewrite !skipn_app, skipn2, skipn_length.
  replace (1 + (length l - 100)) with (length l + 1 - 100) by lia. replace (1 - (length l - (length l - 100))) with 0 by lia. replace (length l + 1 - 100 - length l) with 0 by lia. reflexivity.
Qed.
Lemma last_len l : length (last_100 l) = Nat.min 100 (length l).
Proof. unfold last_100. rewrite skipn_length. lia. Qed.
Definition holds (st : averages) (h : string -> list Qc) : Prop := forall k, ma_size (avg_of st k) = 100%Z /\ ma_cache (avg_of st k) = map VFin (last_100 (h k)).
Lemma add1 m l q : ma_size m = 100%Z -> ma_cache m = map VFin (last_100 l) -> ma_size (ma_add m [VFin q]) = 100%Z /\ ma_cache (ma_add m [VFin q]) = map VFin (last_100 (l ++ [q])).
Proof.
  intros H1 H2. unfold ma_add. rewrite H1, H2. cbn [filter banned negb]. rewrite app_length, map_length. cbn [length].
  assert (L := last_len l). change (0 <? 100)%Z with true. cbn [andb]. change (Z.to_nat 100) with 100.
  destruct (Z.ltb_spec 100 (Z.of_nat (length (last_100 l) + 1))) as [F|F].
  - cbn [ma_size ma_cache]. split; [reflexivity|]. change [VFin q] with (map VFin [q]). rewrite <- map_app, skipn_map. f_equal.
    assert (E : length l >= 100) by lia. rewrite <- (last_app l q E). f_equal. lia.
  - cbn [ma_size ma_cache]. split; [reflexivity|]. change [VFin q] with (map VFin [q]). rewrite <- map_app. f_equal. unfold last_100. rewrite app_length. cbn [length].
    assert (E : length l < 100) by lia. replace (length l - 100) with 0 by lia. replace (length l + 1 - 100) with 0 by lia. reflexivity.
Qed.
Lemma finites_map l : finites (map VFin l) = Some l.
Proof. induction l as [|x l IH]; cbn; [reflexivity|]. rewrite IH. reflexivity. Qed.
Lemma get_mean m l : ma_cache m = map VFin l -> ma_get m = Some (np_mean l).
Proof.
  intro H. unfold ma_get. rewrite H. destruct l as [|x l]; [cbn; f_equal; apply Qc_is_canon; reflexivity|]. cbn [map]. change (VFin x :: map VFin l) with (map VFin (x :: l)). rewrite finites_map. reflexivity.
Qed.
Definition here (k : string) (d : dict) : list Qc := match getd k d with Some (VNum q) => [q] | _ => [] end.
Lemma smooth_ok data : numbers data -> forall st h, holds st h -> exists st' sm, smooth st data = Ok (st', sm) /\ holds st' (fun k => h k ++ here k data)
  /\ forall k, getd k sm = option_map (fun _ => Some (np_mean (last_100 (h k ++ here k data)))) (getd k data).
Proof.
  unfold here. induction data as [|[k v] data IH]; intros [Hn Hv] st h Hh.
  - exists st, []. split; [reflexivity|]. split; [intro k; rewrite app_nil_r; apply Hh|reflexivity].
  - inversion Hn as [|? ? N1 N2]; subst. destruct (Hv k v (or_introl eq_refl)) as [q ->]. cbn [smooth to_num bind].
    destruct (Hh k) as [Hs Hc]. destruct (add1 _ _ q Hs Hc) as [As Ac]. set (m := ma_add (avg_of st k) [VFin q]) in *. cbn [fst] in N1.
    destruct (IH (conj N2 (fun k' v' H => Hv k' v' (or_intror H))) (putd k m st) (fun j => h j ++ (if String.eqb j k then [q] else []))) as (st' & sm & E & H' & G).
    { intro j. unfold avg_of. rewrite getd_put. destruct (String.eqb_spec j k) as [->|Hj]; [exact (conj As Ac)|]. rewrite app_nil_r. apply Hh. }
    assert (Gk : getd k data = None) by (apply getd_none; exact N1).
    rewrite E. cbn [bind fst snd]. exists st', ((k, ma_get m) :: sm). split; [reflexivity|]. split.
    + intro j. specialize (H' j). revert H'. cbv beta. cbn [getd]. destruct (String.eqb_spec j k) as [->|Hj]; intro H'; [rewrite Gk, app_nil_r in H'; exact H' | rewrite app_nil_r in H'; exact H'].
    + intro j. specialize (G j). revert G. cbv beta. cbn [getd]. destruct (String.eqb_spec j k) as [->|Hj]; intro G; [cbn [option_map]; f_equal; apply (get_mean m _ Ac) | rewrite app_nil_r in G; exact G].
Qed.
Lemma asdict_smoothed s v s' : setattr s "smoothed_loss"%string v = Ok s' -> getd "smoothed_loss"%string (asdict s') = Some v.
Proof.
  destruct s as [d|d a|own i]; cbn [setattr].
  - intros [= <-]. apply getd_put_same.
  - intros [= <-]. cbn [asdict flat_map base_fields]. rewrite getd_put_same. rewrite get_app. destruct (getd "train_time"%string _); reflexivity.
  - cbn [is_base base_fields existsb]. destruct (setattr i _ v) as [i'|e]; [|discriminate]. intro E. injection E as <-. cbn [asdict flat_map base_fields]. rewrite getd_put_same. rewrite get_app. destruct (getd "train_time"%string _); reflexivity.
Qed.
(** C242.  After every update the smoothed value of every loss reported by it is the mean of the last 100 values reported under its name, this one included. *)
Lemma C242_smoothed_lemma : forall l, (forall s, In s l -> numbers (loss_dict s)) -> exists st logs, log_updates [] l = Ok (st, logs) /\ length logs = length l
  /\ forall i s, nth_error l i = Some s -> exists d sm, nth_error logs i = Some d /\ getd "smoothed_loss"%string d = Some (VDict sm)
       /\ forall k, getd k sm = option_map (fun _ => Some (np_mean (last_100 (history k (map loss_dict (firstn (S i) l)))))) (getd k (loss_dict s)).
Proof.
  assert (G : forall l pre st, (forall s, In s l -> numbers (loss_dict s)) -> holds st (fun k => history k (map loss_dict pre)) -> exists st' logs, log_updates st l = Ok (st', logs) /\ length logs = length l
    /\ forall i s, nth_error l i = Some s -> exists d sm, nth_error logs i = Some d /\ getd "smoothed_loss"%string d = Some (VDict sm)
         /\ forall k, getd k sm = option_map (fun _ => Some (np_mean (last_100 (history k (map loss_dict (pre ++ firstn (S i) l)))))) (getd k (loss_dict s))).
  { induction l as [|s l IH]; intros pre st Hn Hh.
    - exists st, []. split; [reflexivity|]. split; [reflexivity|]. intros [|i] s; discriminate.
    - destruct (smooth_ok (loss_dict s) (Hn s (or_introl eq_refl)) st _ Hh) as (st1 & sm & E & H1 & G1).
      destruct (set_base_ok s "smoothed_loss"%string (VDict sm)) as (s' & Es & _); [right; left; reflexivity|]. assert (A := asdict_smoothed _ _ _ Es).
      assert (X : forall k, history k (map loss_dict (pre ++ [s])) = history k (map loss_dict pre) ++ here k (loss_dict s)).
      { intro k. unfold history. rewrite map_app, flat_map_app. cbn [map flat_map]. rewrite app_nil_r. reflexivity. }
      destruct (IH (pre ++ [s]) st1) as (st' & logs & E' & L & F); [intros t Ht; apply Hn; right; exact Ht | intro k; rewrite X; apply H1 |].
      cbn [log_updates]. unfold log_update. rewrite E. cbn [bind fst snd]. rewrite Es. cbn [bind]. rewrite E'. cbn [bind fst snd].
      exists st', (asdict s' :: logs). split; [reflexivity|]. split; [cbn; congruence|]. intros [|i] t Ht; cbn in Ht.
      + injection Ht as <-. exists (asdict s'), sm. split; [reflexivity|]. split; [exact A|]. intro k. rewrite G1. cbn [firstn]. rewrite X. reflexivity.
      + destruct (F i t Ht) as (d & sm' & D1 & D2 & D3). exists d, sm'. split; [exact D1|]. split; [exact D2|]. intro k. rewrite D3. change (firstn (S (S i)) (s :: l)) with (s :: firstn (S i) l).
        rewrite <- app_assoc. reflexivity. }
  intros l Hn. destruct (G l [] [] Hn) as (st & logs & H); [intro k; split; reflexivity|]. exists st, logs. exact H.
Qed.
(** C242.  What a plain dataclass logs beside the smoothed losses are its fields. *)
Lemma C242_raw_lemma : forall st p st' s' d, log_update st (Plain p) = Ok (st', s', d) -> forall k, k <> "smoothed_loss"%string -> getd k d = getd k p.
Proof.
  intros st p st' s' d E k Hk. unfold log_update in E. destruct (smooth st (loss_dict (Plain p))) as [r|e]; cbn [bind] in E; [|discriminate]. cbn [setattr bind] in E. injection E as _ _ <-. cbn [asdict]. apply getd_put_other, Hk.
Qed.
(** C242.  Of a wrapper or of the statistics of several agents nothing but [train_time] and [smoothed_loss] is logged. *)
Lemma C242_raw_refuted_lemma : (forall st s st' s' d, (forall p, s <> Plain p) -> log_update st s = Ok (st', s', d) -> forall k, In k (map fst d) -> k = "train_time"%string \/ k = "smoothed_loss"%string)
  /\ exists s st s' d, icm_stats (Plain (base_part 0 ++ [("loss"%string, VNum 1)])) 1 1 1 = Ok s /\ log_update [] s = Ok (st, s', d) /\ getd "loss"%string d = None
       /\ getd "loss"%string (loss_dict s) = Some (VNum 1) /\ getd "icm_loss"%string d = None.
Proof.
  split.
  - intros st s st' s' d Hp E k Hk. unfold log_update in E. destruct (smooth st (loss_dict s)) as [r|e]; cbn [bind] in E; [|discriminate].
    destruct (setattr s _ _) as [t|e] eqn:Es; cbn [bind] in E; [|discriminate]. injection E as _ <- <-.
    assert (T : forall e : dict, In k (map fst (flat_map (fun k => match getd k e with Some v => [(k, v)] | None => [] end) base_fields)) -> k = "train_time"%string \/ k = "smoothed_loss"%string).
    { intros e. cbn [flat_map base_fields]. destruct (getd "train_time"%string e), (getd "smoothed_loss"%string e); cbn; intuition. }
    destruct s as [p|p a|own i]; [destruct (Hp p eq_refl) | |].
    + injection Es as <-. exact (T _ Hk).
    + cbn [setattr] in Es. cbn [is_base base_fields existsb] in Es. change (String.eqb "smoothed_loss" "train_time" || (String.eqb "smoothed_loss" "smoothed_loss" || false)) with true in Es. cbv iota in Es.
      destruct (setattr i _ _) as [i'|e]; cbn [bind] in Es; [|discriminate]. injection Es as <-. exact (T _ Hk).
  - do 4 eexists. split; [vm_compute; reflexivity|]. split; [vm_compute; reflexivity|]. repeat split; vm_compute; reflexivity.
Qed.

(** ** Times *)
Definition adv (c : coll) (t : Qc) (n e : nat) : coll := mkC (c_async c) (if c_async c then (c_time c + t)%Qc else c_time c) (c_step c + n) (c_ep c + e).
Lemma adv0 o : option_map (fun c => adv c 0 0 0) o = o.
Proof. destruct o as [[a t s e]|]; [|reflexivity]. cbn. unfold adv. cbn. rewrite !Nat.add_0_r. destruct a; [rewrite Qcplus_0_r|]; reflexivity. Qed.
Lemma total_cons f o l : total f (o :: l) = ((if f o then dur o else 0) + total f l)%Qc.
Proof. unfold total. cbn [filter]. destruct (f o); cbn [map qsum]; ring. Qed.
Lemma total_app f a b : total f (a ++ b) = (total f a + total f b)%Qc.
Proof. unfold total. rewrite filter_app, map_app, qsum_app. reflexivity. Qed.
Lemma run l : (forall o, In o l -> is_reset o = false) -> forall k,
  let k' := fold_left tick l k in
  k_now k' = (k_now k + total any l)%Qc /\ k_start k' = k_start k
  /\ k_train k' = option_map (fun c => adv c (total is_collect l) (steps is_collect l) (episodes is_collect l)) (k_train k)
  /\ k_test k' = option_map (fun c => adv c (total is_test l) (steps is_test l) (episodes is_test l)) (k_test k).
Proof.
  induction l as [|o l IH]; intros H k; cbn zeta.
  - cbn [fold_left]. change (total any []) with 0%Qc. change (total is_collect []) with 0%Qc. change (total is_test []) with 0%Qc. split; [ring|]. split; [reflexivity|]. split; symmetry; apply adv0.
  - cbn [fold_left]. destruct (IH (fun o' Ho => H o' (or_intror Ho)) (tick k o)) as (A & B & C & D). rewrite A, B, C, D, !total_cons. specialize (H o (or_introl eq_refl)).
    assert (M : forall (x : option coll) t t' n n' e e', option_map (fun c => adv c t n e) (option_map (fun c => collect c t' n' e') x) = option_map (fun c => adv c (t' + t)%Qc (n' + n) (e' + e)) x).
    { intros [[a u s w]|] t t' n n' e e'; [|reflexivity]. cbn. unfold adv, collect. cbn. rewrite !Nat.add_assoc. destruct a; [rewrite Qcplus_assoc|]; reflexivity. }
    destruct o; cbn [tick k_now k_start k_train k_test is_collect is_test any dur] in *; try discriminate; rewrite ?M, ?Qcplus_0_l; unfold steps, episodes; cbn [filter is_collect is_test map fold_right];
      (split; [ring|]); (split; [reflexivity|]); split; reflexivity.
Qed.
Lemma run_upd l : forall k, k_upd (fold_left tick l k) = (k_upd k + total is_update l)%Qc.
Proof.
  induction l as [|o l IH]; intro k; cbn [fold_left]; [change (total is_update []) with 0%Qc; ring|]. rewrite IH, total_cons. destruct o; cbn [tick k_upd is_update dur]; ring.
Qed.
Lemma run_kind l : forall k, option_map c_async (k_train (fold_left tick l k)) = option_map c_async (k_train k) /\ option_map c_async (k_test (fold_left tick l k)) = option_map c_async (k_test k).
Proof.
  induction l as [|o l IH]; intro k; [split; reflexivity|]. cbn [fold_left]. destruct (IH (tick k o)) as [A B]. rewrite A, B. destruct o, (k_train k) as [c|] eqn:E1, (k_test k) as [c'|] eqn:E2; cbn; rewrite ?E1, ?E2; split; reflexivity.
Qed.
Lemma total_nonneg f l : (forall o, In o l -> (0 <= dur o)%Qc) -> (0 <= total f l)%Qc.
Proof.
  induction l as [|o l IH]; intro H; [change (total f []) with 0%Qc; qclra|]. rewrite total_cons. assert (A := H o (or_introl eq_refl)). assert (B := IH (fun o' Ho => H o' (or_intror Ho))).
  destruct (f o); qclra.
Qed.
(** The state and the information after a reset and events [l]. *)
Lemma after k l0 l : (forall o, In o l -> is_reset o = false /\ (0 <= dur o)%Qc) ->
  let k' := fold_left tick (l0 ++ OReset :: l) k in
  Qcmaxb 0 (k_now k' - k_start k') = total any l
  /\ k_upd k' = (k_upd k + total is_update (l0 ++ l))%Qc
  /\ k_train k' = option_map (fun c => mkC (c_async c) (if c_async c then total is_collect l else 0%Qc) (steps is_collect l) (episodes is_collect l)) (k_train k)
  /\ k_test k' = option_map (fun c => mkC (c_async c) (if c_async c then total is_test l else 0%Qc) (steps is_test l) (episodes is_test l)) (k_test k).
Proof.
  intros H k'. unfold k'. rewrite fold_left_app. cbn [fold_left]. set (k0 := fold_left tick l0 k). assert (U : k_upd k0 = (k_upd k + total is_update l0)%Qc) by apply run_upd.
  destruct (run_kind l0 k) as [K1 K2]. fold k0 in K1, K2. clearbody k0.
  destruct (run l (fun o Ho => proj1 (H o Ho)) (tick k0 OReset)) as (A & B & C & D). rewrite A, B, C, D, run_upd. cbn [tick k_now k_start k_upd k_train k_test dur].
  assert (N := total_nonneg any l (fun o Ho => proj2 (H o Ho))). split.
  { set (t := total any l) in *. clearbody t. unfold Qcmaxb. destruct (Qcleb_spec 0%Qc (k_now k0 + 0 + t - (k_now k0 + 0))%Qc); [ring|qclra]. }
  split; [rewrite U, total_app; ring|]. split.
  - destruct (k_train k0) as [c|], (k_train k) as [c'|]; cbn in K1 |- *; try discriminate; [|reflexivity]. injection K1 as E. unfold adv. cbn. rewrite E, Qcplus_0_l. reflexivity.
  - destruct (k_test k0) as [c|], (k_test k) as [c'|]; cbn in K2 |- *; try discriminate; [|reflexivity]. injection K2 as E. unfold adv. cbn. rewrite E, Qcplus_0_l. reflexivity.
Qed.
Ltac gather := 
  match goal with H : forall o, In o ?l -> _, E : gather_info (fold_left tick (?l0 ++ OReset :: ?l) ?k) = Ok ?i |- _ =>
    destruct (after k l0 l H) as (A1 & A2 & A3 & A4); unfold gather_info in E; rewrite A1, A2, A3, A4 in E; clear A1 A2 A3 A4 end.
(** C243.  Since the last reset: the total time, the steps and episodes are those of the events since then; the times of training and testing add
    up to the total; the speed is that of the training steps. *)
Lemma C243_counts_lemma : forall k l0 l i, (forall o, In o l -> is_reset o = false /\ (0 <= dur o)%Qc) -> gather_info (fold_left tick (l0 ++ OReset :: l) k) = Ok i ->
  i_total i = total any l /\ (i_train i + i_testt i)%Qc = i_total i
  /\ (k_train k <> None -> i_tstep i = steps is_collect l /\ i_tep i = episodes is_collect l /\ (i_speed i * i_train i)%Qc = sq (steps is_collect l))
  /\ (k_test k <> None -> i_estep i = steps is_test l /\ i_eep i = episodes is_test l)
  /\ (k_train k = None -> i_tstep i = 0 /\ i_tep i = 0 /\ i_collect i = 0%Qc) /\ (k_test k = None -> i_estep i = 0 /\ i_eep i = 0 /\ i_testt i = 0%Qc).
Proof.
  intros k l0 l i H E. gather. set (T := match option_map _ (k_test k) with Some c => c_time c | None => 0%Qc end) in *. set (tot := total any l) in *.
  assert (HT : k_test k = None -> T = 0%Qc) by (intro Z; unfold T; rewrite Z; reflexivity). clearbody T tot.
  destruct (k_train k) as [c|]; cbn [option_map c_time c_step c_ep c_async] in E.
  - destruct (Qc_eq_dec (tot - T)%Qc 0) as [Z|Z]; cbn [bind] in E; [discriminate|]. injection E as <-. cbn [i_total i_train i_testt i_tstep i_tep i_estep i_eep i_collect i_speed fst snd].
    split; [reflexivity|]. split; [ring|]. split.
    + intros _. split; [reflexivity|]. split; [reflexivity|]. unfold Qcdiv. assert (I := Qcmult_inv_r _ Z). set (m := (tot - T)%Qc) in *. clearbody m. transitivity (sq (steps is_collect l) * (m * / m))%Qc; [ring|]. rewrite I. ring.
    + split; [destruct (k_test k) as [c'|]; [intros _; split; reflexivity|intro F; contradiction]|]. split; [discriminate|]. intro Z'. rewrite (HT Z'), Z'. split; [reflexivity|]. split; reflexivity.
  - cbn [bind] in E. injection E as <-. cbn [i_total i_train i_testt i_tstep i_tep i_estep i_eep i_collect i_speed fst snd].
    split; [reflexivity|]. split; [ring|]. split; [intro F; contradiction|]. split; [destruct (k_test k) as [c'|]; [intros _; split; reflexivity|intro F; contradiction]|].
    split; [intros _; split; [reflexivity|split; reflexivity]|]. intro Z'. rewrite (HT Z'), Z'. split; [reflexivity|]. split; reflexivity.
Qed.
(** C243.  For collectors that count their time ([AsyncCollector]) the times of collecting and testing are those of the events since the last reset. *)
Lemma C243_async_partial_lemma : forall k l0 l i c c', (forall o, In o l -> is_reset o = false /\ (0 <= dur o)%Qc) -> gather_info (fold_left tick (l0 ++ OReset :: l) k) = Ok i ->
  (k_train k = Some c -> c_async c = true -> i_collect i = total is_collect l) /\ (k_test k = Some c' -> c_async c' = true -> i_testt i = total is_test l).
Proof.
  intros k l0 l i c c' H E. gather. split; intros Hc Ha; rewrite Hc in E; cbn [option_map c_time c_step c_ep c_async] in E; rewrite Ha in E.
  - destruct (Qc_eq_dec _ _) as [Z|Z]; cbn [bind] in E; [discriminate|]. injection E as <-. reflexivity.
  - destruct (option_map _ (k_train k)) as [x|]; [destruct (Qc_eq_dec _ _) as [Z|Z]; cbn [bind] in E; [discriminate|]|cbn [bind] in E]; injection E as <-; reflexivity.
Qed.
(** C243.  For every other collector they are 0, however long collecting and testing take, and testing counts as training. *)
Lemma C243_times_refuted_lemma : (forall k l0 l i, (forall c, k_train k = Some c \/ k_test k = Some c -> c_async c = false) -> (forall o, In o l -> is_reset o = false /\ (0 <= dur o)%Qc) ->
    gather_info (fold_left tick (l0 ++ OReset :: l) k) = Ok i -> i_collect i = 0%Qc /\ i_testt i = 0%Qc /\ i_train i = i_total i)
  /\ (let c := mkC false 0 0 0 in exists i, gather_info (fold_left tick [OReset; OTest 1 0 0] (mkK 0 0 0 (Some c) (Some c))) = Ok i /\ i_train i = 1%Qc /\ i_testt i = 0%Qc).
Proof.
  split.
  - intros k l0 l i Hs H E. gather. assert (Z1 : forall x, match option_map (fun c => mkC (c_async c) (if c_async c then total is_test l else 0%Qc) (steps is_test l) (episodes is_test l)) (k_test k) with Some c => c_time c | None => x end = match k_test k with Some _ => 0%Qc | None => x end).
    { intro x. destruct (k_test k) as [c|]; [|reflexivity]. cbn. rewrite (Hs c (or_intror eq_refl)). reflexivity. }
    rewrite !Z1 in E. clear Z1. replace (match k_test k with Some _ => 0%Qc | None => 0%Qc end) with 0%Qc in E by (destruct (k_test k); reflexivity).
    destruct (k_train k) as [c|]; cbn [option_map c_time c_step c_ep c_async] in E; [rewrite (Hs c (or_introl eq_refl)) in E; destruct (Qc_eq_dec _ _) as [Z|Z]; cbn [bind] in E; [discriminate|] | cbn [bind] in E];
      injection E as <-; cbn [i_collect i_testt i_train i_total fst]; (split; [reflexivity|]); (split; [reflexivity|ring]).
  - eexists. split; [vm_compute; reflexivity|]. split; apply Qc_is_canon; reflexivity.
Qed.
(** C243.  The time of updates is not reset: it counts from the creation of the trainer and can exceed the total time. *)
Lemma C243_update_refuted_lemma : (forall k l0 l i, (forall o, In o l -> is_reset o = false /\ (0 <= dur o)%Qc) -> gather_info (fold_left tick (l0 ++ OReset :: l) k) = Ok i ->
    i_update i = (k_upd k + total is_update (l0 ++ l))%Qc)
  /\ exists i, gather_info (fold_left tick [OReset; OUpdate (1 + 1); OReset; OPass 1] (mkK 0 0 0 None None)) = Ok i /\ i_update i = (1 + 1)%Qc /\ i_total i = 1%Qc.
Proof.
  split.
  - intros k l0 l i H E. gather. destruct (option_map _ (k_train k)) as [x|]; [destruct (Qc_eq_dec _ _) as [Z|Z]; cbn [bind] in E; [discriminate|]|cbn [bind] in E]; injection E as <-; reflexivity.
  - eexists. split; [vm_compute; reflexivity|]. split; apply Qc_is_canon; reflexivity.
Qed.
(** C243.  If no time has passed since the reset, gathering the information divides by 0. *)
Lemma C243_instant_refuted_lemma : forall k l0 l c, k_train k = Some c -> (forall c', k_test k = Some c' -> c_async c' = false) -> (forall o, In o l -> is_reset o = false /\ dur o = 0%Qc) ->
  gather_info (fold_left tick (l0 ++ OReset :: l) k) = Err ZeroDivisionError.
Proof.
  intros k l0 l c Hc Ht H. assert (H' : forall o, In o l -> is_reset o = false /\ (0 <= dur o)%Qc) by (intros o Ho; destruct (H o Ho) as [A B]; split; [exact A|rewrite B; qclra]).
  assert (Z : total any l = 0%Qc).
  { clear - H. induction l as [|o l IH]; [reflexivity|]. rewrite total_cons. rewrite (IH (fun o' Ho => H o' (or_intror Ho))). cbn [any]. rewrite (proj2 (H o (or_introl eq_refl))). ring. }
  destruct (after k l0 l H') as (A1 & A2 & A3 & A4). unfold gather_info. rewrite A1, A3, A4, Hc, Z. cbn [option_map c_time].
  assert (T : match option_map (fun c => mkC (c_async c) (if c_async c then total is_test l else 0%Qc) (steps is_test l) (episodes is_test l)) (k_test k) with Some c => c_time c | None => 0%Qc end = 0%Qc).
  { destruct (k_test k) as [c'|]; [|reflexivity]. cbn. rewrite (Ht c' eq_refl). reflexivity. }
  rewrite T. destruct (Qc_eq_dec (0 - 0)%Qc 0) as [_|F]; [reflexivity|exfalso; apply F; ring].
Qed.

(** ** Rounding *)
Definition zq (z : Z) : Qc := Q2Qc (inject_Z z).
Lemma zq_le a b : (a <= b)%Z <-> (zq a <= zq b)%Qc.
Proof. unfold zq, Qcle. cbn [this Q2Qc]. rewrite !Qred_correct. rewrite <- Zle_Qle. reflexivity. Qed.
Lemma zq_plus a b : zq (a + b) = (zq a + zq b)%Qc.
Proof. apply Qc_is_canon. unfold zq. cbn [this Q2Qc Qcplus]. rewrite !Qred_correct. rewrite inject_Z_plus. reflexivity. Qed.
Lemma floor_le (q : Qc) : (zq (Qfloor q) <= q)%Qc /\ (q < zq (Qfloor q) + 1)%Qc.
Proof.
  split.
  - unfold zq, Qcle. cbn [this Q2Qc]. rewrite Qred_correct. apply Qfloor_le.
  - change 1%Qc with (zq 1). rewrite <- zq_plus. unfold zq, Qclt. cbn [this Q2Qc]. rewrite Qred_correct. apply Qlt_floor.
Qed.
Lemma round0_spec (q : Qc) : let d := (q - zq (round0 q))%Qc in let h := Q2Qc (1 # 2) in (- h <= d)%Qc /\ (d <= h)%Qc /\ (d = h \/ d = (- h)%Qc -> Z.even (round0 q) = true).
Proof.
  cbn zeta. unfold round0. destruct (floor_le q) as [A B]. set (f := Qfloor q) in *. clearbody f. fold (zq f). set (h := Q2Qc (1 # 2)). assert (Hh : (h + h)%Qc = 1%Qc) by (apply Qc_is_canon; reflexivity). clearbody h.
  assert (P : zq (f + 1) = (zq f + 1)%Qc) by (rewrite zq_plus; reflexivity).
  destruct (Qcltb_spec (q - zq f)%Qc h) as [C|C].
  - split; [qclra|]. split; [qclra|]. intros [E | E]; exfalso; qclra.
  - destruct (Qcltb_spec h (q - zq f)%Qc) as [D|D].
    + rewrite P. split; [qclra|]. split; [qclra|]. intros [E | E]; exfalso; qclra.
    + destruct (Z.even f) eqn:Ev; [split; [qclra|]; split; [qclra|]; intros _; exact Ev|]. rewrite P. split; [qclra|]. split; [qclra|]. intros _.
      rewrite Z.add_1_r, Z.even_succ, <- Z.negb_even, Ev. reflexivity.
Qed.
Lemma round0_int z : round0 (zq z) = z.
Proof.
  destruct (round0_spec (zq z)) as (A & B & _). set (r := round0 (zq z)) in *. clearbody r. set (h := Q2Qc (1 # 2)) in *. assert (Hh : (h + h)%Qc = 1%Qc) by (apply Qc_is_canon; reflexivity).
  assert (Hp : (0 < h)%Qc) by reflexivity. clearbody h.
  destruct (Z.lt_trichotomy r z) as [L|[E|L]]; [|exact E|]; exfalso.
  - assert (G : (zq (r + 1) <= zq z)%Qc) by (apply (proj1 (zq_le _ _)); lia). rewrite zq_plus in G. change (zq 1) with 1%Qc in G. qclra.
  - assert (G : (zq (z + 1) <= zq r)%Qc) by (apply (proj1 (zq_le _ _)); lia). rewrite zq_plus in G. change (zq 1) with 1%Qc in G. qclra.
Qed.
Lemma ten_pos p : (0 < ten p)%Qc.
Proof. assert (H : (1 <= 10 ^ Z.of_nat p)%Z) by (assert (0 < 10 ^ Z.of_nat p)%Z by (apply Z.pow_pos_nonneg; lia); lia). apply (proj1 (zq_le _ _)) in H. change (zq 1) with 1%Qc in H. fold (zq (10 ^ Z.of_nat p)) in *. unfold ten. fold (zq (10 ^ Z.of_nat p)). assert (G : (0 < 1)%Qc) by reflexivity. qclra. Qed.
Lemma round_fix p z : round_to p (zq z / ten p)%Qc = (zq z / ten p)%Qc.
Proof.
  unfold round_to. assert (H := ten_pos p). assert (Hz : ten p <> 0%Qc) by (intro Z; rewrite Z in H; discriminate H). assert (I := Qcmult_inv_r _ Hz).
  replace (zq z / ten p * ten p)%Qc with (zq z). 2: { unfold Qcdiv. set (t := ten p) in *. clearbody t. transitivity (zq z * (t * / t))%Qc; [rewrite I; ring|ring]. }
  fold (zq (round0 (zq z))). rewrite round0_int. reflexivity.
Qed.
(** C244.  Keys and values that are not floats are kept; a float becomes a multiple of 10^-p that is at most half of that away, the even one if there
    are two; multiples are kept, so doing it twice changes nothing. *)
Lemma C244_round_lemma : forall (X : Type) p (d : list (string * pval X)),
  map fst (to_precision p d) = map fst d
  /\ (forall i k x, nth_error d i = Some (k, POther x) -> nth_error (to_precision p d) i = Some (k, POther x))
  /\ (forall i k q, nth_error d i = Some (k, PFloat q) -> exists z, nth_error (to_precision p d) i = Some (k, PFloat (Q2Qc (inject_Z z) / ten p)%Qc)
        /\ (let e := (q * ten p - Q2Qc (inject_Z z))%Qc in let h := Q2Qc (1 # 2) in (- h <= e)%Qc /\ (e <= h)%Qc /\ (e = h \/ e = (- h)%Qc -> Z.even z = true)))
  /\ to_precision p (to_precision p d) = to_precision p d.
Proof.
  intros X p d. unfold to_precision. split; [rewrite map_map; reflexivity|]. split; [|split].
  - intros i k x H. rewrite nth_error_map, H. reflexivity.
  - intros i k q H. rewrite nth_error_map, H. exists (round0 (q * ten p)%Qc). split; [reflexivity|]. exact (round0_spec (q * ten p)%Qc).
  - rewrite map_map. apply map_ext. intros [k [q|x]]; cbn [fst snd]; [|reflexivity]. do 2 f_equal. unfold round_to at 2 3. fold (zq (round0 (q * ten p)%Qc)). apply round_fix.
Qed.
(** C244.  Rounding keeps the order. *)
Lemma C244_order_lemma : forall p a b, (a <= b)%Qc -> (round_to p a <= round_to p b)%Qc.
Proof.
  intros p a b H. unfold round_to, Qcdiv. assert (T := ten_pos p). assert (Hz : ten p <> 0%Qc) by (intro Z; rewrite Z in T; discriminate T). assert (I := Qcmult_inv_r _ Hz).
  assert (Ip : (0 <= / ten p)%Qc). { destruct (Qcleb_spec 0%Qc (/ ten p)%Qc) as [F|F]; [exact F|]. exfalso. set (t := ten p) in *. set (u := (/ t)%Qc) in *. clearbody t u. qcnra. }
  assert (H' : (a * ten p <= b * ten p)%Qc) by (apply Qcmult_le_compat_r; [exact H|apply Qclt_le_weak; exact T]).
  apply Qcmult_le_compat_r; [|exact Ip]. set (x := (a * ten p)%Qc) in *. set (y := (b * ten p)%Qc) in *. clearbody x y. fold (zq (round0 x)) (zq (round0 y)). apply (proj1 (zq_le _ _)).
  destruct (round0_spec x) as (A1 & A2 & A3). destruct (round0_spec y) as (B1 & B2 & B3). set (h := Q2Qc (1 # 2)) in *. assert (Hh : (h + h)%Qc = 1%Qc) by (apply Qc_is_canon; reflexivity). assert (Hp : (0 < h)%Qc) by reflexivity. clearbody h.
  destruct (Z_le_gt_dec (round0 x) (round0 y)) as [L|L]; [exact L|exfalso]. assert (G : (round0 y + 1 <= round0 x)%Z) by lia. assert (G' := G). apply (proj1 (zq_le _ _)) in G'. rewrite zq_plus in G'. change (zq 1) with 1%Qc in G'.
  assert (E1 : (x - zq (round0 x))%Qc = (- h)%Qc) by (apply Qcle_antisym; qclra). assert (E2 : (y - zq (round0 y))%Qc = h) by (apply Qcle_antisym; qclra).
  assert (V1 := A3 (or_intror E1)). assert (V2 := B3 (or_introl E2)). assert (G2 : (zq (round0 x) <= zq (round0 y + 1))%Qc) by (rewrite zq_plus; change (zq 1) with 1%Qc; qclra). apply (proj2 (zq_le _ _)) in G2.
  replace (round0 x) with (round0 y + 1)%Z in V1 by lia. rewrite Z.add_1_r, Z.even_succ, <- Z.negb_even, V2 in V1. discriminate.
Qed.
