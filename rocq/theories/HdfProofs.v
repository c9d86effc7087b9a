(** * Proofs about the HDF5 conversion and the pickling of batches *)
From Verif Require Import Py PyLemmas HdfModel HdfSpec.
From Coq Require Import String.
Import List HdfModel HdfSpec.
Local Open Scope list_scope.

(** ** Keys and association lists *)
Lemma key_eqb_eq : forall a b, key_eqb a b = true <-> a = b.
Proof.
  induction a as [|x a IH]; intros [|y b]; cbn; try (split; discriminate); [tauto|].
  rewrite Bool.andb_true_iff, String.eqb_eq, IH. split; [intros [-> ->]; reflexivity|intro E; injection E; auto].
Qed.
Lemma key_eqb_refl : forall a, key_eqb a a = true. Proof. intro a. apply key_eqb_eq. reflexivity. Qed.
Lemma key_eqb_neq : forall a b, key_eqb a b = false <-> a <> b.
Proof. intros a b. rewrite <- key_eqb_eq. destruct (key_eqb a b); split; congruence. Qed.
Lemma key_dec : forall a b : key, {a = b} + {a <> b}.
Proof. intros. destruct (key_eqb a b) eqn:E; [left; apply key_eqb_eq, E|right; apply key_eqb_neq, E]. Qed.

Lemma klook_in : forall A (l : list (key * A)) k v, klook k l = Some v -> In (k, v) l.
Proof.
  induction l as [|[x w] l IH]; intros k v; cbn; [discriminate|].
  destruct (key_eqb k x) eqn:E; [apply key_eqb_eq in E; subst; intro H; injection H as ->; auto|auto].
Qed.
Lemma klook_nodup : forall A (l : list (key * A)) k v, NoDup (map fst l) -> In (k, v) l -> klook k l = Some v.
Proof.
  induction l as [|[x w] l IH]; intros k v N H; [destruct H|]. cbn in N. inversion N as [|? ? Nx N']; subst. cbn.
  destruct H as [H|H]; [injection H as -> ->; rewrite key_eqb_refl; reflexivity|].
  destruct (key_eqb k x) eqn:E; [|auto]. apply key_eqb_eq in E. subst. destruct Nx. apply (in_map fst) in H. exact H.
Qed.
Lemma klook_none : forall A (l : list (key * A)) k, klook k l = None <-> ~ In k (map fst l).
Proof.
  induction l as [|[x w] l IH]; intros k; cbn; [tauto|].
  destruct (key_eqb k x) eqn:E; [apply key_eqb_eq in E; subst; split; [discriminate|intro H; destruct H; auto]|].
  apply key_eqb_neq in E. rewrite IH. split; [intros H [->|H']; auto|auto].
Qed.
Lemma kput_fresh : forall A (l : list (key * A)) k v, ~ In k (map fst l) -> kput k v l = l ++ [(k, v)].
Proof.
  induction l as [|[x w] l IH]; intros k v H; cbn; [reflexivity|]. cbn in H.
  destruct (key_eqb k x) eqn:E; [apply key_eqb_eq in E; subst; tauto|]. rewrite IH by tauto. reflexivity.
Qed.
Lemma kpop_fresh : forall A (l : list (key * A)) k, ~ In k (map fst l) -> kpop k l = l.
Proof.
  induction l as [|[x w] l IH]; intros k H; cbn; [reflexivity|]. cbn in H.
  destruct (key_eqb k x) eqn:E; [apply key_eqb_eq in E; subst; tauto|]. rewrite IH by tauto. reflexivity.
Qed.
Lemma update_fresh : forall A (m l : list (key * A)), NoDup (map fst (l ++ m)) -> update l m = l ++ m.
Proof.
  induction m as [|[k v] m IH]; intros l N; cbn; [rewrite app_nil_r; reflexivity|].
  rewrite kput_fresh.
  - rewrite IH; rewrite <- app_assoc; [reflexivity|exact N].
  - rewrite map_app in N. cbn in N. apply NoDup_remove_2 in N. intro H. apply N. apply in_or_app. auto.
Qed.
Lemma slook_none : forall A (l : list (string * A)) k, slook k l = None <-> ~ In k (map fst l).
Proof.
  induction l as [|[x w] l IH]; intros k; cbn; [tauto|].
  destruct (String.eqb_spec k x) as [->|E]; [split; [discriminate|intro H; destruct H; auto]|].
  rewrite IH. split; [intros H [->|H']; auto|auto].
Qed.

(** ** Induction over nested values *)
Section HvInd.
  Variable P : hv -> Prop.
  Hypothesis Hd : forall l, Forall (fun kv => P (snd kv)) l -> P (HDict l).
  Hypothesis Hb : forall l, Forall (fun kv => P (snd kv)) l -> P (HBatch l).
  Hypothesis Ht : forall d, P (HTensor d).
  Hypothesis Ha : forall d, P (HArr d).
  Hypothesis Ho : forall n, P (HObjArr n).
  Hypothesis Hn : forall n, P (HNum n).
  Hypothesis Hx : forall c n, P (HObj c n).
  Fixpoint hv_ind' (v : hv) : P v :=
    let all := fix all (l : list (key * hv)) : Forall (fun kv => P (snd kv)) l :=
      match l with [] => Forall_nil _ | kv :: l => Forall_cons kv (hv_ind' (snd kv)) (all l) end in
    match v with
    | HDict l => Hd l (all l) | HBatch l => Hb l (all l) | HTensor d => Ht d | HArr d => Ha d
    | HObjArr n => Ho n | HNum n => Hn n | HObj c n => Hx c n
    end.
End HvInd.

(** ** Entries *)
Definition find (k : key) (p : list key) := fix find (l : list (key * hv)) : option entry :=
  match l with [] => None | (x, w) :: l => if key_eqb k x then entry_at p w else find l end.
Lemma find_klook : forall k p l, find k p l = match klook k l with Some w => entry_at p w | None => None end.
Proof. induction l as [|[x w] l IH]; cbn; [reflexivity|]. destruct (key_eqb k x); [reflexivity|exact IH]. Qed.
Lemma entry_dict : forall k p l, entry_at (k :: p) (HDict l) = match klook k l with Some w => entry_at p w | None => None end.
Proof. intros. rewrite <- find_klook. reflexivity. Qed.
Lemma entry_batch : forall k p l, entry_at (k :: p) (HBatch l) = match klook k l with Some w => entry_at p w | None => None end.
Proof. intros. rewrite <- find_klook. reflexivity. Qed.
Lemma klook_map : forall A B (f : A -> B) (l : list (key * A)) k, klook k (map (fun kv => (fst kv, f (snd kv))) l) = option_map f (klook k l).
Proof. induction l as [|[x w] l IH]; intro k; cbn; [reflexivity|]. destruct (key_eqb k x); [reflexivity|apply IH]. Qed.
Lemma map_fst_map : forall A B (f : A -> B) (l : list (key * A)), map fst (map (fun kv => (fst kv, f (snd kv))) l) = map fst l.
Proof. intros. rewrite map_map. apply map_ext. reflexivity. Qed.

(** Association lists with the same entries. *)
Definition same_items (l m : list (key * hv)) : Prop :=
  forall k, match klook k l, klook k m with Some v, Some w => same v w | None, None => True | _, _ => False end.
Lemma same_items_dict : forall l m, same_items l m -> same (HDict l) (HDict m).
Proof.
  intros l m H [|k p]; [reflexivity|]. rewrite !entry_dict. specialize (H k).
  destruct (klook k l), (klook k m); try contradiction; [apply H|reflexivity].
Qed.
Lemma same_items_batch : forall l m, same_items l m -> same (HBatch l) (HBatch m).
Proof.
  intros l m H [|k p]; [reflexivity|]. rewrite !entry_batch. specialize (H k).
  destruct (klook k l), (klook k m); try contradiction; [apply H|reflexivity].
Qed.

(** ** parse and getstate *)
Definition parse_entry (e : entry) : entry :=
  match e with IsDict => IsBatch | IsLeaf (HNum n) => IsLeaf (HArr (Plain n)) | _ => e end.
Lemma entry_parse : forall w, (forall p, entry_at p w <> Some IsBatch) -> forall p, entry_at p (parse w) = option_map parse_entry (entry_at p w).
Proof.
  induction w as [l IH|l IH| | | | |] using hv_ind'; intros NB p; try (destruct p; reflexivity).
  - destruct p as [|k p]; [reflexivity|]. cbn [parse]. rewrite entry_batch, entry_dict, klook_map.
    destruct (klook k l) as [w|] eqn:E; [|reflexivity]. cbn [option_map].
    assert (P : In (k, w) l) by (apply klook_in; exact E).
    rewrite Forall_forall in IH. specialize (IH _ P). cbn in IH. apply IH.
    intros q Hq. apply (NB (k :: q)). rewrite entry_dict, E. exact Hq.
  - destruct (NB []). reflexivity.
Qed.
Lemma parse_getstate : forall v, batch_value v -> parse (getstate_item v) = v.
Proof.
  induction v as [l IH|l IH| | | | |] using hv_ind'; intro H; inversion H; subst; try reflexivity.
  cbn. f_equal. rewrite map_map. cbn. rewrite Forall_forall in IH.
  rewrite <- (map_id l) at 2. apply map_ext_in. intros [k v] Hin. cbn. f_equal. apply (IH _ Hin). eauto.
Qed.
Lemma getstate_no_batch : forall v, batch_value v -> forall p, entry_at p (getstate_item v) <> Some IsBatch.
Proof.
  induction v as [l IH|l IH| | | | |] using hv_ind'; intro H; inversion H; subst; intros p; try (destruct p; cbn; discriminate).
  cbn [getstate_item]. destruct p as [|k p]; [cbn; discriminate|]. rewrite entry_dict, klook_map.
  destruct (klook k l) as [v|] eqn:E; [|cbn; discriminate]. cbn [option_map]. apply klook_in in E.
  rewrite Forall_forall in IH. apply (IH _ E). eauto.
Qed.
Lemma storable_batch : forall v, storable true v -> batch_value v.
Proof.
  induction v as [l IH|l IH| | | | |] using hv_ind'; intro H.
  - inversion H. discriminate.
  - inversion H as [|? ND HS| | | | |]; subst. rewrite Forall_forall in IH. constructor; [exact ND|].
    intros k v Hin. apply (IH _ Hin). apply (HS _ _ Hin).
  - constructor.
  - constructor.
  - constructor.
  - inversion H. discriminate.
  - constructor.
Qed.

(** ** to_hdf5: equations *)
Lemma to_dict : forall st k l g, to_item st k (HDict l) g = (let* sub := to_items false l (Grp [] []) in insert k sub g).
Proof. reflexivity. Qed.
Lemma to_batch : forall st k l g, to_item st k (HBatch l) g = (let* sub := to_items true l (Grp (if st then [] else [([Lit.data_type], AStr Lit.batch)]) []) in insert k sub g).
Proof. reflexivity. Qed.
Lemma to_dict_ok : forall st k l g h, to_items false l (Grp [] []) = Ok g -> to_item st k (HDict l) h = insert k g h.
Proof. intros st k l g h E. transitivity (bind (to_items false l (Grp [] [])) (fun sub => insert k sub h)); [reflexivity|]. rewrite E. reflexivity. Qed.
Lemma to_batch_ok : forall (st : bool) k l g h, to_items true l (Grp (if st then [] else [([Lit.data_type], AStr Lit.batch)]) []) = Ok g -> to_item st k (HBatch l) h = insert k g h.
Proof.
  intros st k l g h E. transitivity (bind (to_items true l (Grp (if st then [] else [([Lit.data_type], AStr Lit.batch)]) [])) (fun sub => insert k sub h)); [reflexivity|].
  rewrite E. reflexivity.
Qed.
(** Writing with [st] is writing what __getstate__ returns. *)
Lemma to_state : forall v k g, to_item true k v g = to_item false k (getstate_item v) g.
Proof.
  induction v as [l IH|l IH| | | | |] using hv_ind'; intros k g; try reflexivity.
  rewrite to_batch. cbn [getstate_item]. rewrite to_dict. f_equal.
  generalize (Grp [] []) as h. induction IH as [|[x v] l Hv _ IHl]; intro h; [reflexivity|]. cbn in *. rewrite Hv.
  destruct (to_item false x (getstate_item v) h); [apply IHl|reflexivity].
Qed.

(** ** from_hdf5: equation *)
Fixpoint read_kids (kids : list (string * h5)) (y : list (key * hv)) : res (list (key * hv)) :=
  match kids with [] => Ok y | (s, c) :: kids => let* v := from_hdf5 c in read_kids kids (kput [s] v y) end.
Definition of_attr (kv : key * attr) : key * hv := (fst kv, match snd kv with ANum n => HNum n | AStr s => HObj s 0 end).
Lemma from_grp : forall a kids, from_hdf5 (Grp a kids) =
  (let* y := read_kids kids (map of_attr (kpop [Lit.data_type] a)) in
   match klook [Lit.data_type] a with
   | Some (AStr t) => if String.eqb t Lit.batch then Ok (HBatch (parse_items y)) else Ok (HDict y)
   | _ => Ok (HDict y) end).
Proof. reflexivity. Qed.

(** ** The round trip *)
Definition nums (l : list (key * hv)) : list (key * attr) :=
  flat_map (fun kv => match snd kv with HNum n => [(fst kv, ANum n)] | _ => [] end) l.
Definition rest (l : list (key * hv)) : list (key * hv) :=
  filter (fun kv => match snd kv with HNum _ => false | _ => true end) l.
Definition seen (st : bool) (v : hv) : hv := if st then getstate_item v else v.
Definition stored (st : bool) (kv : key * hv) (sn : string * h5) : Prop :=
  fst kv = [fst sn] /\ exists w, from_hdf5 (snd sn) = Ok w /\ same w (seen st (snd kv)).
(** What is needed of one value. *)
Definition trip (v : hv) : Prop := forall st, storable st v -> match v with HNum _ => True | _ =>
  exists node, (exists w, from_hdf5 node = Ok w /\ same w (seen st v)) /\ forall k g, to_item st k v g = insert k node g end.

Lemma same_refl : forall v, same v v. Proof. intros v p. reflexivity. Qed.

Lemma insert_fresh : forall s node a kids, ~ In s (map fst kids) -> insert [s] node (Grp a kids) = Ok (Grp a (kids ++ [(s, node)])).
Proof. intros s node a kids H. cbn. apply slook_none in H. rewrite H. reflexivity. Qed.

Lemma nums_in : forall l k q, In (k, q) (nums l) -> exists n, q = ANum n /\ In (k, HNum n) l.
Proof.
  intros l k q H. unfold nums in H. apply in_flat_map in H. destruct H as ([x w] & Hin & Hw). cbn in Hw.
  destruct w; cbn in Hw; try contradiction. destruct Hw as [Hw|[]]. injection Hw as -> <-. eauto.
Qed.
Lemma nums_keys : forall l k, In k (map fst (nums l)) -> In k (map fst l).
Proof.
  intros l k H. apply in_map_iff in H. destruct H as ([x v] & E & H). apply nums_in in H. destruct H as (n & _ & H). rewrite <- E. apply (in_map fst) in H. exact H.
Qed.
Definition skeys (kids : list (string * h5)) : list key := map (fun sn => [fst sn]) kids.
Lemma items_trip : forall st l a kids,
  (forall k v, In (k, v) l -> (exists s, k = [s]) /\ storable st v) -> Forall (fun kv => trip (snd kv)) l ->
  NoDup (map fst l) -> (forall k, In k (map fst (nums l)) -> ~ In k (map fst a)) ->
  (forall k, In k (map fst l) -> ~ In k (skeys kids)) ->
  exists nodes, to_items st l (Grp a kids) = Ok (Grp (a ++ nums l) (kids ++ nodes)) /\ Forall2 (stored st) (rest l) nodes.
Proof.
  intros st l. induction l as [|[k v] l IH]; intros a kids HS HT ND Ha Hk.
  - exists []. cbn. rewrite !app_nil_r. split; [reflexivity|constructor].
  - inversion HT as [|? ? Tv Tl]; subst. cbn in Tv. cbn in ND. inversion ND as [|? ? Nk NDl]; subst.
    destruct (HS k v) as [[s ->] Sv]; [left; reflexivity|].
    assert (HS' : forall k v, In (k, v) l -> (exists s, k = [s]) /\ storable st v) by (intros; apply HS; right; assumption).
    cbn [to_items].
    destruct (match v with HNum _ => true | _ => false end) eqn:Num.
    + destruct v; try discriminate. cbn [to_item bind]. rewrite kput_fresh by (apply Ha; cbn; auto).
      destruct (IH (a ++ [([s], ANum n)]) kids HS' Tl NDl) as (nodes & E & F).
      * intros k Hin. rewrite map_app, in_app_iff. cbn. intros [H|[H|[]]]; [revert H; apply Ha; cbn; auto|].
        subst k. apply Nk, nums_keys, Hin.
      * intros k Hin. apply Hk. cbn. auto.
      * exists nodes. split; [|exact F]. etransitivity; [exact E|]. cbn [nums flat_map snd fst app]. rewrite <- app_assoc. reflexivity.
    + assert (R : rest (([s], v) :: l) = ([s], v) :: rest l) by (unfold rest; cbn; destruct v; try reflexivity; discriminate).
      assert (NN : nums (([s], v) :: l) = nums l) by (unfold nums; cbn; destruct v; try reflexivity; discriminate).
      specialize (Tv st Sv). assert (T : exists node, (exists w, from_hdf5 node = Ok w /\ same w (seen st v)) /\ forall k g, to_item st k v g = insert k node g)
        by (destruct v; try exact Tv; discriminate). clear Tv. destruct T as (node & Fn & T).
      rewrite T, insert_fresh; cbn [bind].
      2:{ intro H. apply (Hk [s]); [left; reflexivity|]. unfold skeys. apply in_map_iff in H. destruct H as (sn & <- & H). apply in_map_iff. exists sn. auto. }
      rewrite NN in *.
      destruct (IH a (kids ++ [(s, node)]) HS' Tl NDl) as (nodes & E & F).
      * exact Ha.
      * intros k Hin. unfold skeys. rewrite map_app, in_app_iff. cbn. intros [H|[H|[]]]; [revert H; apply Hk; cbn; auto|]. subst k. auto.
      * exists ((s, node) :: nodes). split; [rewrite E, <- app_assoc; reflexivity|]. rewrite R. constructor; [split; auto|exact F].
Qed.

Lemma rest_keys : forall l k, In k (map fst (rest l)) -> In k (map fst l).
Proof. intros l k H. apply in_map_iff in H. destruct H as ([x v] & E & H). apply filter_In in H. destruct H as [H _]. rewrite <- E. apply (in_map fst) in H. exact H. Qed.
Lemma rest_nodup : forall l, NoDup (map fst l) -> NoDup (map fst (rest l)).
Proof.
  induction l as [|[k v] l IH]; intro N; [constructor|]. cbn in N. inversion N; subst.
  unfold rest. cbn. destruct v; cbn; try (constructor; [intro H; apply rest_keys in H; auto|]); apply IH; assumption.
Qed.
Lemma nums_rest_disjoint : forall l k, NoDup (map fst l) -> In k (map fst (nums l)) -> ~ In k (map fst (rest l)).
Proof.
  intros l k N H1 H2. apply in_map_iff in H1. destruct H1 as ([x q] & E & H1). cbn in E. subst x. apply nums_in in H1. destruct H1 as (n & -> & H1).
  apply in_map_iff in H2. destruct H2 as ([x v] & E & H2). cbn in E. subst x. apply filter_In in H2. destruct H2 as [H2 V]. cbn in V.
  apply (klook_nodup _ _ _ _ N) in H1. apply (klook_nodup _ _ _ _ N) in H2. rewrite H1 in H2. injection H2 as <-. discriminate.
Qed.
Lemma nums_nodup : forall l, NoDup (map fst l) -> NoDup (map fst (nums l)).
Proof.
  induction l as [|[k v] l IH]; intro N; [constructor|]. cbn in N. inversion N; subst.
  unfold nums. cbn. destruct v; cbn; try (constructor; [intro H; apply nums_keys in H; auto|]); apply IH; assumption.
Qed.

Lemma read_stored : forall st l nodes y, Forall2 (stored st) l nodes -> NoDup (map fst y ++ map fst l) ->
  exists ws, read_kids nodes y = Ok (y ++ ws) /\ Forall2 (fun kv kw => fst kv = fst kw /\ same (snd kw) (seen st (snd kv))) l ws.
Proof.
  intros st l nodes y F. revert y. induction F as [|[k v] [s node] l nodes [E (w & Fw & Sw)] F IH]; intros y N.
  - exists []. cbn. rewrite app_nil_r. split; [reflexivity|constructor].
  - cbn in E, Fw, Sw, N. subst k. cbn [read_kids]. rewrite Fw. cbn [bind].
    rewrite kput_fresh by (apply NoDup_remove_2 in N; intro H; apply N, in_or_app; auto).
    destruct (IH (y ++ [([s], w)])) as (ws & R & G).
    + rewrite map_app. cbn. rewrite <- app_assoc. exact N.
    + exists (([s], w) :: ws). split; [etransitivity; [exact R|]; rewrite <- app_assoc; reflexivity|]. constructor; [split; auto|exact G].
Qed.

(** A written group is read back. *)
Lemma group_trip : forall st l a0, (a0 = [] \/ a0 = [([Lit.data_type], AStr Lit.batch)]) ->
  (forall k v, In (k, v) l -> (exists s, k = [s]) /\ storable st v) -> Forall (fun kv => trip (snd kv)) l ->
  NoDup (map fst l) -> (forall n, ~ In ([Lit.data_type], HNum n) l) ->
  exists g y, to_items st l (Grp a0 []) = Ok g /\
    from_hdf5 g = Ok (match a0 with [] => HDict y | _ => HBatch (parse_items y) end) /\
    same_items y (map (fun kv => (fst kv, seen st (snd kv))) l).
Proof.
  intros st l a0 A0 HS HT ND HD.
  assert (ND' : ~ In [Lit.data_type] (map fst (nums l))).
  { intro H. apply in_map_iff in H. destruct H as ([x q] & E & H). cbn in E. subst x. apply nums_in in H. destruct H as (n & _ & H). apply (HD _ H). }
  destruct (items_trip st l a0 [] HS HT ND) as (nodes & E & F).
  { intros k H Hin. destruct A0; subst a0; cbn in Hin; [exact Hin|]. destruct Hin as [<-|[]]. auto. }
  { intros k H Hin. exact Hin. }
  cbn [app] in E.
  destruct (read_stored st (rest l) nodes (map of_attr (nums l)) F) as (ws & R & G).
  { rewrite (map_map of_attr fst). replace (map (fun x => fst (of_attr x)) (nums l)) with (map fst (nums l)) by (apply map_ext; reflexivity).
    pose proof (nums_nodup l ND) as N1. pose proof (rest_nodup l ND) as N2. pose proof (fun k => nums_rest_disjoint l k ND) as DJ.
    revert N1 DJ. generalize (map fst (nums l)) as u. induction u as [|x u IHu]; intros N1 DJ; [exact N2|]. cbn. inversion N1; subst. constructor.
    - rewrite in_app_iff. intros [H|H]; [auto|]. apply (DJ x); [left; reflexivity|exact H].
    - apply IHu; [assumption|]. intros k H. apply DJ. right. exact H. }
  set (y := map of_attr (nums l) ++ ws) in *.
  exists (Grp (a0 ++ nums l) nodes), y. split; [exact E|]. split.
  - rewrite from_grp.
    assert (KP : kpop [Lit.data_type] (a0 ++ nums l) = nums l).
    { destruct A0 as [-> | ->]; cbn [app kpop]; [|rewrite key_eqb_refl; reflexivity]. apply kpop_fresh. exact ND'. }
    rewrite KP, R. cbn [bind]. destruct A0 as [-> | ->]; cbn [app].
    + apply klook_none in ND'. rewrite ND'. reflexivity.
    + cbn [klook]. rewrite key_eqb_refl, String.eqb_refl. reflexivity.
  - (* lookups agree *)
    assert (KY : forall k, klook k y = match klook k (map of_attr (nums l)) with Some w => Some w | None => klook k ws end).
    { intro k. unfold y. generalize (map of_attr (nums l)). induction l0 as [|[x w] l0 IHl]; cbn; [reflexivity|]. destruct (key_eqb k x); [reflexivity|exact IHl]. }
    assert (GK : map fst ws = map fst (rest l)).
    { clear - G. induction G as [|kv kw u v [H _] _ IH]; cbn; congruence. }
    intro k. rewrite KY, klook_map. destruct (klook k l) as [v|] eqn:Ek; cbn [option_map].
    + apply klook_in in Ek. destruct (match v with HNum _ => true | _ => false end) eqn:Num.
      * destruct v; try discriminate. rewrite (klook_nodup _ _ k (HNum n)).
        -- destruct st; apply same_refl.
        -- rewrite (map_map of_attr fst). replace (map (fun x => fst (of_attr x)) (nums l)) with (map fst (nums l)) by (apply map_ext; reflexivity). apply nums_nodup. exact ND.
        -- apply in_map_iff. exists (k, ANum n). split; [reflexivity|]. unfold nums. apply in_flat_map. exists (k, HNum n). cbn. auto.
      * assert (Hr : In (k, v) (rest l)) by (apply filter_In; split; [exact Ek|]; cbn; destruct v; try reflexivity; discriminate).
        assert (NI : klook k (map of_attr (nums l)) = None).
        { apply klook_none. rewrite (map_map of_attr fst). replace (map (fun x => fst (of_attr x)) (nums l)) with (map fst (nums l)) by (apply map_ext; reflexivity).
          intro H. apply (nums_rest_disjoint l k ND H). apply (in_map fst) in Hr. exact Hr. }
        rewrite NI.
        assert (W : exists w, In (k, w) ws /\ same w (seen st v)).
        { clear - G Hr. induction G as [|[a b] [c d] u z [H1 H2] _ IH]; [destruct Hr|]. cbn in H1, H2. subst c.
          destruct Hr as [H|H]; [injection H as -> ->; exists d; cbn; auto|]. destruct (IH H) as (w & ? & ?). exists w. cbn. auto. }
        destruct W as (w & Hw & SW). rewrite (klook_nodup _ _ k w); [exact SW| |exact Hw]. rewrite GK. apply rest_nodup. exact ND.
    + apply klook_none in Ek.
      assert (N1 : klook k (map of_attr (nums l)) = None).
      { apply klook_none. rewrite (map_map of_attr fst). replace (map (fun x => fst (of_attr x)) (nums l)) with (map fst (nums l)) by (apply map_ext; reflexivity).
        intro H. apply Ek, nums_keys, H. }
      assert (N2 : klook k ws = None) by (apply klook_none; rewrite GK; intro H; apply Ek, rest_keys, H).
      rewrite N1, N2. exact Logic.I.
Qed.

Lemma same_seen_true : forall l y, (forall k v, In (k, v) l -> storable true v) ->
  same_items y (map (fun kv => (fst kv, seen true (snd kv))) l) -> same_items (parse_items y) l.
Proof.
  intros l y HS H k. specialize (H k). unfold parse_items. rewrite klook_map in *. cbn [seen] in H.
  destruct (klook k l) as [v|] eqn:E; cbn [option_map] in H |- *; destruct (klook k y) as [w|]; cbn [option_map]; try contradiction; try exact H.
  apply klook_in in E. pose proof (storable_batch _ (HS _ _ E)) as BV. intro p.
  rewrite entry_parse; [|intro q; rewrite (H q); apply getstate_no_batch; exact BV].
  rewrite (H p), <- entry_parse; [|apply getstate_no_batch; exact BV]. rewrite parse_getstate; auto.
Qed.

Lemma trip_all : forall v, trip v.
Proof.
  induction v as [l IH|l IH|d|d|n|n|c n] using hv_ind'; intros st S; try exact Logic.I.
  - inversion S as [? Eb ND HS HD| | | | | |]; subst.
    destruct (group_trip false l [] (or_introl eq_refl) HS IH ND HD) as (g & y & E & F & SI).
    exists g. split.
    + exists (HDict y). split; [exact F|]. apply same_items_dict. cbn [seen] in SI. erewrite map_ext in SI; [rewrite map_id in SI; exact SI|]. intros [a b]. reflexivity.
    + intros k h. apply to_dict_ok. exact E.
  - inversion S as [|? ND HS | | | | |]; subst.
    assert (HD : forall n, ~ In ([Lit.data_type], HNum n) l).
    { intros n H. apply HS in H. destruct H as [_ H]. inversion H. discriminate. }
    destruct st.
    + destruct (group_trip true l [] (or_introl eq_refl) HS IH ND HD) as (g & y & E & F & SI).
      exists g. split; [exists (HDict y); split; [exact F|]; apply same_items_dict; exact SI|]. intros k h. apply to_batch_ok. exact E.
    + destruct (group_trip true l _ (or_intror eq_refl) HS IH ND HD) as (g & y & E & F & SI).
      exists g. split; [exists (HBatch (parse_items y)); split; [exact F|]|intros k h; apply to_batch_ok; exact E].
      apply same_items_batch. cbn [seen]. apply same_seen_true; [|exact SI]. intros k v H. apply (HS _ _ H).
  - exists (Dset Lit.tensor d). split; [exists (HTensor d); split; [reflexivity|destruct st; apply same_refl]|reflexivity].
  - exists (Dset Lit.ndarray d). split; [exists (HArr d); split; [reflexivity|destruct st; apply same_refl]|reflexivity].
  - exists (Dset Lit.pickled (PickleArr n)). split; [exists (HObjArr n); split; [reflexivity|destruct st; apply same_refl]|reflexivity].
  - exists (Dset c (PickleObj c n)). split; [exists (HObj c n); split; [|destruct st; apply same_refl]|reflexivity].
    inversion S as [| | | | | |? ? N1 N2]; subst. cbn.
    destruct (String.eqb_spec c Lit.ndarray); [contradiction|]. destruct (String.eqb_spec c Lit.tensor); [contradiction|]. reflexivity.
Qed.

(** C48: a nested structure of dicts and batches whose keys contain no "/" (and which avoids the
    names the format uses itself) is restored with the same structure and the same values. *)
Lemma C48_roundtrip_partial_lemma : forall x, storable false (HDict x) ->
  exists y, save_load x = Ok y /\ same (HDict y) (HDict x).
Proof.
  intros x S. pose proof (trip_all (HDict x) false S) as T. cbn in T. destruct T as (node & (w & F & SW) & T).
  inversion S as [? _ ND HS HD| | | | | |]; subst.
  assert (IH : Forall (fun kv => trip (snd kv)) x) by (apply Forall_forall; intros; apply trip_all).
  destruct (group_trip false x [] (or_introl eq_refl) HS IH ND HD) as (g & y & E & Fg & SI).
  exists y. split.
  - assert (E' : to_hdf5 x = Ok g) by exact E. unfold save_load. rewrite E'. cbn [bind]. rewrite Fg. reflexivity.
  - apply same_items_dict. cbn [seen] in SI. erewrite map_ext in SI; [rewrite map_id in SI; exact SI|]. intros [a b]. reflexivity.
Qed.
(** C48 fails for a key with "/": the value is moved into a nested dict. *)
Lemma C48_slash_refuted_lemma : exists x y, (forall k v, In (k, v) x -> storable false v) /\ NoDup (map fst x) /\
  save_load x = Ok y /\ ~ same (HDict y) (HDict x).
Proof.
  exists [(["a"; "b"]%string, HArr (Plain 7))], [(["a"]%string, HDict [(["b"]%string, HArr (Plain 7))])].
  split; [intros k v [H|[]]; injection H as <- <-; constructor|]. split; [repeat constructor; cbn; tauto|].
  split; [vm_compute; reflexivity|]. intro H. specialize (H [["a"; "b"]%string]). vm_compute in H. discriminate.
Qed.
(** ... and two keys may not coexist at all: {"a": array, "a/b": array} cannot be written. *)
Lemma C48_slash_error_refuted_lemma : exists x, (forall k v, In (k, v) x -> storable false v) /\ NoDup (map fst x) /\ save_load x = Err ValueError.
Proof.
  exists [(["a"]%string, HArr (Plain 7)); (["a"; "b"]%string, HArr (Plain 8))].
  split; [intros k v [H|[H|[]]]; injection H as <- <-; constructor|]. split; [|vm_compute; reflexivity].
  constructor; [|repeat constructor; cbn; tauto]. cbn. intros [H|[]]. discriminate.
Qed.
(** ... and a number is lost if another key begins with its name and "/": {"a": 3, "a/b": array} comes
    back as {"a": {"b": array}}. *)
Lemma C48_slash_lost_refuted_lemma : exists x y, (forall k v, In (k, v) x -> storable false v) /\ NoDup (map fst x) /\ save_load x = Ok y /\
  entry_at [["a"]%string] (HDict x) = Some (IsLeaf (HNum 3)) /\ entry_at [["a"]%string] (HDict y) = Some IsDict /\
  entry_at [["a"]%string; ["b"]%string] (HDict y) = Some (IsLeaf (HArr (Plain 7))).
Proof.
  exists [(["a"]%string, HNum 3); (["a"; "b"]%string, HArr (Plain 7))]. eexists.
  split; [intros k v [H|[H|[]]]; injection H as <- <-; constructor; reflexivity|].
  split; [constructor; [cbn; intros [H|[]]; discriminate|repeat constructor; cbn; tauto]|].
  split; [vm_compute; reflexivity|]. split; [reflexivity|]. split; vm_compute; reflexivity.
Qed.
(** ... for a number under "__data_type__", which is dropped ... *)
Lemma C48_data_type_refuted_lemma : exists x y, (forall k v, In (k, v) x -> (exists s, k = [s]) /\ storable false v) /\ NoDup (map fst x) /\
  save_load x = Ok y /\ ~ same (HDict y) (HDict x).
Proof.
  exists [([Lit.data_type], HNum 3)], [].
  split; [intros k v [H|[]]; injection H as <- <-; split; [eauto|constructor; reflexivity]|]. split; [repeat constructor; cbn; tauto|].
  split; [vm_compute; reflexivity|]. intro H. specialize (H [[Lit.data_type]]). vm_compute in H. discriminate.
Qed.
(** ... and for an object of a class that happens to be called Tensor, which comes back as a tensor
    holding the bytes of its pickle. *)
Lemma C48_class_name_refuted_lemma : exists x y, (forall k v, In (k, v) x -> exists s, k = [s]) /\ NoDup (map fst x) /\
  save_load x = Ok y /\ entry_at [["a"]%string] (HDict x) = Some (IsLeaf (HObj Lit.tensor 3)) /\
  entry_at [["a"]%string] (HDict y) = Some (IsLeaf (HTensor (PickleObj Lit.tensor 3))).
Proof.
  exists [(["a"]%string, HObj Lit.tensor 3)], [(["a"]%string, HTensor (PickleObj Lit.tensor 3))].
  split; [intros k v [H|[]]; injection H as <- <-; eauto|]. split; [repeat constructor; cbn; tauto|].
  split; [vm_compute; reflexivity|]. split; vm_compute; reflexivity.
Qed.

(** C96: unpickling a pickled Batch gives the Batch back, if no key is a parameter name of
    Batch.__init__. *)
Lemma C96_pickle_partial_lemma : forall truth l, batch_value (HBatch l) ->
  ~ In [Lit.kw_self] (map fst l) -> ~ In [Lit.kw_copy] (map fst l) -> ~ In [Lit.kw_dict] (map fst l) ->
  pickle_loads truth l = Ok l.
Proof.
  intros truth l B N1 N2 N3. unfold pickle_loads, init_kw. inversion B as [? ND HB| | | |]; subst.
  assert (KG : map fst (getstate l) = map fst l) by apply map_fst_map.
  replace (klook [Lit.kw_self] (getstate l)) with (@None hv) by (symmetry; apply klook_none; rewrite KG; exact N1).
  replace (klook [Lit.kw_copy] (getstate l)) with (@None hv) by (symmetry; apply klook_none; rewrite KG; exact N2).
  replace (klook [Lit.kw_dict] (getstate l)) with (@None hv) by (symmetry; apply klook_none; rewrite KG; exact N3).
  cbn [bind]. rewrite (kpop_fresh _ (getstate l)) by (rewrite KG; exact N2). rewrite kpop_fresh by (rewrite KG; exact N3).
  assert (PG : parse_items (getstate l) = l).
  { unfold parse_items, getstate. rewrite map_map. cbn. rewrite <- (map_id l) at 2. apply map_ext_in. intros [k v] Hin. cbn. f_equal. apply parse_getstate. eauto. }
  rewrite PG, update_fresh; [reflexivity|exact ND].
Qed.
(** C96 fails for a Batch with a key called copy: the key is gone after unpickling. *)
Lemma C96_pickle_refuted_lemma : exists truth l y, batch_value (HBatch l) /\ pickle_loads truth l = Ok y /\
  entry_at [[Lit.kw_copy]] (HBatch l) <> None /\ entry_at [[Lit.kw_copy]] (HBatch y) = None.
Proof.
  exists (fun _ => Ok true), [(["a"]%string, HArr (Plain 7)); ([Lit.kw_copy], HArr (Plain 8))], [(["a"]%string, HArr (Plain 7))].
  split.
  - constructor; [|intros k v [H|[H|[]]]; injection H as <- <-; constructor].
    constructor; [cbn; intros [H|[]]; discriminate|repeat constructor; cbn; tauto].
  - split; [vm_compute; reflexivity|]. split; vm_compute; [discriminate|reflexivity].
Qed.
(** C96: a Batch with a key called self cannot be unpickled. *)
Lemma C96_pickle_self_refuted_lemma : exists l, batch_value (HBatch l) /\ forall truth, pickle_loads truth l = Err TypeError.
Proof.
  exists [([Lit.kw_self], HArr (Plain 7))]. split; [|intro; vm_compute; reflexivity].
  constructor; [repeat constructor; cbn; tauto|intros k v [H|[]]; injection H as <- <-; constructor].
Qed.
