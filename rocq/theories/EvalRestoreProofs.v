From Verif Require Import Py PyLemmas Num StatModel EvalModel EvalSpec EvalLogProofs.
Open Scope nat_scope.
Open Scope list_scope.

(** ** Adding a value *)
Lemma add_value_cons k k2 keys v l : add_value (k :: k2 :: keys) v (RDict l) =
  let* d' := add_value (k2 :: keys) v (match get k l with Some d' => d' | None => RDict [] end) in Ok (RDict (put k d' l)).
Proof. reflexivity. Qed.
(** No strict prefix of the path holds an array: the value is put there, and paths that do not lead
    through it are as before. *)
Lemma add_value_ok keys : keys <> [] -> forall v d, (exists l, d = RDict l) -> (forall p, strict_prefix p keys -> array_at p d = None) ->
  exists l, add_value keys v d = Ok (RDict l) /\ array_at keys (RDict l) = Some v /\
    forall path, path <> keys -> ~ strict_prefix keys path -> array_at path (RDict l) = array_at path d.
Proof.
  induction keys as [|k keys IH]; intros Hk v d [l ->] H; [contradiction|]. destruct keys as [|k2 keys].
  - exists (put k (RArr v) l). cbn [add_value]. split; [reflexivity|]. split; [cbn [array_at]; rewrite get_put, key_eqb_refl; reflexivity|].
    intros [|k' path] Hp Hs; [reflexivity|]. cbn [array_at]. rewrite get_put. destruct (key_eqb_spec k' k) as [->|N]; [|reflexivity].
    exfalso. destruct path as [|a path]; [apply Hp; reflexivity|]. apply Hs. exists (a :: path). split; [discriminate|reflexivity].
  - rewrite add_value_cons. set (d0 := match get k l with Some d' => d' | None => RDict [] end).
    assert (Hd : exists l0, d0 = RDict l0).
    { unfold d0. destruct (get k l) as [[a|l0]|] eqn:G; [|exists l0; reflexivity|exists []; reflexivity].
      exfalso. assert (Q : array_at [k] (RDict l) = None) by (apply H; exists (k2 :: keys); split; [discriminate|reflexivity]).
      cbn in Q. rewrite G in Q. discriminate. }
    assert (Hs : forall p, strict_prefix p (k2 :: keys) -> array_at p d0 = None).
    { intros p (r & Hr & E). assert (Q : array_at (k :: p) (RDict l) = None) by (apply H; exists r; split; [exact Hr|cbn; congruence]).
      cbn [array_at] in Q. unfold d0. destruct (get k l); [exact Q|]. destruct p; reflexivity. }
    assert (Hne : k2 :: keys <> []) by discriminate.
    destruct (IH Hne v d0 Hd Hs) as (l' & E & A & B).
    rewrite E. cbn [bind]. exists (put k (RDict l') l). split; [reflexivity|]. split; [cbn [array_at]; rewrite get_put, key_eqb_refl; exact A|].
    intros [|k' path] Hp Hn; [reflexivity|]. cbn [array_at]. rewrite get_put. destruct (key_eqb_spec k' k) as [->|N]; [|reflexivity].
    rewrite B.
    + unfold d0. destruct (get k l); [reflexivity|]. destruct path; reflexivity.
    + intros ->. apply Hp. reflexivity.
    + intros (r & Hr & ->). apply Hn. exists r. split; [exact Hr|reflexivity].
Qed.
Definition add_ev (d : rdata) (kv : list char * list (Z * Qc)) : res rdata := add_value (split_key (fst kv)) (map snd (snd kv)) d.
Lemma restore_eq ev : restore_logged_data ev = foldM add_ev ev (RDict []).
Proof. reflexivity. Qed.
(** C220. Tags of which none leads through another: every tag's values are found under its path, and nothing else. *)
Lemma C220_restore_lemma : forall ev, NoDup (map fst ev) -> prefix_free (map fst ev) ->
  exists d, restore_logged_data ev = Ok d /\
    forall path vs, array_at path d = Some vs <-> exists k evs, In (k, evs) ev /\ split_key k = path /\ vs = map snd evs.
Proof.
  intros ev N P. rewrite restore_eq.
  assert (G : forall ev2 ev1 d, ev = ev1 ++ ev2 -> (exists l, d = RDict l) ->
    (forall path vs, array_at path d = Some vs <-> exists k evs, In (k, evs) ev1 /\ split_key k = path /\ vs = map snd evs) ->
    exists d', foldM add_ev ev2 d = Ok d' /\ forall path vs, array_at path d' = Some vs <-> exists k evs, In (k, evs) ev /\ split_key k = path /\ vs = map snd evs).
  { induction ev2 as [|[k evs] ev2 IH]; intros ev1 d E Hd H.
    - exists d. split; [reflexivity|]. rewrite app_nil_r in E. subst. exact H.
    - cbn [foldM]. assert (Ik : In k (map fst ev)) by (rewrite E, map_app; apply in_or_app; right; left; reflexivity).
      destruct (add_value_ok (split_key k) (split_ne k) (map snd evs) d Hd) as (l & A1 & A2 & A3).
      { intros p Hp. destruct (array_at p d) as [vs|] eqn:Q; [|reflexivity]. exfalso. apply H in Q. destruct Q as (k' & evs' & I' & <- & _).
        apply (P k' k); [rewrite E, map_app; apply in_or_app; left; apply in_map_iff; exists (k', evs'); split; [reflexivity|exact I']|exact Ik|exact Hp]. }
      unfold add_ev at 1. cbn [fst snd]. rewrite A1. cbn [bind]. apply (IH (ev1 ++ [(k, evs)])); [rewrite <- app_assoc; exact E|exists l; reflexivity|].
      intros path vs. destruct (list_eq_dec (list_eq_dec (fun a b => Bool.reflect_dec _ _ (char_eqb_spec a b))) path (split_key k)) as [->|Np].
      + rewrite A2. split.
        * intros [= <-]. exists k, evs. split; [apply in_or_app; right; left; reflexivity|]. split; reflexivity.
        * intros (k' & evs' & I' & S' & ->). apply split_inj in S'. subst k'. apply in_app_or in I'. destruct I' as [I'|[[= <-]|[]]]; [|reflexivity].
          exfalso. rewrite E, map_app in N. cbn in N. apply NoDup_remove_2 in N. apply N, in_or_app. left. apply in_map_iff. exists (k, evs'). split; [reflexivity|exact I'].
      + destruct (array_at path (RDict l)) as [ws|] eqn:Q.
        * (* not below the new tag *)
          assert (Hn : ~ strict_prefix (split_key k) path).
          { intros (r & Hr & ->). clear - A2 Q Hr. revert A2 Q. generalize (RDict l), (split_key k). clear l. intros d p. revert d.
            induction p as [|a p IHp]; intros d A2 Q.
            - destruct d; [|discriminate A2]. destruct r; [contradiction|discriminate Q].
            - destruct d as [?|l]; [discriminate A2|]. cbn [app array_at] in *. destruct (get a l); [|discriminate A2]. exact (IHp _ A2 Q). }
          rewrite (A3 path Np Hn) in Q. split.
          -- intros [= <-]. apply H in Q. destruct Q as (k' & evs' & I' & S' & V'). exists k', evs'. split; [apply in_or_app; left; exact I'|]. split; assumption.
          -- intros (k' & evs' & I' & S' & ->). apply in_app_or in I'. destruct I' as [I'|[[= <- <-]|[]]]; [|congruence].
             assert (Q' : array_at path d = Some (map snd evs')) by (apply H; exists k', evs'; auto). congruence.
        * split; [discriminate|]. intros (k' & evs' & I' & S' & ->). apply in_app_or in I'. destruct I' as [I'|[[= <- <-]|[]]]; [|congruence].
          exfalso. assert (Q' : array_at path d = Some (map snd evs')) by (apply H; exists k', evs'; auto).
          rewrite <- (A3 path Np) in Q'; [congruence|]. subst path. intros Hs. apply (P k k'); [exact Ik| |exact Hs].
          rewrite E, map_app. apply in_or_app. left. apply in_map_iff. exists (k', evs'). split; [reflexivity|exact I']. }
  apply (G ev []); [reflexivity|exists []; reflexivity|]. intros path vs. split.
  - destruct path; discriminate.
  - intros (k & evs & [] & _).
Qed.

(** An array met on the way to a later tag. *)
Definition blocked (p : list (list char)) (d : rdata) : Prop := exists q vs, prefix q p /\ q <> [] /\ array_at q d = Some vs.
Lemma add_blocked keys : forall v d d' p, blocked p d -> add_value keys v d = Ok d' -> blocked p d'.
Proof.
  induction keys as [|k keys IH]; intros v d d' p (q & vs & (r & ->) & Hq & A) E; [injection E as <-; exists q, vs; split; [exists r; reflexivity|split; assumption]|].
  destruct q as [|a q]; [contradiction|]. destruct d as [?|l]; [discriminate A|]. cbn [array_at] in A.
  destruct (get a l) as [d0|] eqn:G; [|discriminate A]. destruct keys as [|k2 keys].
  - cbn in E. injection E as <-. destruct (key_eqb_spec k a) as [->|N].
    + exists [a], v. split; [exists (q ++ r); reflexivity|]. split; [discriminate|]. cbn [array_at]. rewrite get_put, key_eqb_refl. reflexivity.
    + exists (a :: q), vs. split; [exists r; reflexivity|]. split; [discriminate|]. cbn [array_at]. rewrite get_put.
      destruct (key_eqb_spec a k); [congruence|]. rewrite G. exact A.
  - rewrite add_value_cons in E. destruct (add_value (k2 :: keys) v _) as [d1|x] eqn:E1; cbn [bind] in E; [|discriminate E]. injection E as <-.
    destruct (key_eqb_spec k a) as [->|N].
    + rewrite G in E1. destruct q as [|b q].
      * destruct d0; [|discriminate A]. destruct keys; discriminate E1.
      * destruct (IH v d0 d1 (b :: q ++ r)) as (q' & vs' & P' & Hq' & A'); [exists (b :: q), vs; split; [exists r; reflexivity|split; [discriminate|exact A]]|exact E1|].
        exists (a :: q'), vs'. split; [destruct P' as [r' P']; exists r'; cbn; rewrite <- P'; reflexivity|]. split; [discriminate|].
        cbn [array_at]. rewrite get_put, key_eqb_refl. exact A'.
    + exists (a :: q), vs. split; [exists r; reflexivity|]. split; [discriminate|]. cbn [array_at]. rewrite get_put.
      destruct (key_eqb_spec a k); [congruence|]. rewrite G. exact A.
Qed.
Lemma add_into_blocked keys : forall v d p, blocked p d -> strict_prefix p keys -> is_ok (add_value keys v d) = false.
Proof.
  induction keys as [|k keys IH]; intros v d p (q & vs & (r & ->) & Hq & A) (s & Hs & E); [destruct q; [contradiction|discriminate E]|].
  destruct q as [|a q]; [contradiction|]. destruct d as [?|l]; [discriminate A|]. cbn [array_at] in A. cbn [app] in E. injection E as <- ->.
  destruct (get k l) as [d0|] eqn:G; [|discriminate A].
  destruct ((q ++ r) ++ s) as [|k2 keys] eqn:K; [destruct q, r, s; try discriminate K; contradiction|].
  rewrite add_value_cons, G. destruct q as [|b q].
  - destruct d0; [|discriminate A]. destruct keys; reflexivity.
  - rewrite <- K. rewrite <- K in IH. assert (F : is_ok (add_value (((b :: q) ++ r) ++ s) v d0) = false).
    { apply (IH v d0 ((b :: q) ++ r)); [exists (b :: q), vs; split; [exists r; reflexivity|split; [discriminate|exact A]]|exists s; split; [exact Hs|reflexivity]]. }
    destruct (add_value (((b :: q) ++ r) ++ s) v d0); [discriminate F|reflexivity].
Qed.
Lemma added_blocked keys : keys <> [] -> forall v d d', add_value keys v d = Ok d' -> blocked keys d'.
Proof.
  induction keys as [|k keys IH]; intros Hk v d d' E; [contradiction|]. destruct keys as [|k2 keys].
  - destruct d as [?|l]; [discriminate E|]. cbn in E. injection E as <-. exists [k], v. split; [exists []; reflexivity|]. split; [discriminate|].
    cbn [array_at]. rewrite get_put, key_eqb_refl. reflexivity.
  - destruct d as [?|l]; [discriminate E|]. rewrite add_value_cons in E. destruct (add_value (k2 :: keys) v _) as [d1|x] eqn:E1; cbn [bind] in E; [|discriminate E].
    injection E as <-. assert (Hne : k2 :: keys <> []) by discriminate. destruct (IH Hne _ _ _ E1) as (q & vs & (r & P) & Hq & A).
    exists (k :: q), vs. split; [exists r; rewrite P; reflexivity|]. split; [discriminate|]. cbn [array_at]. rewrite get_put, key_eqb_refl. exact A.
Qed.
Lemma foldM_blocked ev : forall d d' p, blocked p d -> foldM add_ev ev d = Ok d' -> blocked p d'.
Proof.
  induction ev as [|kv ev IH]; intros d d' p B E; [injection E as <-; exact B|]. cbn [foldM] in E.
  destruct (add_ev d kv) as [d1|] eqn:E1; cbn [bind] in E; [|discriminate E]. apply (IH d1 d' p); [|exact E]. exact (add_blocked _ _ _ _ _ B E1).
Qed.
(** C220. A tag whose path leads through an earlier tag ("a", then "a/b") makes the whole restoration fail. *)
Lemma C220_conflict_refuted_lemma : forall ev1 k1 v1 ev2 k2 v2 ev3, strict_prefix (split_key k1) (split_key k2) ->
  is_ok (restore_logged_data (ev1 ++ (k1, v1) :: ev2 ++ (k2, v2) :: ev3)) = false.
Proof.
  intros ev1 k1 v1 ev2 k2 v2 ev3 H. rewrite restore_eq, foldM_app.
  destruct (foldM add_ev ev1 (RDict [])) as [d1|] eqn:E1; [|reflexivity]. cbn [bind foldM].
  unfold add_ev at 1. cbn [fst snd]. destruct (add_value (split_key k1) (map snd v1) d1) as [d2|] eqn:E2; [|reflexivity]. cbn [bind].
  apply added_blocked in E2; [|apply split_ne]. rewrite foldM_app.
  destruct (foldM add_ev ev2 d2) as [d3|] eqn:E3; [|reflexivity]. cbn [bind foldM].
  apply (foldM_blocked _ _ _ _ E2) in E3.
  pose proof (add_into_blocked (split_key k2) (map snd v2) d3 _ E3 H) as F. unfold add_ev at 1. cbn [fst snd].
  destruct (add_value (split_key k2) (map snd v2) d3); [discriminate F|reflexivity].
Qed.

(** ** Writing *)
Definition hist_opt (l : list (Z * Qc)) : option (list (Z * Qc)) := match l with [] => None | _ => Some l end.
Definition app_opt (o : option (list (Z * Qc))) (l : list (Z * Qc)) : option (list (Z * Qc)) := hist_opt (match o with Some x => x ++ l | None => l end).
Definition nonempty_log (ev : list (list char * list (Z * Qc))) : Prop := forall k l, get k ev = Some l -> l <> [].
Lemma add_scalar_get k q step ev : nonempty_log ev ->
  nonempty_log (add_scalar k q step ev) /\ forall tag, get tag (add_scalar k q step ev) = app_opt (get tag ev) (if key_eqb tag k then [(step, q)] else []).
Proof.
  intros H. assert (G : forall tag, get tag (add_scalar k q step ev) = app_opt (get tag ev) (if key_eqb tag k then [(step, q)] else [])).
  { intros tag. unfold add_scalar. rewrite get_put. destruct (key_eqb_spec tag k) as [->|N].
    - unfold app_opt. destruct (get k ev) as [l|]; [|reflexivity]. destruct (l ++ [(step, q)]) eqn:E; [destruct l; discriminate E|reflexivity].
    - unfold app_opt. destruct (get tag ev) as [l|] eqn:E; [|reflexivity]. rewrite app_nil_r. specialize (H tag l E). destruct l; [contradiction|reflexivity]. }
  split; [|exact G]. intros k0 l. rewrite G. unfold app_opt, hist_opt. destruct (match get k0 ev with Some x => x ++ _ | None => _ end); [discriminate|]. intros [= <-]. discriminate.
Qed.
Lemma app_opt_app o a b : app_opt (app_opt o a) b = app_opt o (a ++ b).
Proof.
  unfold app_opt, hist_opt. destruct o as [x|].
  - destruct (x ++ a) as [|y l] eqn:E.
    + apply app_eq_nil in E. destruct E as [-> ->]. reflexivity.
    + rewrite app_assoc, E. reflexivity.
  - destruct a; reflexivity.
Qed.
Lemma write_get w ev : no_slash (w_scope w) -> no_slash (w_name w) -> nonempty_log ev -> NoDup (map fst ev) ->
  exists ev', write (step_tag w) (w_step w) (w_data w) ev = Ok ev' /\ nonempty_log ev' /\ NoDup (map fst ev') /\
    forall tag, get tag ev' = app_opt (get tag ev) (events_of tag w).
Proof.
  intros H1 H2 H N. unfold write. assert (S : split_key (step_tag w) = [w_scope w; w_name w]).
  { unfold step_tag. rewrite split_app by exact H1. rewrite split_one by exact H2. reflexivity. }
  rewrite S. eexists. split; [reflexivity|].
  destruct (add_scalar_get (step_tag w) (qzz (w_step w)) (w_step w) ev H) as [A B].
  assert (Na : NoDup (map fst (add_scalar (step_tag w) (qzz (w_step w)) (w_step w) ev))) by (apply put_nodup, N).
  set (ev1 := add_scalar (step_tag w) (qzz (w_step w)) (w_step w) ev) in *. clearbody ev1.
  assert (G : forall data ev1, nonempty_log ev1 -> NoDup (map fst ev1) ->
    let ev2 := fold_left (fun ev kv => add_scalar (w_scope w ++ Slash :: fst kv) (snd kv) (w_step w) ev) data ev1 in
    nonempty_log ev2 /\ NoDup (map fst ev2) /\ forall tag, get tag ev2 = app_opt (get tag ev1) (flat_map (fun kv => if key_eqb tag (w_scope w ++ Slash :: fst kv) then [(w_step w, snd kv)] else []) data)).
  { clear. induction data as [|[k q] data IH]; intros ev H N; cbn [fold_left].
    - split; [exact H|]. split; [exact N|]. intros tag. cbn. unfold app_opt. destruct (get tag ev) as [l|] eqn:E; [|reflexivity]. rewrite app_nil_r. specialize (H tag l E). destruct l; [contradiction|reflexivity].
    - cbn [fst snd]. destruct (add_scalar_get (w_scope w ++ Slash :: k) q (w_step w) ev H) as [A B].
      destruct (IH (add_scalar (w_scope w ++ Slash :: k) q (w_step w) ev) A) as (C & D & E); [apply put_nodup, N|].
      split; [exact C|]. split; [exact D|]. intros tag. rewrite E, B, app_opt_app. reflexivity. }
  destruct (G (w_data w) ev1 A Na) as (C & D & E). split; [exact C|]. split; [exact D|]. intros tag. rewrite E, B, app_opt_app. reflexivity.
Qed.
Lemma history_tag tag ws : history tag ws <> [] -> In tag (tags_of ws).
Proof.
  unfold history, tags_of. induction ws as [|w ws IH]; intros H; [contradiction|]. cbn [flat_map] in *. apply in_or_app.
  destruct (events_of tag w) as [|x l] eqn:E; [right; apply IH, H|]. left. unfold events_of in E.
  destruct (key_eqb_spec tag (step_tag w)) as [->|N]; [left; reflexivity|]. right. cbn [app] in E. clear - E.
  induction (w_data w) as [|[k q] data IH]; [discriminate E|]. cbn [flat_map fst] in E.
  destruct (key_eqb_spec tag (w_scope w ++ Slash :: k)) as [->|N]; [left; reflexivity|right; apply IH; exact E].
Qed.
Lemma tag_history tag ws : In tag (tags_of ws) -> history tag ws <> [].
Proof.
  unfold history, tags_of. induction ws as [|w ws IH]; intros H; [destruct H|]. cbn [flat_map] in *. apply in_app_or in H.
  intros E. apply app_eq_nil in E. destruct E as [E1 E2]. destruct H as [H|H]; [|exact (IH H E2)]. unfold events_of in E1. apply app_eq_nil in E1. destruct E1 as [E0 E1].
  destruct H as [<-|H]; [rewrite key_eqb_refl in E0; discriminate E0|]. clear - H E1.
  induction (w_data w) as [|[k q] data IH]; [destruct H|]. cbn [map flat_map fst] in *. apply app_eq_nil in E1. destruct E1 as [E1 E2].
  destruct H as [<-|H]; [rewrite key_eqb_refl in E1; discriminate E1|exact (IH H E2)].
Qed.
(** C221. Whatever is written: a tag has its values in the order of the writes, with the steps; and if no tag
    leads through another, restoring gives exactly these values under its path. *)
Lemma C221_round_trip_lemma : forall ws, (forall w, In w ws -> no_slash (w_scope w) /\ no_slash (w_name w)) ->
  exists ev, write_all ws = Ok ev /\
    (forall tag, get tag ev = match history tag ws with [] => None | h => Some h end) /\
    (prefix_free (tags_of ws) -> exists d, restore_logged_data ev = Ok d /\
       forall path vs, array_at path d = Some vs <-> exists tag, In tag (tags_of ws) /\ split_key tag = path /\ vs = map snd (history tag ws)).
Proof.
  intros ws H. assert (G : forall ws ev, (forall w, In w ws -> no_slash (w_scope w) /\ no_slash (w_name w)) -> nonempty_log ev -> NoDup (map fst ev) ->
    exists ev', foldM (fun ev w => write (step_tag w) (w_step w) (w_data w) ev) ws ev = Ok ev' /\ NoDup (map fst ev') /\ forall tag, get tag ev' = app_opt (get tag ev) (history tag ws)).
  { clear. induction ws as [|w ws IH]; intros ev H Ne N.
    - exists ev. split; [reflexivity|]. split; [exact N|]. intros tag. cbn. unfold app_opt. destruct (get tag ev) as [l|] eqn:E; [|reflexivity]. rewrite app_nil_r. specialize (Ne tag l E). destruct l; [contradiction|reflexivity].
    - cbn [foldM]. destruct (H w (or_introl eq_refl)) as [H1 H2]. destruct (write_get w ev H1 H2 Ne N) as (ev1 & E & Ne1 & N1 & G1).
      rewrite E. cbn [bind]. destruct (IH ev1 (fun w Hw => H w (or_intror Hw)) Ne1 N1) as (ev2 & E2 & N2 & G2).
      exists ev2. split; [exact E2|]. split; [exact N2|]. intros tag. rewrite G2, G1, app_opt_app. reflexivity. }
  destruct (G ws [] H) as (ev & E & N & Gt); [intros k l; discriminate|constructor|].
  exists ev. split; [exact E|]. split; [intros tag; rewrite Gt; unfold app_opt, hist_opt; cbn [get]; destruct (history tag ws); reflexivity|]. intros P.
  assert (T : forall tag, In tag (map fst ev) <-> In tag (tags_of ws)).
  { intros tag. split; intros I.
    - apply history_tag. destruct (get tag ev) as [l|] eqn:Q; [|apply get_none in Q; contradiction]. rewrite Gt in Q. intros C. rewrite C in Q. discriminate Q.
    - apply tag_history in I. destruct (get tag ev) as [l|] eqn:Q; [apply get_in in Q; apply in_map_iff; exists (tag, l); split; [reflexivity|exact Q]|].
      rewrite Gt in Q. cbn in Q. unfold app_opt, hist_opt in Q. destruct (history tag ws); [contradiction|discriminate Q]. }
  destruct (C220_restore_lemma ev N) as (d & Ed & A).
  { intros k k' Hk Hk'. apply P; apply T; assumption. }
  exists d. split; [exact Ed|]. intros path vs. rewrite A. split.
  - intros (k & evs & I & S & ->). exists k. apply (in_get k evs ev N) in I. rewrite Gt in I. cbn in I. unfold app_opt, hist_opt in I.
    split; [apply history_tag; intros C; rewrite C in I; discriminate I|]. split; [exact S|]. destruct (history k ws); [discriminate I|]. injection I as <-. reflexivity.
  - intros (tag & I & S & ->). pose proof (tag_history tag ws I) as Hh. exists tag, (history tag ws). split; [|split; [exact S|reflexivity]].
    apply get_in. rewrite Gt. cbn. unfold app_opt, hist_opt. destruct (history tag ws); [contradiction|reflexivity].
Qed.
(** C221. A step type that is not "scope/name" is refused and nothing is written. *)
Lemma C221_step_type_lemma : forall st step data ev, length (split_key st) <> 2 -> write st step data ev = Err ValueError.
Proof. intros st step data ev H. unfold write. destruct (split_key st) as [|a [|b [|c r]]]; try reflexivity. cbn in H. contradiction. Qed.
