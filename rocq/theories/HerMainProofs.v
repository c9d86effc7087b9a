(** * The properties of HERReplayBuffer *)
From Verif Require Import Py PyLemmas BufferModel BufferSpec BufferProofs BufferWalkProofs BufferMainProofs ReturnsProofs
  HerModel HerSpec HerProofs.
From Coq Require Import Sorted.
Open Scope nat_scope.

Section Relabel.
Context {Ob0 G A Inf R : Type}.
Variable rew_fn : G -> G -> R.
Notation slot := (slot (gobs Ob0 G) A Inf R).
Notation buf := (buf (gobs Ob0 G) A Inf R).

Lemma sorted_map (f : nat -> nat) l : StronglySorted le l ->
  (forall x y, In x l -> In y l -> x <= y -> f x <= f y) -> StronglySorted le (map f l).
Proof.
  clear. induction 1 as [|x l H IH Hf]; intros Hm; cbn [map]; constructor.
  - apply IH. intros a b Ha Hb. apply Hm; right; assumption.
  - apply Forall_forall. intros y Hy. apply in_map_iff in Hy as (z & <- & Hz). rewrite Forall_forall in Hf.
    apply Hm; [left; reflexivity|right; exact Hz|apply Hf, Hz].
Qed.

Lemma achieved_some o (q : list slot) f : Forall (shape o) q -> f < length q -> exists g, achieved o q f = Some g.
Proof.
  clear. intros H Hf. unfold achieved.
  pose proof (succ_of_lt q f Hf) as Hs.
  destruct (save_obs_next o) eqn:Eo.
  - destruct (nth_error q f) as [x|] eqn:E; [|apply nth_error_None in E; lia].
    rewrite Forall_forall in H. pose proof (H x (nth_error_In _ _ E)) as Hx. unfold shape in Hx. rewrite Eo in Hx.
    destruct Hx as [ob ->]. cbn. eauto.
  - destruct (nth_error q (succ_of q f)) as [x|] eqn:E; [cbn; eauto|apply nth_error_None in E; lia].
Qed.

Lemma relabel_ok n (b : buf) (q : list slot) o P horizon offs hsel :
  inv n b q -> Forall (shape o) q -> stack_num o = 1 -> P <> [] -> (forall p, In p P -> p < length q) ->
  (forall p, In p P -> last_of q p < p + horizon) ->
  exists h' (goal_pos : nat -> option nat),
    rewrite_transitions rew_fn o (mkHer b []) (map (pos (b_st b)) P) horizon offs hsel = Ok h'
    /\ b_st (h_buf h') = b_st b
    /\ (forall x s f g, nth_error q x = Some s -> (exists p, In p P /\ last_of q p = last_of q x /\ p <= x) ->
          goal_pos (last_of q x) = Some f -> achieved o q f = Some g ->
          nth_error (meta_rows n (b_meta (h_buf h'))) (pos (b_st b) x) = Some (Some (relabelled rew_fn o q x g s)))
    /\ (forall x s, nth_error q x = Some s ->
          (goal_pos (last_of q x) = None \/ ~ exists p, In p P /\ last_of q p = last_of q x /\ p <= x) ->
          nth_error (meta_rows n (b_meta (h_buf h'))) (pos (b_st b) x) = Some (Some s))
    /\ (forall e f, goal_pos e = Some f ->
          f < length q /\ last_of q f = e /\ (exists g, achieved o q f = Some g)
          /\ (exists p, In p P /\ last_of q p = e) /\ (forall p, In p P -> last_of q p = e -> p <= f))
    /\ ((forall j, hsel j = true) -> forall p, In p P -> exists f, goal_pos (last_of q p) = Some f)
    /\ ((forall j, hsel j = false) -> forall e, goal_pos e = None).
Proof.
  intros H Hsh Ho HP0 HP Hhz.
  assert (Hne : q <> []). { intros ->. destruct P as [|p P]; [contradiction|]. specialize (HP p (or_introl eq_refl)). cbn in HP. lia. }
  destruct (inv_meta n b q H Hne) as [m Hm]. pose proof (i_s _ _ _ H) as Hs. pose proof (i_len _ _ _ H) as Hl.
  set (Q := np_sort P). set (K := horizon - 1). set (W := map (walk q K) Q).
  assert (HQin : forall p, In p Q <-> In p P) by (intros p; apply np_sort_In).
  assert (HQ0 : Q <> []). { intros E. assert (length Q = length P) by apply np_sort_length. rewrite E in H0. destruct P; [contradiction|discriminate]. }
  assert (Hwalk : forall p, In p P -> walk q K p = last_of q p).
  { intros p Hp. specialize (HP p Hp). specialize (Hhz p Hp). destruct (last_of_spec q p HP) as (L1 & _). unfold walk, K. lia. }
  assert (HWn : forall k, k < length Q -> nth k W 0 = last_of q (nth k Q 0)).
  { intros k Hk. unfold W. rewrite (nth_indep _ 0 (walk q K 0)) by (rewrite map_length; exact Hk). rewrite map_nth.
    apply Hwalk, HQin, nth_In, Hk. }
  assert (HWl : length W = length Q) by apply map_length.
  assert (HW0 : W <> []) by (intros E; rewrite E in HWl; destruct Q; [contradiction|discriminate]).
  assert (HQs : StronglySorted le Q) by apply np_sort_sorted.
  assert (HWs : StronglySorted le W).
  { apply sorted_map; [exact HQs|]. intros x y Hx Hy Hxy. apply HQin in Hx. apply HQin in Hy. rewrite !Hwalk by assumption.
    apply last_of_mono. split; [exact Hxy|apply HP, Hy]. }
  set (opens := ep_opens W). set (closes := ep_closes W). set (E := length opens).
  assert (HQlt : forall k, k < length Q -> nth k Q 0 < length q) by (intros k Hk; apply HP, HQin, nth_In, Hk).
  assert (Hopen : forall j, nth j opens 0 < length Q) by (intros j; rewrite <- HWl; apply nth_opens_lt, HW0).
  assert (Hclose : forall j, nth j closes 0 < length Q) by (intros j; rewrite <- HWl; apply nth_closes_lt, HW0).
  set (goal_pos := fun e => match find (fun j => nth (nth j opens 0) W 0 =? e) (seq 0 E) with
                            | Some j => if hsel j then Some (fut q K Q offs (nth j closes 0)) else None
                            | None => None end).
  (* the group number of an episode end is unique *)
  assert (Hfind : forall j, j < E -> find (fun j' => nth (nth j' opens 0) W 0 =? nth (nth j opens 0) W 0) (seq 0 E) = Some j).
  { intros j Hj. destruct (find _ _) as [j'|] eqn:Ef.
    - apply find_some in Ef as [Hin Eq]. apply in_seq in Hin. apply Nat.eqb_eq in Eq. f_equal.
      destruct (Nat.lt_trichotomy j' j) as [F|[F|F]]; [|exact F|]; exfalso.
      + assert (Hjin : In (nth j opens 0) opens) by (apply nth_In; exact Hj). apply ep_opens_In in Hjin as [_ Hd].
        apply (Hd (nth j' opens 0)); [|exact Eq]. apply sorted_nth_lt; [apply filter_seq_sorted|unfold E in *; unfold opens in *; lia].
      + assert (Hjin : In (nth j' opens 0) opens) by (apply nth_In; unfold E in *; lia). apply ep_opens_In in Hjin as [_ Hd].
        apply (Hd (nth j opens 0)); [|symmetry; exact Eq]. apply sorted_nth_lt; [apply filter_seq_sorted|unfold E in *; unfold opens in *; lia].
    - exfalso. apply find_none with (x := j) in Ef; [|apply in_seq; lia]. rewrite Nat.eqb_refl in Ef. discriminate. }
  assert (Hgp : forall j, j < E -> goal_pos (nth (nth j opens 0) W 0) = if hsel j then Some (fut q K Q offs (nth j closes 0)) else None).
  { intros j Hj. unfold goal_pos. rewrite (Hfind j Hj). reflexivity. }
  assert (Hgroup : forall k, k < length Q -> exists j, j < E /\ nth (nth j opens 0) W 0 = last_of q (nth k Q 0) /\ nth j opens 0 <= k <= nth j closes 0).
  { intros k Hk. destruct (ep_group_of W k ltac:(lia)) as (j & Hj & Ej). exists j. split; [exact Hj|].
    split; [fold opens in Ej; rewrite Ej; apply HWn, Hk|].
    destruct (ep_groups W j HWs Hj) as (_ & Hiff). apply (Hiff k ltac:(lia)). symmetry. exact Ej. }
  pose proof (rewrite_ok rew_fn n b q m o P horizon offs hsel [] H Hm Ho HP0 HP) as Hrw. cbv zeta in Hrw.
  fold Q K in Hrw. set (cells := hcells rew_fn o b q K Q offs hsel) in *.
  eexists. exists goal_pos. split; [exact Hrw|]. cbn [h_buf b_st b_meta meta_rows].
  split; [reflexivity|].
  set (value := fun w => rewrite_row rew_fn o (match goal_pos (last_of q w) with Some f => achieved o q f | None => None end)
                 (nth_error q (succ_of q w)) (nth_error q w)).
  (* every row of a stored position *)
  assert (Hrow : forall x, x < length q ->
    nth_error (write_rows m (map (fun c => (fst c, snd (snd c))) cells)) (pos (b_st b) x)
    = Some (if existsb (Nat.eqb (pos (b_st b) x)) (map fst (map (fun c => (fst c, snd (snd c))) cells))
            then value x else nth_error q x)).
  { intros x Hx. rewrite (write_rows_at (value x)).
    - destruct (nth_error q x) as [s|] eqn:Ex; [|apply nth_error_None in Ex; lia].
      pose proof (i_data _ _ _ H _ _ Ex) as D. rewrite Hm in D. cbn [meta_rows] in D. rewrite D. destruct (existsb _ _); reflexivity.
    - intros c Hc Ec. apply in_map_iff in Hc as (c' & <- & Hc'). cbn [fst snd] in *.
      apply in_hcells in Hc' as (t & j & Ht & Hj & ->). unfold hcell in Ec |- *. fold W in Ec, Hj |- *. fold opens in Ec, Hj |- *. fold closes. fold E in Hj. cbn [fst snd] in Ec |- *.
      set (w := walk q t (nth (nth j opens 0) Q 0)) in *.
      assert (Hw : w < length q) by (apply walk_lt, HQlt, Hopen).
      apply (pos_inj n) in Ec; [|exact Hs|rewrite <- Hl; exact Hw|rewrite <- Hl; exact Hx]. subst x.
      unfold value.
      assert (HL : last_of q w = nth (nth j opens 0) W 0).
      { rewrite HWn by apply Hopen. pose proof (HQlt _ (Hopen j)) as Hp. destruct (last_of_spec q _ Hp) as (L1 & _).
        apply last_of_same; [exact Hp|]. unfold w, walk. lia. }
      rewrite HL, (Hgp j Hj). destruct (hsel j); reflexivity. }
  assert (Hin : forall x, x < length q ->
    (existsb (Nat.eqb (pos (b_st b) x)) (map fst (map (fun c => (fst c, snd (snd c))) cells)) = true
     <-> exists p, In p P /\ last_of q p = last_of q x /\ p <= x)).
  { intros x Hx. rewrite existsb_exists. split.
    - intros (i & Hi & Ei). apply Nat.eqb_eq in Ei. subst i. rewrite map_map in Hi. cbn [fst] in Hi.
      apply in_map_iff in Hi as (c & Ec & Hc). apply in_hcells in Hc as (t & j & Ht & Hj & ->).
      unfold hcell in Ec. fold W in Ec, Hj. fold opens in Ec, Hj. fold E in Hj. cbn [fst] in Ec.
      set (w := walk q t (nth (nth j opens 0) Q 0)) in *.
      assert (Hw : w < length q) by (apply walk_lt, HQlt, Hopen).
      apply (pos_inj n) in Ec; [|exact Hs|rewrite <- Hl; exact Hw|rewrite <- Hl; exact Hx]. subst x.
      exists (nth (nth j opens 0) Q 0). split; [apply HQin, nth_In, Hopen|].
      pose proof (HQlt _ (Hopen j)) as Hp. destruct (last_of_spec q _ Hp) as (L1 & _).
      split; [symmetry; apply last_of_same; [exact Hp|]|]; unfold w, walk; lia.
    - intros (p & HpP & HpL & Hpx). apply HQin in HpP. pose proof HpP as HpQ. apply In_nth with (d := 0) in HpP as (k & Hk & Ek).
      destruct (Hgroup k Hk) as (j & Hj & Ej & Hjk). rewrite Ek, HpL in Ej.
      exists (pos (b_st b) x). split; [|apply Nat.eqb_refl]. rewrite map_map. cbn [fst]. apply in_map_iff.
      set (p' := nth (nth j opens 0) Q 0).
      assert (Hp' : p' <= p) by (rewrite <- Ek; apply sorted_nth_le; [exact HQs|lia]).
      assert (HpL' : last_of q p' = last_of q x) by (rewrite <- Ej; symmetry; apply HWn, Hopen).
      pose proof (HQlt _ (Hopen j)) as Hpl. fold p' in Hpl.
      destruct (last_of_spec q x Hx) as (L1 & _).
      assert (Hh' : last_of q p' < p' + horizon) by (apply Hhz, HQin, nth_In, Hopen).
      exists (hcell rew_fn o b q K Q offs hsel (x - p') j). split.
      + unfold hcell. fold W opens closes. cbn [fst]. fold p'. f_equal. unfold walk. lia.
      + apply in_hcells. exists (x - p'), j. split; [unfold K; lia|]. split; [exact Hj|reflexivity]. }
  assert (Hgpos : forall e f, goal_pos e = Some f -> exists j, j < E /\ e = nth (nth j opens 0) W 0
                    /\ f = fut q K Q offs (nth j closes 0)).
  { intros e f. unfold goal_pos. destruct (find _ _) as [j|] eqn:Ef; [|discriminate].
    apply find_some in Ef as [Hin' Eq]. apply in_seq in Hin'. apply Nat.eqb_eq in Eq.
    destruct (hsel j); [|discriminate]. intros F. injection F as <-. exists j. split; [lia|]. split; [congruence|reflexivity]. }
  split; [|split; [|split; [|split]]].
  - intros x s f g Ex Hp Hf Hg.
    assert (Hx : x < length q) by (apply nth_error_Some; congruence).
    rewrite (Hrow x Hx). rewrite (proj2 (Hin x Hx) Hp). unfold value. rewrite Hf, Hg, Ex.
    f_equal. unfold rewrite_row, relabelled, set_des.
    rewrite Forall_forall in Hsh. pose proof (Hsh s (nth_error_In _ _ Ex)) as Hxs. unfold shape in Hxs.
    destruct (save_obs_next o).
    + destruct Hxs as [ob ->]. reflexivity.
    + pose proof (succ_of_lt q x Hx) as Hsx.
      destruct (nth_error q (succ_of q x)) as [sn|] eqn:En; [|apply nth_error_None in En; lia].
      rewrite Hxs. reflexivity.
  - intros x s Ex Hcase. assert (Hx : x < length q) by (apply nth_error_Some; congruence).
    rewrite (Hrow x Hx). rewrite Ex.
    destruct (existsb _ _) eqn:Eb; [|reflexivity].
    destruct Hcase as [Hg|Hn]; [|exfalso; apply Hn, (Hin x Hx), Eb].
    unfold value. rewrite Hg, Ex. reflexivity.
  - intros e f Hf. destruct (Hgpos e f Hf) as (j & Hj & -> & ->).
    pose proof (HQlt _ (Hclose j)) as Hc. pose proof (fut_bound q K Q offs _ Hc) as Hfb.
    destruct (ep_groups W j HWs Hj) as (Hoc & Hiff). fold opens closes in Hoc, Hiff.
    assert (HLc : last_of q (nth (nth j closes 0) Q 0) = nth (nth j opens 0) W 0).
    { rewrite <- HWn by apply Hclose. apply Hiff; [lia|]. lia. }
    rewrite Hwalk in Hfb by (apply HQin, nth_In, Hclose).
    destruct (last_of_spec q _ Hc) as (L1 & _).
    set (f := fut q K Q offs (nth j closes 0)) in *.
    assert (Hfq : f < length q) by lia.
    split; [exact Hfq|]. split; [rewrite <- HLc; apply last_of_same; [exact Hc|lia]|].
    split; [apply achieved_some; assumption|]. split.
    + exists (nth (nth j closes 0) Q 0). split; [apply HQin, nth_In, Hclose|exact HLc].
    + intros p Hp HpL. apply HQin in Hp. apply In_nth with (d := 0) in Hp as (k & Hk & Ek).
      assert (nth j opens 0 <= k <= nth j closes 0).
      { apply Hiff; [lia|]. rewrite HWn by exact Hk. rewrite Ek. exact HpL. }
      assert (p <= nth (nth j closes 0) Q 0); [|lia]. rewrite <- Ek. apply sorted_nth_le; [exact HQs|].
      pose proof (Hclose j). lia.
  - intros Hall p Hp. apply HQin in Hp. apply In_nth with (d := 0) in Hp as (k & Hk & Ek).
    destruct (Hgroup k Hk) as (j & Hj & Ej & _). rewrite Ek in Ej. exists (fut q K Q offs (nth j closes 0)).
    rewrite <- Ej, (Hgp j Hj), Hall. reflexivity.
  - intros Hall e. unfold goal_pos. destruct (find _ _) as [j|]; [rewrite Hall|]; reflexivity.
Qed.
End Relabel.

(** C17.  A HERReplayBuffer ([stack_num] 1) returns from every sequence of add / reset / update /
    sample calls exactly what a plain ReplayBuffer returns; what it would save (and what the next
    add / reset / update works on) is exactly the plain buffer's state; and meanwhile its rows
    differ from the plain buffer's in goals and rewards only. *)
Lemma C17_restore_lemma : forall (Ob0 G A Inf R : Type) (r0 : R) radd (last_frame : gobs Ob0 G -> gobs Ob0 G)
    rew_fn o n (ops : list (hop Ob0 G A Inf R)),
  stack_num o = 1 -> 0 < n -> Forall (hop_ok r0 radd last_frame o) ops ->
  match plain_run r0 radd last_frame o (buf_init r0 n) ops with
  | Ok (b, outs) =>
      exists h, h_run r0 radd last_frame rew_fn o (her_init r0 n) ops = Ok (h, outs)
        /\ h_saved h = b /\ b_st (h_buf h) = b_st b
        /\ forall i x, nth_error (meta_rows 0 (b_meta b)) i = Some (Some x) ->
             exists x', nth_error (meta_rows 0 (b_meta (h_buf h))) i = Some (Some x') /\ same_but_goal x x'
  | Err e => h_run r0 radd last_frame rew_fn o (her_init r0 n) ops = Err e
  end.
Proof.
  intros Ob0 G A Inf R r0 radd lf rew_fn o n ops Ho Hn Hok.
  pose proof (run_sim r0 radd lf rew_fn o n Ho Hn ops (buf_init r0 n) (her_init r0 n) [] (reach_init _ _ _ _ _)
                (hrel_refl _) Hok) as H.
  destruct (plain_run r0 radd lf o (buf_init r0 n) ops) as [[b outs]|e]; [|exact H].
  destruct H as (h & E & (H1 & H2 & H3) & _). exists h. split; [exact E|].
  split; [unfold h_saved; rewrite H1; reflexivity|]. split; [exact H2|exact H3].
Qed.

(** C17.  What one sampling rewrites ([horizon] at least the remaining episode length): with
    [last_of q x] naming the episode of position [x], there is at most one goal position per
    sampled episode; it is a position of that same episode, at or after every sampled position
    of it; the rows of that episode from its first sampled position on get the goal achieved
    there, and every other row is unchanged. *)
Lemma C17_relabel_lemma : forall (Ob0 G A Inf R : Type) (r0 : R) radd (last_frame : gobs Ob0 G -> gobs Ob0 G)
    rew_fn o n (b : buf (gobs Ob0 G) A Inf R) q rnd idx P horizon offs hsel,
  stack_num o = 1 -> 0 < n -> reach r0 radd last_frame o n b q ->
  sample_indices plain b rnd (Some 0%Z) = Ok idx ->
  P <> [] -> (forall p, In p P -> p < length q) -> (forall p, In p P -> last_of q p < p + horizon) ->
  let at_ p := nth p idx 0 in
  exists h' (goal_pos : nat -> option nat),
    rewrite_transitions rew_fn o (mkHer b []) (map at_ P) horizon offs hsel = Ok h'
    /\ b_st (h_buf h') = b_st b
    /\ (forall x s f g, nth_error q x = Some s -> (exists p, In p P /\ last_of q p = last_of q x /\ p <= x) ->
          goal_pos (last_of q x) = Some f -> achieved o q f = Some g ->
          nth_error (meta_rows n (b_meta (h_buf h'))) (at_ x) = Some (Some (relabelled rew_fn o q x g s)))
    /\ (forall x s, nth_error q x = Some s ->
          (goal_pos (last_of q x) = None \/ ~ exists p, In p P /\ last_of q p = last_of q x /\ p <= x) ->
          nth_error (meta_rows n (b_meta (h_buf h'))) (at_ x) = Some (Some s))
    /\ (forall e f, goal_pos e = Some f ->
          f < length q /\ last_of q f = e /\ (exists g, achieved o q f = Some g)
          /\ (exists p, In p P /\ last_of q p = e) /\ (forall p, In p P -> last_of q p = e -> p <= f))
    /\ ((forall j, hsel j = true) -> forall p, In p P -> exists f, goal_pos (last_of q p) = Some f)
    /\ ((forall j, hsel j = false) -> forall e, goal_pos e = None).
Proof.
  intros Ob0 G A Inf R r0 radd lf rew_fn o n b q rnd idx P horizon offs hsel Ho Hn Hr Hidx HP0 HP Hhz at_.
  pose proof (reach_inv r0 radd lf o n b q Hr Hn) as H. pose proof (reach_shape r0 radd lf o n b q Hr) as Hsh.
  pose proof (i_s _ _ _ H) as Hs. pose proof (i_len _ _ _ H) as Hl.
  cbn in Hidx. injection Hidx as <-.
  assert (E : forall p, p < length q -> at_ p = pos (b_st b) p).
  { intros p Hp. unfold at_. rewrite (all_indices_pos n) by exact Hs.
    apply nth_error_nth. rewrite nth_error_map_seq. destruct (Nat.ltb_spec p (size (b_st b))); [|lia]. reflexivity. }
  destruct (relabel_ok rew_fn n b q o P horizon offs hsel H Hsh Ho HP0 HP Hhz) as (h' & gp & E1 & E2 & E3 & E4 & E5).
  exists h', gp. split; [|split; [exact E2|split; [|split; [|exact E5]]]].
  - rewrite <- E1. f_equal. apply map_ext_in. intros p Hp. apply E, HP, Hp.
  - intros x s f g Ex. rewrite E by (apply nth_error_Some; congruence). apply (E3 x s f g Ex).
  - intros x s Ex. rewrite E by (apply nth_error_Some; congruence). apply (E4 x s Ex).
Qed.

(** C66.  Without stored next observations ([ignore_obs_next]) the reward of a relabelled
    transition is not computed with its new goal: a transition whose new goal is reached gets
    the reward of the original, unreached goal. *)
Definition gt (ob ach des : nat) (act : nat) (rew : Z) (ach' : nat) (term : bool)
  : trans (gobs nat nat) nat unit Z := mkTrans (mkG ob ach des) act rew term false (mkG (S ob) ach' des) tt.
Definition grew (a g : nat) : Z := if a =? g then 1%Z else 0%Z.
Definition gops : list (hop nat nat nat unit Z) :=
  [HAdd (gt 0 0 9 5 0%Z 1 false); HAdd (gt 1 1 9 5 0%Z 2 false); HAdd (gt 2 2 9 5 0%Z 3 true)].
Definition grun (o : opts) (ops : list (hop nat nat nat unit Z)) : res (her nat nat nat unit Z * list (hout Z)) :=
  h_run 0%Z Z.add (fun x => x) grew o (her_init 0%Z 4) ops.
Definition gnosave : opts := mkOpts 1 false false false.

Lemma C66_reward_uses_new_goal_refuted_lemma : exists h outs x sn,
  grun gnosave (gops ++ [HSample (fun _ => 0) (Some 1%Z) 4 (fun _ => 0) (fun _ => true)]) = Ok (h, outs)
  /\ nth_error (meta_rows 4 (b_meta (h_buf h))) 0 = Some (Some x)
  /\ nth_error (meta_rows 4 (b_meta (h_buf h))) 1 = Some (Some sn)
  /\ g_ach (s_obs sn) = g_des (s_obs x)
  /\ grew (g_ach (s_obs sn)) (g_des (s_obs x)) = 1%Z /\ s_rew x = 0%Z.
Proof. eexists _, _, _, _. repeat (split; [vm_compute; reflexivity|]). vm_compute; reflexivity. Qed.

(** C66 (restricted).  With stored next observations the relabelled reward is the reward
    function applied to the achieved goal of the next observation and the new goal. *)
Lemma C66_saved_obs_next_partial_lemma : forall (Ob0 G A Inf R : Type) (rew_fn : G -> G -> R) o
    (q : list (slot (gobs Ob0 G) A Inf R)) x g s ob,
  save_obs_next o = true -> s_obs_next s = Some ob ->
  s_rew (relabelled rew_fn o q x g s) = rew_fn (g_ach ob) g
  /\ g_des (s_obs (relabelled rew_fn o q x g s)) = g
  /\ s_obs_next (relabelled rew_fn o q x g s) = Some (mkG (g_in ob) (g_ach ob) g).
Proof.
  intros Ob0 G A Inf R rew_fn o q x g s ob H1 H2. unfold relabelled. cbn. rewrite H1, H2. repeat split.
Qed.

(** C67.  [update] from a HERReplayBuffer does not store the source's original transitions: the
    source relabels its rows while they are being listed, and the relabelled rows are copied
    (and never restored in the destination). *)
Lemma C67_update_from_her_refuted_lemma : exists src outs h' src' l x y,
  grun plain gops = Ok (src, outs) /\ h_alt src = []
  /\ h_update_from grew plain (her_init 0%Z 4) src 4 (fun _ => 0) (fun _ => true) = Ok (h', src', l)
  /\ nth_error (meta_rows 4 (b_meta (h_saved src))) 0 = Some (Some x)
  /\ nth_error (meta_rows 4 (b_meta (h_saved h'))) 0 = Some (Some y)
  /\ g_des (s_obs x) = 9 /\ g_des (s_obs y) = 3.
Proof. eexists _, _, _, _, _, _, _. repeat (split; [vm_compute; reflexivity|]). vm_compute; reflexivity. Qed.

(** C67 (restricted).  When no episode is selected for relabelling, [update] from a
    HERReplayBuffer is [update] from the plain buffer. *)
Lemma C67_no_relabelling_partial_lemma : forall (Ob0 G A Inf R : Type) (r0 : R) radd (last_frame : gobs Ob0 G -> gobs Ob0 G)
    rew_fn o n n2 (b src : buf (gobs Ob0 G) A Inf R) q q2 horizon offs hsel,
  0 < n -> 0 < n2 -> reach r0 radd last_frame o n b q -> reach r0 radd last_frame o n2 src q2 ->
  (forall j, hsel j = false) ->
  exists h' src' l, h_update_from rew_fn o (mkHer b []) (mkHer src []) horizon offs hsel = Ok (h', src', l)
    /\ update b src = Ok (h_saved h', l) /\ h_saved src' = src.
Proof.
  intros Ob0 G A Inf R r0 radd lf rew_fn o n n2 b src q q2 horizon offs hsel Hn Hn2 Hr Hr2 Hsel.
  pose proof (reach_inv r0 radd lf o n b q Hr Hn) as H. pose proof (reach_inv r0 radd lf o n2 src q2 Hr2 Hn2) as H2.
  destruct (update_ok n n2 b q src q2 H H2) as (b' & l & Eu & _).
  unfold h_update_from, h_saved. cbn [restore_cache h_alt h_buf].
  destruct ((size (b_st src) =? 0) || (maxsize (b_st b) =? 0)) eqn:Ez.
  { unfold update in Eu |- *. rewrite Ez in Eu |- *. exists (mkHer b []), (mkHer src []), []. repeat split. }
  apply orb_false_iff in Ez as [Ez _]. apply Nat.eqb_neq in Ez.
  unfold h_sample. cbn [restore_cache h_alt h_buf].
  set (o1 := mkOpts 1 (save_obs_next o) (save_only_last_obs o) (sample_avail o)).
  assert (Es : sample_indices o1 src (fun _ => 0) (Some 0%Z) = Ok (all_indices (b_st src))) by reflexivity.
  rewrite Es. cbn [bind].
  rewrite (all_indices_pos n2) by apply (i_s _ _ _ H2).
  set (P := seq 0 (size (b_st src))).
  assert (HP : forall p, In p P -> p < length q2) by (intros p Hp; apply in_seq in Hp; rewrite (i_len _ _ _ H2); lia).
  assert (HP0 : P <> []) by (unfold P; destruct (size (b_st src)); [lia|discriminate]).
  assert (Hne : q2 <> []). { intros ->. pose proof (i_len _ _ _ H2) as Hl. cbn in Hl. lia. }
  destruct (inv_meta n2 src q2 H2 Hne) as [m Hm].
  rewrite (rewrite_ok rew_fn n2 src q2 m o1 P horizon offs hsel [] H2 Hm eq_refl HP0 HP). cbn [bind fst snd].
  set (cells := hcells rew_fn o1 src q2 (horizon - 1) (np_sort P) offs hsel).
  assert (HQ : forall k, k < length (np_sort P) -> nth k (np_sort P) 0 < length q2).
  { intros k Hk. apply HP, np_sort_In, nth_In, Hk. }
  assert (Hcell : forall c, In c cells -> snd (snd c) = fst (snd c) /\ fst (snd c) = row_at m (fst c)).
  { intros c Hc. apply in_hcells in Hc as (t & e & Ht & He & ->). unfold hcell.
    set (W := map (walk q2 (horizon - 1)) (np_sort P)) in *. rewrite Hsel. cbn [fst snd].
    assert (Hk : nth e (ep_opens W) 0 < length (np_sort P)).
    { rewrite <- (map_length (walk q2 (horizon - 1))). fold W. apply nth_opens_lt. intros E. rewrite E in He. cbn in He. lia. }
    set (w := walk q2 t _). assert (Hw : w < length q2) by (apply walk_lt, HQ, Hk).
    rewrite (row_at_pos n2 src q2 m w H2 Hm Hw). split; [|reflexivity].
    unfold rewrite_row. destruct (nth_error q2 w); reflexivity. }
  assert (Hid : write_rows m (map (fun c => (fst c, snd (snd c))) cells) = m).
  { apply nth_error_ext. intros i. rewrite (write_rows_fun (row_at m)).
    - destruct (nth_error m i) as [y|] eqn:E; [|reflexivity]. destruct (existsb _ _); [|reflexivity].
      unfold row_at. apply nth_error_nth with (d := None) in E. rewrite E. reflexivity.
    - intros c Hc. apply in_map_iff in Hc as (c' & <- & Hc'). cbn [fst snd]. destruct (Hcell c' Hc') as [E1 E2]. congruence. }
  rewrite Hid. cbn [h_buf].
  assert (Esrc : mkBuf (b_st src) (Some m) = src) by (destruct src as [s mm]; cbn in Hm |- *; rewrite Hm; reflexivity).
  rewrite Esrc, Eu. cbn [bind fst snd].
  eexists _, _, _. split; [reflexivity|]. cbn [restore_cache h_alt h_buf]. split; [reflexivity|].
  destruct (map (fun c => (fst c, fst (snd c))) cells) as [|a t] eqn:Ea; [reflexivity|]. cbn [h_buf].
  unfold restore_cache. cbn [h_alt h_buf]. rewrite Hm. cbn [option_map]. rewrite <- Esrc at 2. do 2 f_equal.
  rewrite <- Ea. rewrite <- Hid at 1. apply write_rows_undo. intros c Hc. apply Hcell, Hc.
Qed.
