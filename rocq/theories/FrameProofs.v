From Verif Require Import Py PyLemmas BufferModel BufferSpec BufferProofs BufferWalkProofs BufferMainProofs ManagerModel ManagerSpec ManagerProofs ManagerMainProofs FrameSpec.
Open Scope nat_scope.

Lemma nth_lastn {T} (d : T) k l j : k <= length l -> j < k -> nth j (lastn k l) d = nth (length l - k + j) l d.
Proof.
  intros H1 H2. destruct (nth_error (lastn k l) j) eqn:E.
  - rewrite (nth_error_nth _ _ d E). rewrite nth_error_lastn in E. rewrite (nth_error_nth _ _ d E). reflexivity.
  - apply nth_error_None in E. rewrite lastn_length in E. lia.
Qed.
Section Frame.
Context {F A Inf R : Type}.
Notation trans := (trans (list F) A Inf R).
Lemma shown_length k (fs : list F) : fs <> [] -> length (shown k fs) = k.
Proof. destruct fs as [|f0 fs]; [congruence|]. intros _. unfold shown. rewrite lastn_length, app_length, repeat_length. lia. Qed.
Lemma nth_shown d k (fs : list F) j : fs <> [] -> j < k -> nth j (shown k fs) d = nth (length fs + j - k) fs d.
Proof.
  destruct fs as [|f0 fs]; [congruence|]. intros _ H. unfold shown. rewrite nth_lastn by (rewrite ?app_length, ?repeat_length; lia).
  rewrite app_length, repeat_length. destruct (Nat.lt_ge_cases (k + length (f0 :: fs) - k + j) k) as [L|L].
  - rewrite app_nth1 by (rewrite repeat_length; lia). replace (length (f0 :: fs) + j - k) with 0 by lia. cbn [nth].
    rewrite nth_indep with (d' := f0) by (rewrite repeat_length; lia). apply nth_repeat.
  - rewrite app_nth2 by (rewrite repeat_length; lia). rewrite repeat_length. f_equal. lia.
Qed.
Definition isdone (t : trans) : bool := t_term t || t_trunc t.
Lemma begun_cons t (ts : list trans) g : begun (t :: ts) (S g) = if begun ts g =? 0 then (if isdone t then 1 else 0) else S (begun ts g).
Proof.
  induction g as [|g IH]; [reflexivity|]. cbn [begun] in *. cbn [nth_error]. match goal with |- (if ?b then _ else _) = _ => destruct b end; [reflexivity|]. exact IH.
Qed.
Lemma begun_le (ts : list trans) g : begun ts g <= g.
Proof. induction g as [|g IH]; [apply le_n|]. cbn [begun]. match goal with |- (if ?b then _ else _) <= _ => destruct b end; lia. Qed.
Variables (d : F) (k : nat).
Definition fr (ts : list trans) (j : nat) : F := match nth_error ts j with Some t => nth (k - 1) (t_obs t) d | None => d end.
Definition frn (t : trans) : F := nth (k - 1) (t_obs_next t) d.
Lemma newest fs : 0 < k -> fs <> [] -> nth (k - 1) (shown k fs) d = last fs d.
Proof.
  intros Hk H. rewrite nth_shown by (try assumption; lia). destruct (exists_last H) as (l & x & ->). rewrite last_last, app_length. cbn [length].
  rewrite app_nth2 by lia. replace (_ - _) with 0 by lia. reflexivity.
Qed.
Lemma framed_obs fs (ts : list trans) : 0 < k -> fs <> [] -> framed k fs ts -> forall g t, nth_error ts g = Some t ->
  let pre := (if begun ts g =? 0 then removelast fs else []) ++ map (fr ts) (seq (begun ts g) (S g - begun ts g)) in
  t_obs t = shown k pre /\ t_obs_next t = shown k (pre ++ [frn t])
  /\ (isdone t = false -> forall t', nth_error ts (S g) = Some t' -> t_obs t' = t_obs_next t).
Proof.
  intros Hk Hf H. induction H as [fs|fs t f ts E1 E2 D H IH|fs t f f0 ts E1 E2 D H IH]; intros g x Hg; [destruct g; discriminate|..].
  - destruct g as [|g].
    + injection Hg as <-. cbn [begun Nat.eqb Nat.sub seq map]. change (fr (t :: ts) 0) with (nth (k - 1) (t_obs t) d). rewrite E1, newest by assumption.
      rewrite <- (app_removelast_last d Hf). cbn zeta. split; [reflexivity|]. unfold frn. rewrite E2, newest by (try assumption; destruct fs; discriminate).
      rewrite last_last. split; [reflexivity|]. intros _ t' Ht'. cbn [nth_error] in Ht'.
      destruct ts as [|t1 ts]; [discriminate|]. injection Ht' as ->. inversion H; subst; assumption.
    + cbn [nth_error] in Hg. destruct (IH ltac:(destruct fs; discriminate) g x Hg) as (P1 & P2 & P3). cbn zeta in *.
      rewrite begun_cons. change (t_term t || t_trunc t) with (isdone t) in D. rewrite !D.
      assert (Q : (if begun ts g =? 0 then removelast (fs ++ [f]) else []) ++ map (fr ts) (seq (begun ts g) (S g - begun ts g))
        = (if (if begun ts g =? 0 then 0 else S (begun ts g)) =? 0 then removelast fs else [])
          ++ map (fr (t :: ts)) (seq (if begun ts g =? 0 then 0 else S (begun ts g)) (S (S g) - (if begun ts g =? 0 then 0 else S (begun ts g))))).
      { pose proof (begun_le ts g). destruct (Nat.eqb_spec (begun ts g) 0) as [E|E].
        - rewrite E, removelast_last. cbn [Nat.eqb]. rewrite !Nat.sub_0_r. change (seq 0 (S (S g))) with (0 :: seq 1 (S g)). cbn [map].
          change (fr (t :: ts) 0) with (nth (k - 1) (t_obs t) d). rewrite E1, newest by assumption. rewrite (app_removelast_last d Hf) at 1. rewrite <- app_assoc.
          f_equal. cbn [app]. f_equal. rewrite <- seq_shift, map_map. reflexivity.
        - cbn [Nat.eqb app]. replace (S (S g) - S (begun ts g)) with (S g - begun ts g) by lia. rewrite <- seq_shift, map_map. reflexivity. }
      rewrite <- Q. split; [exact P1|]. split; [exact P2|]. intros D' t' Ht'. apply P3; assumption.
  - destruct g as [|g].
    + injection Hg as <-. cbn [begun Nat.eqb Nat.sub seq map]. change (fr (t :: ts) 0) with (nth (k - 1) (t_obs t) d). rewrite E1, newest by assumption.
      rewrite <- (app_removelast_last d Hf). cbn zeta. split; [reflexivity|]. unfold frn. rewrite E2, newest by (try assumption; destruct fs; discriminate).
      rewrite last_last. split; [reflexivity|]. intros D'. unfold isdone in D'. congruence.
    + cbn [nth_error] in Hg. destruct (IH ltac:(discriminate) g x Hg) as (P1 & P2 & P3). cbn zeta in *.
      rewrite begun_cons. change (t_term t || t_trunc t) with (isdone t) in D. rewrite !D.
      assert (Q : (if begun ts g =? 0 then removelast [f0] else []) ++ map (fr ts) (seq (begun ts g) (S g - begun ts g))
        = (if (if begun ts g =? 0 then 1 else S (begun ts g)) =? 0 then removelast fs else [])
          ++ map (fr (t :: ts)) (seq (if begun ts g =? 0 then 1 else S (begun ts g)) (S (S g) - (if begun ts g =? 0 then 1 else S (begun ts g))))).
      { pose proof (begun_le ts g). destruct (Nat.eqb_spec (begun ts g) 0) as [E|E].
        - rewrite E. cbn [Nat.eqb removelast app]. rewrite !Nat.sub_0_r. replace (S (S g) - 1) with (S g) by lia. rewrite <- seq_shift, map_map. reflexivity.
        - cbn [Nat.eqb app]. replace (S (S g) - S (begun ts g)) with (S g - begun ts g) by lia. rewrite <- seq_shift, map_map. reflexivity. }
      rewrite <- Q. split; [exact P1|]. split; [exact P2|]. intros D' t' Ht'. apply P3; assumption.
Qed.
End Frame.
Lemma lastn1 {T} (d : T) l : l <> [] -> lastn 1 l = [nth (length l - 1) l d].
Proof.
  intros H. destruct (exists_last H) as (l' & x & ->). unfold lastn. rewrite app_length. cbn [length]. replace (length l' + 1 - 1) with (length l') by lia.
  rewrite skipn_app, skipn_all, Nat.sub_diag, app_nth2, Nat.sub_diag by lia. reflexivity.
Qed.
Lemma as_nth {T} (d : T) l : l = map (fun j => nth j l d) (seq 0 (length l)).
Proof.
  apply nth_error_ext. intros j. rewrite nth_error_map_seq. destruct (Nat.ltb_spec j (length l)) as [L|L].
  - rewrite Nat.add_0_l. apply nth_error_nth'. exact L.
  - apply nth_error_None. exact L.
Qed.
Section Buf.
Context {F A Inf R : Type}.
Variable r0 : R.
Variable radd : R -> R -> R.
Notation trans := (trans (list F) A Inf R).
Notation buf := (buf (list F) A Inf R).
Lemma adds_reach o n : 0 < n -> forall (ts : list trans) (b : buf) q b' outs, reach r0 radd (lastn 1) o n b q ->
  buf_run r0 radd (lastn 1) o b (map OpAdd ts) = Ok (b', outs) -> reach r0 radd (lastn 1) o n b' (push n q (map (kept (lastn 1) o) ts)).
Proof.
  intros Hn. induction ts as [|t ts IH]; intros b q b' outs Hr E.
  - cbn in E. injection E as <- <-. cbn [map]. rewrite push_nil; [exact Hr|]. destruct (reach_inv _ _ _ _ _ _ _ Hr Hn) as [[] L ? ? ?]. lia.
  - cbn [map buf_run] in E. destruct (add r0 radd (lastn 1) o b t) as [[b1 r]|e] eqn:Ea; [|discriminate]. cbn [bind fst snd] in E.
    destruct (buf_run r0 radd (lastn 1) o b1 (map OpAdd ts)) as [[b2 rs]|e] eqn:E2; [|discriminate]. cbn [bind fst snd] in E. injection E as <- <-.
    cbn [map]. change (kept (lastn 1) o t :: map (kept (lastn 1) o) ts) with ([kept (lastn 1) o t] ++ map (kept (lastn 1) o) ts). rewrite <- push_push. eapply IH; [|exact E2]. eapply reach_add; eassumption.
Qed.
End Buf.
Section Hist.
Context {F A Inf R : Type}.
Notation trans := (trans (list F) A Inf R).
Variables (o : opts) (n : nat) (ts : list trans) (f0 : F).
Let k := stack_num o.
Let old := length ts - n.
Let q := lastn n (map (kept (lastn 1) o) ts).
Hypothesis (Hk : 0 < k) (Ho : save_only_last_obs o = true) (Hf : framed k [f0] ts).
Lemma q_at i : nth_error q i = option_map (kept (lastn 1) o) (nth_error ts (old + i)).
Proof. subst q old. rewrite nth_error_lastn, map_length, nth_error_map. destruct (nth_error ts _); reflexivity. Qed.
Lemma q_first p : first_of q p = Nat.max (begun ts (old + p)) old - old.
Proof.
  induction p as [|p IH].
  - cbn [first_of]. rewrite Nat.add_0_r. pose proof (begun_le ts old). lia.
  - rewrite Nat.add_succ_r. cbn [first_of begun]. unfold qdone. rewrite q_at. destruct (nth_error ts (old + p)) as [t|]; cbn [option_map]; [|exact IH].
    cbn [kept s_done]. destruct (t_term t || t_trunc t); [lia|exact IH].
Qed.
Lemma row_frames i t : nth_error ts i = Some t -> lastn 1 (t_obs t) = [fr f0 k ts i] /\ lastn 1 (t_obs_next t) = [frn f0 k t]
  /\ length (t_obs t) = k /\ length (t_obs_next t) = k.
Proof.
  intros Hi. destruct (framed_obs f0 k [f0] ts Hk ltac:(discriminate) Hf i t Hi) as (P1 & P2 & _). cbn zeta in *.
  set (pre := (if begun ts i =? 0 then removelast [f0] else []) ++ map (fr f0 k ts) (seq (begun ts i) (S i - begun ts i))) in *.
  assert (Hp : pre <> []).
  { subst pre. pose proof (begun_le ts i). replace (S i - begun ts i) with (S (i - begun ts i)) by lia. cbn [seq map]. destruct (if begun ts i =? 0 then _ else _); discriminate. }
  assert (L1 : length (t_obs t) = k) by (rewrite P1; apply shown_length; exact Hp).
  assert (L2 : length (t_obs_next t) = k) by (rewrite P2; apply shown_length; destruct pre; discriminate).
  rewrite !(lastn1 f0) by (intros E; rewrite E in *; cbn in *; lia). rewrite L1, L2. unfold fr, frn. rewrite Hi. auto.
Qed.
Lemma frames_of i t : nth_error ts i = Some t -> t_obs t = map (fun j => fr f0 k ts (Nat.max (begun ts i) (S i + j - k))) (seq 0 k)
  /\ t_obs_next t = map (fun j => if S j =? k then frn f0 k t else fr f0 k ts (Nat.max (begun ts i) (S (S i) + j - k))) (seq 0 k).
Proof.
  intros Hi. destruct (row_frames i t Hi) as (_ & _ & L1 & L2). pose proof (begun_le ts i) as Hb.
  destruct (framed_obs f0 k [f0] ts Hk ltac:(discriminate) Hf i t Hi) as (P1 & P2 & _). cbn zeta in *.
  replace (if begun ts i =? 0 then removelast [f0] else []) with (@nil F) in * by (destruct (begun ts i =? 0); reflexivity). cbn [app] in *.
  set (pre := map (fr f0 k ts) (seq (begun ts i) (S i - begun ts i))) in *.
  assert (Hl : length pre = S i - begun ts i) by (subst pre; rewrite map_length, seq_length; reflexivity).
  assert (Hp : pre <> []) by (intros E; rewrite E in Hl; cbn [length] in Hl; lia).
  assert (Hn : forall m, m < length pre -> nth m pre f0 = fr f0 k ts (begun ts i + m)).
  { intros m Hm. subst pre. rewrite nth_indep with (d' := fr f0 k ts 0) by exact Hm. rewrite map_nth, seq_nth by lia. reflexivity. }
  split.
  - rewrite (as_nth f0 (t_obs t)), L1. apply map_ext_in. intros j Hj. apply in_seq in Hj. rewrite P1, nth_shown by (try exact Hp; lia).
    rewrite Hn by lia. f_equal. lia.
  - rewrite (as_nth f0 (t_obs_next t)), L2. apply map_ext_in. intros j Hj. apply in_seq in Hj. rewrite P2, nth_shown by (try lia; destruct pre; discriminate).
    rewrite app_length. cbn [length]. destruct (Nat.eqb_spec (S j) k) as [E|E].
    + rewrite app_nth2 by lia. replace (_ - length pre) with 0 by lia. reflexivity.
    + rewrite app_nth1 by lia. rewrite Hn by lia. f_equal. lia.
Qed.
Lemma q_row i t : nth_error ts (old + i) = Some t ->
  nth_error q i = Some (kept (lastn 1) o t) /\ s_obs (kept (lastn 1) o t) = [fr f0 k ts (old + i)]
  /\ s_obs_next (kept (lastn 1) o t) = if save_obs_next o then Some [frn f0 k t] else None.
Proof.
  intros Hi. rewrite q_at, Hi. split; [reflexivity|]. destruct (row_frames _ _ Hi) as (P1 & P2 & _). unfold kept. cbn [s_obs s_obs_next]. rewrite Ho, P1, P2. auto.
Qed.
End Hist.
(** What is read at a position of the queue, as in C06 and C57. *)
Definition out_of {F A Inf R : Type} (o : opts) (q : list (slot (list F) A Inf R)) (p : nat) : row_out (list F) A Inf R :=
  let stack p := map (fun j => nth_error q (Nat.max (first_of q p) (p - (stack_num o - 1 - j)))) (seq 0 (stack_num o)) in
  {| o_obs := map (option_map s_obs) (stack p);
     o_cur := nth_error q p;
     o_obs_next := if save_obs_next o
                   then map (fun x => match x with Some s => s_obs_next s | None => None end) (stack p)
                   else map (option_map s_obs) (stack (succ_of q p));
     o_info := map (option_map s_info) (stack p) |}.
Lemma q_len (F A Inf R : Type) o n (ts : list (trans (list F) A Inf R)) p t : nth_error ts (length ts - n + p) = Some t -> p < length (lastn n (map (kept (lastn 1) o) ts)).
Proof. intros H. rewrite lastn_length, map_length. assert (length ts - n + p < length ts) by (apply nth_error_Some; congruence). lia. Qed.
Lemma read_ok (F A Inf R : Type) o n (ts : list (trans (list F) A Inf R)) f0 p t :
  0 < n -> save_only_last_obs o = true -> 0 < stack_num o -> framed (stack_num o) [f0] ts ->
  let old := length ts - n in let k := stack_num o in
  nth_error ts (old + p) = Some t ->
  let from g := Nat.max (begun ts g) old in
  let later := if (S (old + p) =? length ts) || isdone t then old + p else S (old + p) in
  let out := out_of o (lastn n (map (kept (lastn 1) o) ts)) p in
  o_obs out = map (fun j => Some [fr f0 k ts (Nat.max (from (old + p)) (S (old + p) + j - k))]) (seq 0 k)
  /\ (save_obs_next o = true -> o_obs_next out = map (fun j => option_map (fun x => [frn f0 k x]) (nth_error ts (Nat.max (from (old + p)) (S (old + p) + j - k)))) (seq 0 k))
  /\ (save_obs_next o = false -> o_obs_next out = map (fun j => Some [fr f0 k ts (Nat.max (from later) (S later + j - k))]) (seq 0 k)).
Proof.
  intros Hn Ho Hk Hf old k Ht from later out. subst out. set (q := lastn n (map (kept (lastn 1) o) ts)) in *.
  assert (Hp : p < length q) by exact (q_len F A Inf R o n ts p t Ht).
  assert (Hlen : length q = length ts - old) by (subst q old; rewrite lastn_length, map_length; lia).
  assert (Hold : old + p < length ts) by (apply nth_error_Some; congruence).
  unfold out_of. cbn zeta. cbn [o_obs o_obs_next].
  assert (St : forall g, g < length q -> forall j, j < k ->
     exists x, nth_error ts (Nat.max (from (old + g)) (S (old + g) + j - k)) = Some x
     /\ nth_error q (Nat.max (first_of q g) (g - (k - 1 - j))) = Some (kept (lastn 1) o x)
     /\ s_obs (kept (lastn 1) o x) = [fr f0 k ts (Nat.max (from (old + g)) (S (old + g) + j - k))]
     /\ s_obs_next (kept (lastn 1) o x) = if save_obs_next o then Some [frn f0 k x] else None).
  { intros g Hg j Hj. subst q. rewrite (q_first o n ts) by assumption. fold old. pose proof (begun_le ts (old + g)) as Hb.
    assert (Ei : Nat.max (from (old + g)) (S (old + g) + j - k) = old + Nat.max (Nat.max (begun ts (old + g)) old - old) (g - (k - 1 - j))).
    { subst from. cbn beta. lia. }
    rewrite Ei. set (i := Nat.max (Nat.max (begun ts (old + g)) old - old) (g - (k - 1 - j))) in *.
    destruct (nth_error ts (old + i)) as [x|] eqn:Ex; [|apply nth_error_None in Ex; subst i; lia].
    exists x. split; [reflexivity|]. exact (q_row o n ts f0 Hk Ho Hf i x Ex). }
  split; [|split].
  - rewrite map_map. apply map_ext_in. intros j Hj. apply in_seq in Hj. destruct (St p Hp j ltac:(unfold k; lia)) as (x & E1 & E2 & E3 & E4).
    unfold k in *. rewrite E2. cbn [option_map]. rewrite E3. reflexivity.
  - intros Hs. rewrite Hs. rewrite map_map. apply map_ext_in. intros j Hj. apply in_seq in Hj. destruct (St p Hp j ltac:(unfold k; lia)) as (x & E1 & E2 & E3 & E4).
    unfold k in *. rewrite E2, E4, Hs, E1. reflexivity.
  - intros Hs. rewrite Hs. assert (El : later = old + succ_of q p /\ succ_of q p < length q).
    { unfold succ_of, qdone. subst q. rewrite (q_at o n ts) by assumption. fold old. rewrite Ht. cbn [option_map kept s_done]. subst later. unfold isdone.
      rewrite Hlen in *. destruct (Nat.eqb_spec (S p) (length ts - old)), (Nat.eqb_spec (S (old + p)) (length ts)); cbn [orb]; try lia.
      destruct (t_term t || t_trunc t); lia. }
    destruct El as [El Hl]. rewrite map_map. apply map_ext_in. intros j Hj. apply in_seq in Hj. destruct (St _ Hl j ltac:(unfold k; lia)) as (x & E1 & E2 & E3 & E4).
    unfold k in *. rewrite E2. cbn [option_map]. rewrite E3, El. reflexivity.
Qed.

Lemma core_obs_partial : forall (F A Inf R : Type) o n (ts : list (trans (list F) A Inf R)) f0 p t,
  0 < n -> save_only_last_obs o = true -> 0 < stack_num o -> framed (stack_num o) [f0] ts ->
  let old := length ts - n in let out := out_of o (lastn n (map (kept (lastn 1) o) ts)) p in
  nth_error ts (old + p) = Some t ->
  old <= begun ts (old + p) \/ old + stack_num o <= S (old + p) ->
  o_obs out = map (fun f => Some [f]) (t_obs t).
Proof.
  intros F A Inf R o n ts f0 p t Hn Ho Hk Hf old out Ht Hc.
  destruct (read_ok F A Inf R o n ts f0 p t Hn Ho Hk Hf Ht) as (E2 & _). fold old in E2. fold out in E2.
  rewrite E2. destruct (frames_of o n ts f0 Hk Hf _ _ Ht) as (P & _). rewrite P, map_map.
  apply map_ext_in. intros j Hj. apply in_seq in Hj. do 3 f_equal. pose proof (begun_le ts (old + p)). lia.
Qed.
Lemma core_next_kept_partial : forall (F A Inf R : Type) o n (ts : list (trans (list F) A Inf R)) f0 p t,
  0 < n -> save_only_last_obs o = true -> 0 < stack_num o -> framed (stack_num o) [f0] ts ->
  let old := length ts - n in let out := out_of o (lastn n (map (kept (lastn 1) o) ts)) p in
  nth_error ts (old + p) = Some t -> save_obs_next o = true ->
  Nat.max old (begun ts (old + p)) + stack_num o <= S (old + p) ->
  o_obs_next out = map (fun f => Some [f]) (t_obs_next t).
Proof.
  intros F A Inf R o n ts f0 p t Hn Ho Hk Hf old out Ht Hs Hc.
  destruct (read_ok F A Inf R o n ts f0 p t Hn Ho Hk Hf Ht) as (_ & E2 & _). fold old in E2. fold out in E2.
  rewrite (E2 Hs). destruct (frames_of o n ts f0 Hk Hf _ _ Ht) as (_ & P). rewrite P, map_map.
  apply map_ext_in. intros j Hj. apply in_seq in Hj. pose proof (begun_le ts (old + p)) as Hb.
  replace (Nat.max (Nat.max (begun ts (old + p)) old) (S (old + p) + j - stack_num o)) with (S (old + p) + j - stack_num o) by lia.
  destruct (Nat.eqb_spec (S j) (stack_num o)) as [Ej|Ej].
  - replace (S (old + p) + j - stack_num o) with (old + p) by lia. rewrite Ht. reflexivity.
  - assert (Hold : old + p < length ts) by (apply nth_error_Some; congruence).
    set (i := S (old + p) + j - stack_num o) in *.
    destruct (nth_error ts i) as [x|] eqn:Ex; [|apply nth_error_None in Ex; subst i; lia].
    destruct (nth_error ts (S i)) as [y|] eqn:Ey; [|apply nth_error_None in Ey; subst i; lia].
    assert (D : isdone x = false).
    { destruct (isdone x) eqn:D; [|reflexivity]. exfalso. assert (Q : forall g, i < g -> S i <= begun ts g).
      { induction g as [|g IH]; [lia|]. intros Hg. cbn [begun]. destruct (Nat.eq_dec i g) as [<-|Ng].
        - rewrite Ex. unfold isdone in D. rewrite D. lia.
        - specialize (IH ltac:(lia)). match goal with |- _ <= (if ?b then _ else _) => destruct b end; lia. }
      specialize (Q (old + p) ltac:(subst i; lia)). subst i. lia. }
    destruct (framed_obs f0 (stack_num o) [f0] ts Hk ltac:(discriminate) Hf i x Ex) as (_ & _ & P3). specialize (P3 D y Ey).
    cbn [option_map]. replace (Nat.max (begun ts (old + p)) (S (S (old + p)) + j - stack_num o)) with (S i) by (subst i; lia).
    unfold fr, frn. rewrite Ey, P3. reflexivity.
Qed.
Lemma core_next_read_partial : forall (F A Inf R : Type) o n (ts : list (trans (list F) A Inf R)) f0 p t,
  0 < n -> save_only_last_obs o = true -> 0 < stack_num o -> framed (stack_num o) [f0] ts ->
  let old := length ts - n in let out := out_of o (lastn n (map (kept (lastn 1) o) ts)) p in
  nth_error ts (old + p) = Some t -> save_obs_next o = false ->
  t_term t || t_trunc t = false -> S (old + p) < length ts ->
  old <= begun ts (old + p) \/ old + stack_num o <= S (S (old + p)) ->
  o_obs_next out = map (fun f => Some [f]) (t_obs_next t).
Proof.
  intros F A Inf R o n ts f0 p t Hn Ho Hk Hf old out Ht Hs D Hl Hc.
  destruct (read_ok F A Inf R o n ts f0 p t Hn Ho Hk Hf Ht) as (_ & _ & E2). fold old in E2. fold out in E2.
  rewrite (E2 Hs). change (isdone t = false) in D. rewrite D. destruct (Nat.eqb_spec (S (old + p)) (length ts)) as [X|_]; [lia|]. cbn [orb].
  destruct (nth_error ts (S (old + p))) as [y|] eqn:Ey; [|apply nth_error_None in Ey; lia].
  destruct (framed_obs f0 (stack_num o) [f0] ts Hk ltac:(discriminate) Hf _ _ Ht) as (_ & _ & P3). rewrite <- (P3 D y Ey).
  destruct (frames_of o n ts f0 Hk Hf _ _ Ey) as (P & _). rewrite P, map_map.
  apply map_ext_in. intros j Hj. apply in_seq in Hj. do 3 f_equal.
  assert (B : begun ts (S (old + p)) = begun ts (old + p)) by (cbn [begun]; rewrite Ht; unfold isdone in D; rewrite D; reflexivity). rewrite B.
  pose proof (begun_le ts (old + p)). lia.
Qed.
Lemma core_next_kept_refuted : forall (F A Inf R : Type) o n (ts : list (trans (list F) A Inf R)) f0 p t f f',
  0 < n -> save_only_last_obs o = true -> 2 <= stack_num o -> framed (stack_num o) [f0] ts ->
  let old := length ts - n in let out := out_of o (lastn n (map (kept (lastn 1) o) ts)) p in
  nth_error ts (old + p) = Some t -> save_obs_next o = true ->
  begun ts (old + p) = old + p -> t_obs_next t = shown (stack_num o) [f; f'] -> f <> f' ->
  o_obs_next out = repeat (Some [f']) (stack_num o)
  /\ o_obs_next out <> map (fun x => Some [x]) (t_obs_next t).
Proof.
  intros F A Inf R o n ts f0 p t f f' Hn Ho Hk Hf old out Ht Hs Hb Hx Hd.
  destruct (read_ok F A Inf R o n ts f0 p t Hn Ho ltac:(lia) Hf Ht) as (_ & E2 & _). fold old in E2. fold out in E2.
  rewrite (E2 Hs).
  assert (Q : map (fun j => option_map (fun x => [frn f0 (stack_num o) x]) (nth_error ts (Nat.max (Nat.max (begun ts (old + p)) old) (S (old + p) + j - stack_num o)))) (seq 0 (stack_num o))
    = repeat (Some [f']) (stack_num o)).
  { rewrite (map_ext_in _ (fun _ => Some [f'])).
    - generalize 0. clear. induction (stack_num o) as [|m IH]; intros a; cbn [seq map repeat]; [reflexivity|]. f_equal. apply IH.
    - intros j Hj. apply in_seq in Hj. rewrite Hb. replace (Nat.max (Nat.max (old + p) old) (S (old + p) + j - stack_num o)) with (old + p) by lia. rewrite Ht. cbn [option_map].
      do 2 f_equal. unfold frn. rewrite Hx. rewrite newest by (try lia; discriminate). reflexivity. }
  rewrite Q. split; [reflexivity|]. rewrite Hx. intros X. apply (f_equal (fun l => nth_error l 0)) in X. rewrite nth_error_map in X.
  assert (N : nth_error (shown (stack_num o) [f; f']) 0 = Some f).
  { rewrite nth_error_nth' with (d := f); [|rewrite shown_length by discriminate; lia]. rewrite nth_shown by (try discriminate; lia). cbn [length].
    replace (2 + 0 - stack_num o) with 0 by lia. reflexivity. }
  rewrite N in X. destruct (stack_num o) as [|m] eqn:Ek; [lia|]. cbn in X. congruence.
Qed.
Lemma buf_read (F A Inf R : Type) (r0 : R) radd o n (ts : list (trans (list F) A Inf R)) (b0 b : buf (list F) A Inf R) outs rnd idx p t :
  0 < n -> 0 < stack_num o -> reach r0 radd (lastn 1) o n b0 [] -> buf_run r0 radd (lastn 1) o b0 (map OpAdd ts) = Ok (b, outs) ->
  sample_indices plain b rnd (Some 0%Z) = Ok idx -> nth_error ts (length ts - n + p) = Some t ->
  getitem o b [Z.of_nat (nth p idx 0)] = Ok [out_of o (lastn n (map (kept (lastn 1) o) ts)) p].
Proof.
  intros Hn Hk Hr E Hi Ht. pose proof (adds_reach r0 radd o n Hn ts b0 [] b outs Hr E) as Hq. unfold push in Hq. cbn [app] in Hq. pose proof (q_len F A Inf R o n ts p t Ht) as Hp.
  exact (C06_stacking_lemma _ _ _ _ r0 radd (lastn 1) o n b _ rnd idx [p] Hn Hk Hq ltac:(intros Q; rewrite Q in Hp; cbn in Hp; lia) Hi ltac:(intros x [<-|[]]; exact Hp)).
Qed.
Lemma queue_adds (F A Inf R : Type) o n (ts : list (trans (list F) A Inf R)) : forall q, length q <= n -> queue_from (lastn 1) o n q (map OpAdd ts) = push n q (map (kept (lastn 1) o) ts).
Proof.
  induction ts as [|t ts IH]; intros q H; cbn [map queue_from]; [rewrite push_nil by exact H; reflexivity|]. rewrite IH by (rewrite push_length; lia).
  rewrite push_push. reflexivity.
Qed.
Lemma mgr_read (F A Inf R : Type) (r0 : R) radd o ns (ops : list (mop (list F) A Inf R)) m outs e n (ts : list (trans (list F) A Inf R)) p t :
  (forall x, In x ns -> 0 < x) -> nth_error ns e = Some n -> 0 < stack_num o -> m_run r0 radd (lastn 1) o (m_init r0 ns) ops = Ok (m, outs) -> received ns ops e ts ->
  nth_error ts (length ts - n + p) = Some t ->
  m_getitem o m [Z.of_nat (maddress ns ops (e, p))] = Ok [out_of o (lastn n (map (kept (lastn 1) o) ts)) p].
Proof.
  intros Hns He Hk E Hrec Ht. pose proof (q_len F A Inf R o n ts p t Ht) as Hp.
  assert (Hq : mqueue (lastn 1) o ns ops e = lastn n (map (kept (lastn 1) o) ts)).
  { unfold mqueue. rewrite He. unfold queue. destruct Hrec as [->|(pre & keep & ->)].
    - rewrite queue_adds by (cbn; lia). reflexivity.
    - generalize (@nil (slot (list F) A Inf R)) at 1. induction pre as [|op pre IH]; intros q.
      + cbn [app queue_from]. rewrite queue_adds by (cbn; lia). reflexivity.
      + cbn [app queue_from]. destruct op; apply IH. }
  pose proof (C57_stacking_lemma _ _ _ _ r0 radd (lastn 1) o ns ops m outs [(e, p)] Hns Hk E ltac:(discriminate)) as S. cbn zeta in S. cbn [map fst snd] in S. rewrite Hq in S.
  apply S. intros x [<-|[]]. cbn [fst snd]. rewrite Hq. exact Hp.
Qed.

(** C368. Read with the number of frames the environment stacks, a buffer that keeps only the newest frame shows an observation as it was added:
    as long as the beginning of its episode, or the rows of its frames, are stored. *)
Lemma C368_obs_partial_lemma : forall (F A Inf R : Type) (r0 : R) radd o n (ts : list (trans (list F) A Inf R)) f0 (b0 b : buf (list F) A Inf R) outs rnd idx p t,
  0 < n -> save_only_last_obs o = true -> 0 < stack_num o -> framed (stack_num o) [f0] ts ->
  reach r0 radd (lastn 1) o n b0 [] -> buf_run r0 radd (lastn 1) o b0 (map OpAdd ts) = Ok (b, outs) ->
  sample_indices plain b rnd (Some 0%Z) = Ok idx ->
  let old := length ts - n in
  nth_error ts (old + p) = Some t ->
  old <= begun ts (old + p) \/ old + stack_num o <= S (old + p) ->
  exists out, getitem o b [Z.of_nat (nth p idx 0)] = Ok [out] /\ o_obs out = map (fun f => Some [f]) (t_obs t).
Proof.
  intros F A Inf R r0 radd o n ts f0 b0 b outs rnd idx p t Hn Ho Hk Hf Hr E Hi old Ht Hc. eexists. split; [eapply (buf_read F A Inf R r0 radd o n ts b0 b outs rnd idx p t); try assumption; lia|].
  apply (core_obs_partial F A Inf R o n ts f0 p t); assumption.
Qed.
(** C368. The same holds of the next observation that is kept, when the episode has stored as many transitions as there are frames. *)
Lemma C368_next_kept_partial_lemma : forall (F A Inf R : Type) (r0 : R) radd o n (ts : list (trans (list F) A Inf R)) f0 (b0 b : buf (list F) A Inf R) outs rnd idx p t,
  0 < n -> save_only_last_obs o = true -> 0 < stack_num o -> framed (stack_num o) [f0] ts ->
  reach r0 radd (lastn 1) o n b0 [] -> buf_run r0 radd (lastn 1) o b0 (map OpAdd ts) = Ok (b, outs) ->
  sample_indices plain b rnd (Some 0%Z) = Ok idx ->
  let old := length ts - n in
  nth_error ts (old + p) = Some t -> save_obs_next o = true ->
  Nat.max old (begun ts (old + p)) + stack_num o <= S (old + p) ->
  exists out, getitem o b [Z.of_nat (nth p idx 0)] = Ok [out] /\ o_obs_next out = map (fun f => Some [f]) (t_obs_next t).
Proof.
  intros F A Inf R r0 radd o n ts f0 b0 b outs rnd idx p t Hn Ho Hk Hf Hr E Hi old Ht Hs Hc. eexists. split; [eapply (buf_read F A Inf R r0 radd o n ts b0 b outs rnd idx p t); try assumption; lia|].
  apply (core_next_kept_partial F A Inf R o n ts f0 p t); assumption.
Qed.
(** C368. When next observations are not kept it holds of those read from the transition that follows in the episode. *)
Lemma C368_next_read_partial_lemma : forall (F A Inf R : Type) (r0 : R) radd o n (ts : list (trans (list F) A Inf R)) f0 (b0 b : buf (list F) A Inf R) outs rnd idx p t,
  0 < n -> save_only_last_obs o = true -> 0 < stack_num o -> framed (stack_num o) [f0] ts ->
  reach r0 radd (lastn 1) o n b0 [] -> buf_run r0 radd (lastn 1) o b0 (map OpAdd ts) = Ok (b, outs) ->
  sample_indices plain b rnd (Some 0%Z) = Ok idx ->
  let old := length ts - n in
  nth_error ts (old + p) = Some t -> save_obs_next o = false ->
  t_term t || t_trunc t = false -> S (old + p) < length ts ->
  old <= begun ts (old + p) \/ old + stack_num o <= S (S (old + p)) ->
  exists out, getitem o b [Z.of_nat (nth p idx 0)] = Ok [out] /\ o_obs_next out = map (fun f => Some [f]) (t_obs_next t).
Proof.
  intros F A Inf R r0 radd o n ts f0 b0 b outs rnd idx p t Hn Ho Hk Hf Hr E Hi old Ht Hs D Hl Hc. eexists. split; [eapply (buf_read F A Inf R r0 radd o n ts b0 b outs rnd idx p t); try assumption; lia|].
  apply (core_next_read_partial F A Inf R o n ts f0 p t); assumption.
Qed.
(** C368. But the kept next observation of an episode's first transition is read as the newest frame alone, so it is not the one that was added
    whenever two or more frames are stacked and the first two frames differ. *)
Lemma C368_next_kept_refuted_lemma : forall (F A Inf R : Type) (r0 : R) radd o n (ts : list (trans (list F) A Inf R)) f0 (b0 b : buf (list F) A Inf R) outs rnd idx p t f f',
  0 < n -> save_only_last_obs o = true -> 2 <= stack_num o -> framed (stack_num o) [f0] ts ->
  reach r0 radd (lastn 1) o n b0 [] -> buf_run r0 radd (lastn 1) o b0 (map OpAdd ts) = Ok (b, outs) ->
  sample_indices plain b rnd (Some 0%Z) = Ok idx ->
  let old := length ts - n in
  nth_error ts (old + p) = Some t -> save_obs_next o = true ->
  begun ts (old + p) = old + p -> t_obs_next t = shown (stack_num o) [f; f'] -> f <> f' ->
  exists out, getitem o b [Z.of_nat (nth p idx 0)] = Ok [out] /\ o_obs_next out = repeat (Some [f']) (stack_num o)
  /\ o_obs_next out <> map (fun x => Some [x]) (t_obs_next t).
Proof.
  intros F A Inf R r0 radd o n ts f0 b0 b outs rnd idx p t f f' Hn Ho Hk Hf Hr E Hi old Ht Hs Hb Hx Hd. eexists. split; [eapply (buf_read F A Inf R r0 radd o n ts b0 b outs rnd idx p t); try assumption; lia|].
  apply (core_next_kept_refuted F A Inf R o n ts f0 p t f f'); assumption.
Qed.
(** C368. Observations read from a vector buffer: the same, for each sub-buffer. *)
Lemma C368_vector_obs_partial_lemma : forall (F A Inf R : Type) (r0 : R) radd o ns (ops : list (mop (list F) A Inf R)) m outs e n (ts : list (trans (list F) A Inf R)) f0 p t,
  (forall x, In x ns -> 0 < x) -> nth_error ns e = Some n -> save_only_last_obs o = true -> 0 < stack_num o -> framed (stack_num o) [f0] ts ->
  m_run r0 radd (lastn 1) o (m_init r0 ns) ops = Ok (m, outs) -> received ns ops e ts ->
  let old := length ts - n in
  nth_error ts (old + p) = Some t ->
  old <= begun ts (old + p) \/ old + stack_num o <= S (old + p) ->
  exists out, m_getitem o m [Z.of_nat (maddress ns ops (e, p))] = Ok [out] /\ o_obs out = map (fun f => Some [f]) (t_obs t).
Proof.
  intros F A Inf R r0 radd o ns ops m outs e n ts f0 p t Hns He Ho Hk Hf E Hrec old Ht Hc. assert (Hn : 0 < n) by (apply Hns; eapply nth_error_In; exact He).
  eexists. split; [eapply (mgr_read F A Inf R r0 radd o ns ops m outs e n ts p t); try assumption; lia|].
  apply (core_obs_partial F A Inf R o n ts f0 p t); assumption.
Qed.
(** C368. Kept next observations of a vector buffer. *)
Lemma C368_vector_next_kept_partial_lemma : forall (F A Inf R : Type) (r0 : R) radd o ns (ops : list (mop (list F) A Inf R)) m outs e n (ts : list (trans (list F) A Inf R)) f0 p t,
  (forall x, In x ns -> 0 < x) -> nth_error ns e = Some n -> save_only_last_obs o = true -> 0 < stack_num o -> framed (stack_num o) [f0] ts ->
  m_run r0 radd (lastn 1) o (m_init r0 ns) ops = Ok (m, outs) -> received ns ops e ts ->
  let old := length ts - n in
  nth_error ts (old + p) = Some t -> save_obs_next o = true ->
  Nat.max old (begun ts (old + p)) + stack_num o <= S (old + p) ->
  exists out, m_getitem o m [Z.of_nat (maddress ns ops (e, p))] = Ok [out] /\ o_obs_next out = map (fun f => Some [f]) (t_obs_next t).
Proof.
  intros F A Inf R r0 radd o ns ops m outs e n ts f0 p t Hns He Ho Hk Hf E Hrec old Ht Hs Hc. assert (Hn : 0 < n) by (apply Hns; eapply nth_error_In; exact He).
  eexists. split; [eapply (mgr_read F A Inf R r0 radd o ns ops m outs e n ts p t); try assumption; lia|].
  apply (core_next_kept_partial F A Inf R o n ts f0 p t); assumption.
Qed.
(** C368. Next observations of a vector buffer that does not keep them. *)
Lemma C368_vector_next_read_partial_lemma : forall (F A Inf R : Type) (r0 : R) radd o ns (ops : list (mop (list F) A Inf R)) m outs e n (ts : list (trans (list F) A Inf R)) f0 p t,
  (forall x, In x ns -> 0 < x) -> nth_error ns e = Some n -> save_only_last_obs o = true -> 0 < stack_num o -> framed (stack_num o) [f0] ts ->
  m_run r0 radd (lastn 1) o (m_init r0 ns) ops = Ok (m, outs) -> received ns ops e ts ->
  let old := length ts - n in
  nth_error ts (old + p) = Some t -> save_obs_next o = false ->
  t_term t || t_trunc t = false -> S (old + p) < length ts ->
  old <= begun ts (old + p) \/ old + stack_num o <= S (S (old + p)) ->
  exists out, m_getitem o m [Z.of_nat (maddress ns ops (e, p))] = Ok [out] /\ o_obs_next out = map (fun f => Some [f]) (t_obs_next t).
Proof.
  intros F A Inf R r0 radd o ns ops m outs e n ts f0 p t Hns He Ho Hk Hf E Hrec old Ht Hs D Hl Hc. assert (Hn : 0 < n) by (apply Hns; eapply nth_error_In; exact He).
  eexists. split; [eapply (mgr_read F A Inf R r0 radd o ns ops m outs e n ts p t); try assumption; lia|].
  apply (core_next_read_partial F A Inf R o n ts f0 p t); assumption.
Qed.
(** C368. The next observation of an episode's first transition is read wrongly from a vector buffer too. *)
Lemma C368_vector_next_kept_refuted_lemma : forall (F A Inf R : Type) (r0 : R) radd o ns (ops : list (mop (list F) A Inf R)) m outs e n (ts : list (trans (list F) A Inf R)) f0 p t f f',
  (forall x, In x ns -> 0 < x) -> nth_error ns e = Some n -> save_only_last_obs o = true -> 2 <= stack_num o -> framed (stack_num o) [f0] ts ->
  m_run r0 radd (lastn 1) o (m_init r0 ns) ops = Ok (m, outs) -> received ns ops e ts ->
  let old := length ts - n in
  nth_error ts (old + p) = Some t -> save_obs_next o = true ->
  begun ts (old + p) = old + p -> t_obs_next t = shown (stack_num o) [f; f'] -> f <> f' ->
  exists out, m_getitem o m [Z.of_nat (maddress ns ops (e, p))] = Ok [out] /\ o_obs_next out = repeat (Some [f']) (stack_num o)
  /\ o_obs_next out <> map (fun x => Some [x]) (t_obs_next t).
Proof.
  intros F A Inf R r0 radd o ns ops m outs e n ts f0 p t f f' Hns He Ho Hk Hf E Hrec old Ht Hs Hb Hx Hd. assert (Hn : 0 < n) by (apply Hns; eapply nth_error_In; exact He).
  eexists. split; [eapply (mgr_read F A Inf R r0 radd o ns ops m outs e n ts p t); try assumption; lia|].
  apply (core_next_kept_refuted F A Inf R o n ts f0 p t f f'); assumption.
Qed.
