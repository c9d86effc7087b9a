(** * Proofs about renumbered environments *)
From Verif Require Import Py PyLemmas BufferModel BufferSpec BufferProofs BufferWalkProofs ManagerModel CachedModel CachedSpec CachedMainProofs CrenSpec.
Open Scope nat_scope.

Section Cren.
Context {Ob A Inf R : Type}.
Variable r0 : R.
Variable radd : R -> R -> R.
Variable last_frame : Ob -> Ob.
Notation trans := (trans Ob A Inf R).
Notation cst := (cst Ob A Inf R).
Notation d := (@nil (slot Ob A Inf R), @nil R).

Definition alike (num num' : nat) (s : nat -> nat) (st st' : cst) : Prop :=
  c_fin st' = c_fin st /\ length (c_cur st) = num /\ length (c_cur st') = num' /\ forall k, k < num -> nth (s k) (c_cur st') d = nth k (c_cur st) d.

Lemma moved_cache n0 c s k j : j < c -> moved_to n0 c s (Z.of_nat (n0 + k * c + j)) = Z.of_nat (n0 + s k * c + j).
Proof. clear r0 radd last_frame.
  intros H. unfold moved_to. destruct (Z.ltb_spec (Z.of_nat (n0 + k * c + j)) (Z.of_nat n0)); [lia|]. rewrite Nat2Z.id.
  replace (n0 + k * c + j - n0) with (j + k * c) by lia. rewrite Nat.div_add, Nat.mod_add, Nat.div_small, Nat.mod_small by lia. reflexivity.
Qed.
Lemma moved_main n0 c s j : j < n0 -> moved_to n0 c s (Z.of_nat j) = Z.of_nat j.
Proof. clear r0 radd last_frame. intros H. unfold moved_to. destruct (Z.ltb_spec (Z.of_nat j) (Z.of_nat n0)); [reflexivity|lia]. Qed.
Lemma nth_upd' {T} (l : list T) i j x (z : T) : i < length l -> nth j (upd l i x) z = if j =? i then x else nth j l z.
Proof. clear r0 radd last_frame.
  intros Hi. destruct (Nat.eqb_spec j i) as [->|H].
  - apply nth_error_nth. rewrite nth_error_upd, Nat.eqb_refl. destruct (Nat.ltb_spec i (length l)); [reflexivity|lia].
  - destruct (nth_error l j) as [y|] eqn:E.
    + rewrite (nth_error_nth l j z E). apply nth_error_nth. rewrite nth_error_upd. destruct (Nat.eqb_spec i j); [lia|exact E].
    + apply nth_error_None in E. rewrite !nth_overflow by (rewrite ?upd_length; lia). reflexivity.
Qed.
Lemma alike_upd num num' s (st st' : cst) fin fin' k x : placed num num' s -> alike num num' s st st' -> k < num -> fin' = fin ->
  alike num num' s (mkCst fin (upd (c_cur st) k x)) (mkCst fin' (upd (c_cur st') (s k) x)).
Proof. clear r0 radd last_frame.
  intros [S1 S2] (A1 & A2 & A3 & A4) Hk ->. unfold alike. cbn [c_fin c_cur]. rewrite !upd_length. repeat split; try assumption.
  intros j Hj. pose proof (S1 k Hk). rewrite !nth_upd' by lia. destruct (Nat.eqb_spec j k) as [->|Hne]; [rewrite Nat.eqb_refl; reflexivity|].
  destruct (Nat.eqb_spec (s j) (s k)) as [Q|Q]; [apply S2 in Q; [contradiction|assumption..]|apply A4; exact Hj].
Qed.
Lemma event_alike o n0 c num num' s (st st' : cst) k t : 0 < n0 -> 0 < c -> placed num num' s -> alike num num' s st st' -> k < num ->
  alike num num' s (fst (c_event r0 radd last_frame o n0 c st k t)) (fst (c_event r0 radd last_frame o n0 c st' (s k) t))
  /\ snd (c_event r0 radd last_frame o n0 c st' (s k) t) = report_to n0 c s (snd (c_event r0 radd last_frame o n0 c st k t)).
Proof.
  intros Hn Hc Hs Ha Hk. pose proof Ha as (A1 & A2 & A3 & A4). unfold c_event. rewrite (A4 k Hk). destruct (nth k (c_cur st) d) as [e rews].
  destruct (t_term t || t_trunc t); cbn [fst snd].
  - split; [apply alike_upd; try assumption; rewrite A1; reflexivity|]. unfold report_to, c_moved. rewrite A1.
    rewrite !moved_main by (apply Nat.mod_upper_bound; lia). reflexivity.
  - split; [apply alike_upd; assumption|]. unfold report_to. rewrite moved_cache by (apply Nat.mod_upper_bound; lia).
    replace (n0 + k * c) with (n0 + k * c + 0) by lia. rewrite moved_cache by lia. rewrite Nat.add_0_r. reflexivity.
Qed.
Lemma events_alike o n0 c num num' s : 0 < n0 -> 0 < c -> placed num num' s -> forall ids ts (st st' : cst), alike num num' s st st' -> (forall i, In i ids -> (0 <= i < Z.of_nat num)%Z) ->
  let '(r, rs) := c_events r0 radd last_frame o n0 c st (combine ids ts) in
  let '(r', rs') := c_events r0 radd last_frame o n0 c st' (combine (map (fun i => Z.of_nat (s (Z.to_nat i))) ids) ts) in
  alike num num' s r r' /\ rs' = map (report_to n0 c s) rs.
Proof.
  intros Hn Hc Hs. induction ids as [|i ids IH]; intros [|t ts] st st' Ha Hi; cbn [map combine c_events]; try (split; [exact Ha|reflexivity]).
  assert (Hk : Z.to_nat i < num) by (specialize (Hi i (or_introl eq_refl)); lia).
  destruct (event_alike o n0 c num num' s st st' (Z.to_nat i) t Hn Hc Hs Ha Hk) as (E1 & E2). rewrite Nat2Z.id.
  destruct (c_event r0 radd last_frame o n0 c st (Z.to_nat i) t) as [st1 r]. destruct (c_event r0 radd last_frame o n0 c st' (s (Z.to_nat i)) t) as [st1' r']. cbn [fst snd] in *.
  specialize (IH ts st1 st1' E1 (fun j Hj => Hi j (or_intror Hj))).
  destruct (c_events r0 radd last_frame o n0 c st1 (combine ids ts)) as [st2 rs]. destruct (c_events r0 radd last_frame o n0 c st1' _) as [st2' rs'].
  destruct IH as (I1 & ->). split; [exact I1|]. cbn [map]. rewrite E2. reflexivity.
Qed.
Lemma spec_alike o n0 c num num' s : 0 < n0 -> 0 < c -> placed num num' s -> forall ops (st st' : cst), Forall (cop_ok num) ops -> alike num num' s st st' ->
  let '(r, rs) := c_spec r0 radd last_frame o n0 num c st ops in
  let '(r', rs') := c_spec r0 radd last_frame o n0 num' c st' (map (cren num s) ops) in
  alike num num' s r r' /\ rs' = map (report_to n0 c s) rs.
Proof.
  intros Hn Hc Hs. induction ops as [|[ids ts|keep] ops IH]; intros st st' Hok Ha; cbn [map cren c_spec]; [split; [exact Ha|reflexivity]|..]; inversion Hok as [|? ? O1 O2]; subst.
  - assert (Hi : forall i, In i (match ids with Some ids => ids | None => map Z.of_nat (seq 0 num) end) -> (0 <= i < Z.of_nat num)%Z).
    { destruct ids as [ids|]; [apply O1|]. intros i Hi. apply in_map_iff in Hi. destruct Hi as (k & <- & Hk). apply in_seq in Hk. lia. }
    pose proof (events_alike o n0 c num num' s Hn Hc Hs _ ts st st' Ha Hi) as E.
    destruct (c_events r0 radd last_frame o n0 c st _) as [st1 rs1]. destruct (c_events r0 radd last_frame o n0 c st' _) as [st1' rs1']. destruct E as (E1 & ->).
    specialize (IH st1 st1' O2 E1). destruct (c_spec r0 radd last_frame o n0 num c st1 ops) as [r rs]. destruct (c_spec r0 radd last_frame o n0 num' c st1' _) as [r' rs'].
    destruct IH as (I1 & ->). split; [exact I1|]. rewrite map_app. reflexivity.
  - apply IH; [exact O2|]. destruct Ha as (A1 & A2 & A3 & A4). unfold alike. cbn [c_fin c_cur]. rewrite !map_length. repeat split; try assumption.
    intros k Hk. set (f := fun x : list (slot Ob A Inf R) * list R => (@nil (slot Ob A Inf R), if keep then snd x else [])).
    assert (Ef : d = f d) by (unfold f; destruct keep; reflexivity). rewrite Ef, !map_nth, A4 by exact Hk. reflexivity.
Qed.
Lemma alike_start num num' s : placed num num' s -> alike num num' s (c_start num) (c_start num').
Proof. clear r0 radd last_frame.
  intros [S1 S2]. unfold alike, c_start. cbn [c_fin c_cur]. rewrite !repeat_length. repeat split. intros k Hk.
  assert (K : forall (n k : nat), nth k (repeat d n) d = d) by (induction n as [|n IH]; intros [|j]; cbn; auto). rewrite !K. reflexivity.
Qed.
Lemma NoDup_map_in {X Y} (f : X -> Y) l : NoDup l -> (forall x y, In x l -> In y l -> f x = f y -> x = y) -> NoDup (map f l).
Proof. clear r0 radd last_frame.
  induction 1 as [|x l Hx Hl IH]; intros Hf; cbn [map]; constructor.
  - intros I. apply in_map_iff in I. destruct I as (y & E & Iy). apply Hf in E; [subst; contradiction|right; exact Iy|left; reflexivity].
  - apply IH. intros y z Hy Hz. apply Hf; right; assumption.
Qed.
Lemma cren_ok num num' s : 0 < num -> placed num num' s -> forall ops : list (cop Ob A Inf R), Forall (cop_ok num) ops -> Forall (cop_ok num') (map (cren num s) ops).
Proof. clear r0 radd last_frame.
  intros Hnum [S1 S2] ops. induction 1 as [|op ops Ho Hok IH]; cbn [map]; constructor; [|exact IH]. destruct op as [ids ts|keep]; [|exact I]. cbn [cren cop_ok].
  assert (Hx : let l := match ids with Some ids => ids | None => map Z.of_nat (seq 0 num) end in length l = length ts /\ l <> [] /\ NoDup l /\ forall i, In i l -> (0 <= i < Z.of_nat num)%Z).
  { destruct ids as [ids|]; cbn [cop_ok] in Ho; [exact Ho|]. cbn zeta. rewrite map_length, seq_length. split; [congruence|]. split; [destruct num; [lia|discriminate]|].
    split; [apply FinFun.Injective_map_NoDup; [intros x y; apply Nat2Z.inj|apply seq_NoDup]|]. intros i Hi. apply in_map_iff in Hi. destruct Hi as (k & <- & Hk). apply in_seq in Hk. lia. }
  cbn zeta in Hx. destruct Hx as (X1 & X2 & X3 & X4). set (l := match ids with Some ids => ids | None => map Z.of_nat (seq 0 num) end) in *. clearbody l.
  rewrite map_length. split; [exact X1|]. split; [destruct l; [contradiction|discriminate]|]. split.
  - apply NoDup_map_in; [exact X3|]. intros x y Hx Hy E. apply X4 in Hx. apply X4 in Hy. apply Nat2Z.inj, S2 in E; lia.
  - intros i Hi. apply in_map_iff in Hi. destruct Hi as (k & <- & Hk). apply X4 in Hk. specialize (S1 (Z.to_nat k) ltac:(lia)). lia.
Qed.
Lemma ring_lt n T p : 0 < n -> ring n T p < n.
Proof. clear r0 radd last_frame. intros H. unfold ring. apply Nat.mod_upper_bound. lia. Qed.
Lemma alike_queue n0 c num num' s (st st' : cst) k : alike num num' s st st' -> k <= num -> c_queue n0 c st' (part_to s k) = c_queue n0 c st k.
Proof. clear r0 radd last_frame.
  intros (A1 & A2 & A3 & A4) Hk. destruct k as [|k]; cbn [part_to c_queue].
  - unfold c_main, c_moved. rewrite A1. reflexivity.
  - unfold c_cache. rewrite A4 by lia. reflexivity.
Qed.
Lemma alike_address n0 c num num' s (st st' : cst) k p : 0 < n0 -> 0 < c -> alike num num' s st st' -> k <= num ->
  Z.of_nat (c_address n0 c st' (part_to s k, p)) = moved_to n0 c s (Z.of_nat (c_address n0 c st (k, p))).
Proof. clear r0 radd last_frame.
  intros Hn Hc (A1 & A2 & A3 & A4) Hk. destruct k as [|k]; unfold c_address; cbn [fst snd part_to].
  - unfold c_moved. rewrite A1, moved_main by (apply ring_lt; exact Hn). reflexivity.
  - rewrite A4, moved_cache by (try lia; apply ring_lt; exact Hc). reflexivity.
Qed.
End Cren.

(** C373. The environments of a cached buffer can be given other numbers, in a buffer of as many or more: the main buffer and its indices are the same, the cache of [k] is
    now that of [s k], and reports, rows, predecessors and successors are the same at the corresponding indices. *)
Lemma C373_renumber_lemma : forall (Ob A Inf R : Type) (r0 : R) radd (last_frame : Ob -> Ob) o n0 num num' c s (ops : list (cop Ob A Inf R)),
  0 < n0 -> 0 < num -> 0 < c -> placed num num' s -> Forall (cop_ok num) ops ->
  exists m0 m reports m0' m' reports', c_init r0 n0 num c = Ok m0 /\ c_run r0 radd last_frame o m0 ops = Ok (m, reports)
  /\ c_init r0 n0 num' c = Ok m0' /\ c_run r0 radd last_frame o m0' (map (cren num s) ops) = Ok (m', reports')
  /\ reports' = map (report_to n0 c s) reports
  /\ (forall k, k <= num -> nth_error (m_lens m') (part_to s k) = nth_error (m_lens m) k)
  /\ let st := fst (c_spec r0 radd last_frame o n0 num c (c_start num) ops) in
     forall ps, ps <> [] -> (forall x, In x ps -> fst x <= num /\ snd x < length (c_queue n0 c st (fst x))) ->
     let index := map (fun x => Z.of_nat (c_address n0 c st x)) ps in
     m_rows_at m' (map (moved_to n0 c s) index) = m_rows_at m index
     /\ m_prev m' (map (moved_to n0 c s) index) = (let* x := m_prev m index in Ok (map (moved_to n0 c s) x))
     /\ m_next m' (map (moved_to n0 c s) index) = (let* x := m_next m index in Ok (map (moved_to n0 c s) x))
     /\ is_ok (m_rows_at m index) = true /\ is_ok (m_prev m index) = true /\ is_ok (m_next m index) = true.
Proof.
  intros Ob A Inf R r0 radd last_frame o n0 num num' c s ops Hn Hnum Hc Hs Hok.
  assert (Hnum' : 0 < num') by (destruct Hs as [S1 _]; specialize (S1 0 Hnum); lia).
  pose proof (cren_ok num num' s Hnum Hs ops Hok) as Hok'.
  pose proof (C12_cached_buffer_lemma _ _ _ _ r0 radd last_frame o n0 num c ops Hn Hnum Hc Hok) as M.
  pose proof (C12_cached_buffer_lemma _ _ _ _ r0 radd last_frame o n0 num' c _ Hn Hnum' Hc Hok') as M'.
  pose proof (C12_prev_next_lemma _ _ _ _ r0 radd last_frame o n0 num c ops) as PN.
  pose proof (C12_prev_next_lemma _ _ _ _ r0 radd last_frame o n0 num' c (map (cren num s) ops)) as PN'.
  pose proof (spec_alike r0 radd last_frame o n0 c num num' s Hn Hc Hs ops _ _ Hok (alike_start num num' s Hs)) as S.
  destruct (c_spec r0 radd last_frame o n0 num c (c_start num) ops) as [st rs]. destruct (c_spec r0 radd last_frame o n0 num' c (c_start num') (map (cren num s) ops)) as [st' rs'].
  destruct S as (Ha & ->). destruct M as (m0 & m & E0 & E1 & El & Er). destruct M' as (m0' & m' & E0' & E1' & El' & Er').
  exists m0, m, rs, m0', m'. eexists. split; [exact E0|]. split; [exact E1|]. split; [exact E0'|]. split; [exact E1'|]. split; [reflexivity|].
  assert (Hpt : forall k, k <= num -> part_to s k <= num').
  { intros [|k] Hk; cbn [part_to]; [lia|]. destruct Hs as [S1 _]. specialize (S1 k ltac:(lia)). lia. }
  split.
  - intros k Hk. rewrite El, El', !nth_error_map_seq. specialize (Hpt k Hk). destruct (Nat.ltb_spec (part_to s k) (Datatypes.S num')), (Nat.ltb_spec k (Datatypes.S num)); try lia.
    cbn [Nat.add]. rewrite (alike_queue n0 c num num' s st st' k Ha Hk). reflexivity.
  - cbn [fst] in *. intros ps Hne Hps. cbn zeta.
    set (ps' := map (fun x => (part_to s (fst x), snd x)) ps).
    assert (Hne' : ps' <> []) by (unfold ps'; destruct ps; [contradiction|discriminate]).
    assert (Hps' : forall x, In x ps' -> fst x <= num' /\ snd x < length (c_queue n0 c st' (fst x))).
    { intros x Hx. apply in_map_iff in Hx. destruct Hx as (y & <- & Hy). cbn [fst snd]. destruct (Hps y Hy) as (Y1 & Y2). split; [apply Hpt, Y1|]. rewrite (alike_queue n0 c num num' s st st' _ Ha Y1). exact Y2. }
    assert (Ei : map (moved_to n0 c s) (map (fun x => Z.of_nat (c_address n0 c st x)) ps) = map (fun x => Z.of_nat (c_address n0 c st' x)) ps').
    { unfold ps'. rewrite !map_map. apply map_ext_in. intros [k p] Hx. destruct (Hps _ Hx) as (X1 & _). cbn [fst snd] in *. symmetry. apply (alike_address n0 c num num'); assumption. }
    assert (Ex : forall f g, (forall k p, In (k, p) ps -> f (part_to s k) p = moved_to n0 c s (g k p)) ->
                 map (fun x => f (fst x) (snd x)) ps' = map (moved_to n0 c s) (map (fun x => g (fst x) (snd x)) ps)).
    { intros f g H. unfold ps'. rewrite !map_map. apply map_ext_in. intros [k p] Hx. cbn [fst snd]. apply H, Hx. }
    assert (Eta : forall st0 l, map (fun x => Z.of_nat (c_address (Ob := Ob) (A := A) (Inf := Inf) (R := R) n0 c st0 x)) l = map (fun x => Z.of_nat (c_address n0 c st0 (fst x, snd x))) l) by (intros st0 l; apply map_ext; intros [k p]; reflexivity).
    destruct (PN m0 m rs ps Hn Hnum Hc Hok E0 E1 Hne Hps) as (P1 & P2). destruct (PN' m0' m' _ ps' Hn Hnum' Hc Hok' E0' E1' Hne' Hps') as (P1' & P2').
    rewrite Ei, (Er _ Hne Hps), (Er' _ Hne' Hps'), !Eta, P1, P2, P1', P2'. cbn [bind is_ok]. repeat split.
    + f_equal. unfold ps'. rewrite map_map. apply map_ext_in. intros [k p] Hx. destruct (Hps _ Hx) as (X1 & _). cbn [fst snd] in *. rewrite (alike_queue n0 c num num' s st st' k Ha X1). reflexivity.
    + f_equal. apply (Ex (fun k p => Z.of_nat (c_address n0 c st' (k, pred_of (c_queue n0 c st' k) p))) (fun k p => Z.of_nat (c_address n0 c st (k, pred_of (c_queue n0 c st k) p)))). intros k p Hx. destruct (Hps _ Hx) as (X1 & _). cbn [fst] in X1. rewrite (alike_queue n0 c num num' s st st' k Ha X1). apply (alike_address n0 c num num'); assumption.
    + f_equal. apply (Ex (fun k p => Z.of_nat (c_address n0 c st' (k, succ_of (c_queue n0 c st' k) p))) (fun k p => Z.of_nat (c_address n0 c st (k, succ_of (c_queue n0 c st k) p)))). intros k p Hx. destruct (Hps _ Hx) as (X1 & _). cbn [fst] in X1. rewrite (alike_queue n0 c num num' s st st' k Ha X1). apply (alike_address n0 c num num'); assumption.
Qed.
