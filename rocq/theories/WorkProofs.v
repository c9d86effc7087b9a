(** * Proofs about workers and wrappers *)
From Verif Require Import Py PyLemmas Num StatModel StatProofs WorkModel WorkSpec.
Open Scope nat_scope.

Section WorkProofs.
Context {V : Type}.
Variable v0 : V.
Variable conv : dt -> dt -> V -> V.
Notation encode := (encode (V := V) conv).
Notation copyto := (copyto (V := V) conv).

(** ** Arrays *)
Lemma rows_concat n w : forall (l : list V), length l = n * w -> concat (rows_of n w l) = l /\ forall r, In r (rows_of n w l) -> length r = w.
Proof.
  induction n as [|n IH]; intros l H; cbn [rows_of concat].
  - destruct l; [|discriminate H]. split; [reflexivity | intros r []].
  - assert (HF : length (firstn w l) = w) by (rewrite firstn_length; lia). destruct (IH (skipn w l)) as [C R]; [rewrite skipn_length; lia|].
    split; [rewrite C; apply firstn_skipn|]. intros r [<- | Hr]; [exact HF | apply R, Hr].
Qed.
Lemma mapM_id {A : Type} (f : A -> res A) l : (forall x, In x l -> f x = Ok x) -> mapM f l = Ok l.
Proof.
  induction l as [|x l IH]; intros H; [reflexivity|]. cbn [mapM]. rewrite (H x (or_introl eq_refl)). cbn [bind]. rewrite IH by (intros y Hy; apply H, in_cons, Hy). reflexivity.
Qed.
Lemma bcast_same : forall s (data : list V), length data = size s -> bcast s s data = Ok data.
Proof.
  induction s as [|n s IH]; intros data H; [reflexivity|]. cbn [bcast]. rewrite Nat.eqb_refl. unfold size in H. cbn in H. destruct (rows_concat n (size s) data H) as [C R].
  rewrite mapM_id by (intros x Hx; apply IH, R, Hx). cbn [bind]. rewrite C. reflexivity.
Qed.
Lemma align_same s : align s s = s.
Proof. unfold align. rewrite Nat.sub_diag. reflexivity. Qed.
Lemma copyto_same d s (data : list V) : (forall v, conv d d v = v) -> length data = size s -> copyto d s (mkNd d s data) = Ok data.
Proof.
  intros HC H. unfold WorkModel.copyto, can_cast. cbn [n_dt n_shape n_data]. rewrite Nat.leb_refl. cbn [guard]. rewrite align_same.
  rewrite bcast_same by (rewrite map_length; exact H). f_equal. transitivity (map (fun v => v) data); [apply map_ext, HC | apply map_id].
Qed.

(** ** Finite maps *)
Lemma lookup_in {A : Type} k (l : list (nat * A)) a : lookup k l = Some a -> In (k, a) l.
Proof.
  induction l as [|[j b] l IH]; cbn; [discriminate|]. destruct (Nat.eqb_spec j k) as [-> | N]; intros H; [injection H as <-; left; reflexivity | right; apply IH, H].
Qed.
Lemma lookup_keys {A : Type} k (l : list (nat * A)) : In k (map fst l) <-> lookup k l <> None.
Proof.
  induction l as [|[j b] l IH]; cbn; [split; [intros [] | congruence]|]. destruct (Nat.eqb_spec j k) as [-> | N]; [split; [discriminate | auto]|].
  rewrite <- IH. split; [intros [H | H]; [contradiction | exact H] | auto].
Qed.
Lemma lookup_replace {A : Type} k j (a : A) l : lookup k (replace j a l) = if j =? k then option_map (fun _ => a) (lookup k l) else lookup k l.
Proof.
  induction l as [|[i b] l IH]; cbn; [destruct (j =? k); reflexivity|]. destruct (Nat.eqb_spec i j) as [-> | N]; cbn.
  - destruct (Nat.eqb_spec j k) as [-> | M]; reflexivity.
  - rewrite IH. destruct (Nat.eqb_spec i k) as [-> | M]; [|reflexivity]. destruct (Nat.eqb_spec j k) as [-> | ]; [contradiction | reflexivity].
Qed.
Lemma replace_keys {A : Type} k (a : A) l : map fst (replace k a l) = map fst l.
Proof. induction l as [|[i b] l IH]; cbn; [reflexivity|]. destruct (i =? k); cbn; [reflexivity | rewrite IH; reflexivity]. Qed.
Lemma lookup_map {A B : Type} (f : A -> B) k l : lookup k (map (fun x => (fst x, f (snd x))) l) = option_map f (lookup k l).
Proof. induction l as [|[j a] l IH]; cbn; [reflexivity|]. destruct (j =? k); [reflexivity | exact IH]. Qed.

(** ** The round trip *)
Definition enc_tup := (fix go (l : list (obs V)) (m : list (buf V)) : res (list (buf V)) := match l, m with
        | [], [] => Ok []
        | o :: l, b :: m => let* b := encode o b in let* r := go l m in Ok (b :: r)
        | _, _ => Err ValueError end).
Definition enc_dic := (fix go (l : list (nat * obs V)) (m : list (nat * buf V)) : res (list (nat * buf V)) := match l with
        | [] => Ok m
        | (k, o) :: l => match lookup k m with None => Err KeyError | Some b => let* b := encode o b in go l (replace k b m) end end).
Lemma encode_tup l m : encode (OTuple l) (BTuple m) = let* r := enc_tup l m in Ok (BTuple r). Proof. reflexivity. Qed.
Lemma encode_dic l m : encode (ODict l) (BDict m) = let* r := enc_dic l m in Ok (BDict r). Proof. reflexivity. Qed.
Lemma enc_tup_cons o l b m : enc_tup (o :: l) (b :: m) = let* b := encode o b in let* r := enc_tup l m in Ok (b :: r). Proof. reflexivity. Qed.
Lemma enc_dic_cons k o l m : enc_dic ((k, o) :: l) m = match lookup k m with None => Err KeyError | Some b => let* b := encode o b in enc_dic l (replace k b m) end.
Proof. reflexivity. Qed.
Lemma enc_tup_ok : forall l m (P : nat -> obs V -> buf V -> Prop), length l = length m ->
  (forall i o b, nth_error l i = Some o -> nth_error m i = Some b -> exists b', encode o b = Ok b' /\ P i o b') ->
  exists r, enc_tup l m = Ok r /\ length r = length m /\ forall i o b', nth_error l i = Some o -> nth_error r i = Some b' -> P i o b'.
Proof.
  induction l as [|o l IH]; intros [|b m] P HL H; try discriminate HL.
  - exists []. split; [reflexivity|]. split; [reflexivity|]. intros [|i]; discriminate.
  - destruct (H 0 o b eq_refl eq_refl) as (b' & E & HP). destruct (IH m (fun i => P (S i)) ltac:(cbn in HL; lia) (fun i => H (S i))) as (r & ER & HR & HQ).
    exists (b' :: r). rewrite enc_tup_cons, E. cbn [bind]. rewrite ER.
    split; [reflexivity|]. split; [cbn; rewrite HR; reflexivity|]. intros [|i] o' b0; cbn [nth_error]; [intros A B; injection A as <-; injection B as <-; exact HP | apply HQ].
Qed.
Lemma enc_dic_ok (P : nat -> obs V -> buf V -> Prop) : forall l m, NoDup (map fst l) -> (forall k, In k (map fst l) -> In k (map fst m)) ->
  (forall k o b, In (k, o) l -> lookup k m = Some b -> exists b', encode o b = Ok b' /\ P k o b') ->
  exists r, enc_dic l m = Ok r /\ map fst r = map fst m /\ (forall k, ~ In k (map fst l) -> lookup k r = lookup k m) /\
    (forall k o, In (k, o) l -> exists b', lookup k r = Some b' /\ P k o b').
Proof.
  induction l as [|[k o] l IH]; intros m ND HK H.
  - exists m. split; [reflexivity|]. split; [reflexivity|]. split; [reflexivity | intros k o []].
  - inversion ND as [|? ? NK ND']; subst. rewrite enc_dic_cons. destruct (lookup k m) as [b|] eqn:EB; [|exfalso; apply (proj1 (lookup_keys k m)); [apply HK; left; reflexivity | exact EB]].
    destruct (H k o b (or_introl eq_refl) EB) as (b' & E & HP). rewrite E. cbn [bind].
    destruct (IH (replace k b' m) ND') as (r & ER & KR & OR & PR).
    + intros j Hj. rewrite replace_keys. apply HK. right. exact Hj.
    + intros j o' b0 Hj HB. assert (NJ : k <> j) by (intros ->; apply NK; apply (in_map fst) in Hj; exact Hj). rewrite lookup_replace in HB. destruct (Nat.eqb_spec k j); [contradiction|].
      apply (H j o' b0); [right; exact Hj | exact HB].
    + exists r. split; [exact ER|]. split; [rewrite KR; apply replace_keys|]. split.
      * intros j Hj. cbn [map fst] in Hj. rewrite OR by (intros C; apply Hj; right; exact C). rewrite lookup_replace. destruct (Nat.eqb_spec k j) as [-> | ]; [exfalso; apply Hj; left; reflexivity | reflexivity].
      * intros j o' [Hj | Hj].
        -- injection Hj as <- <-. exists b'. split; [|exact HP]. rewrite OR by exact NK. rewrite lookup_replace, Nat.eqb_refl, EB. reflexivity.
        -- exact (PR j o' Hj).
Qed.
Lemma nodup_lookup {A : Type} k (a : A) l : NoDup (map fst l) -> In (k, a) l -> lookup k l = Some a.
Proof.
  induction l as [|[j b] l IH]; intros ND; [intros []|]. intros [H | H]; cbn.
  - injection H as -> ->. rewrite Nat.eqb_refl. reflexivity.
  - inversion ND as [|? ? NK ND']; subst. destruct (Nat.eqb_spec j k) as [-> | N]; [exfalso; apply NK; apply (in_map fst) in H; exact H | apply IH; assumption].
Qed.
End WorkProofs.

(** Spaces are nested lists. *)
Lemma space_induction (P : space -> Prop) :
  (forall d s, P (SArr d s)) -> (forall l, (forall s, In s l -> P s) -> P (STup l)) -> (forall l, (forall k s, In (k, s) l -> P s) -> P (SDic l)) -> forall s, P s.
Proof.
  intros HA HT HD. fix IH 1. intros [d s|l|l]; [apply HA | apply HT | apply HD].
  - induction l as [|s l IHl]; [intros s' []|]. intros s' [<- | H]; [apply IH | apply IHl, H].
  - induction l as [|[k s] l IHl]; [intros k' s' []|]. intros k' s' [H | H]; [injection H as _ <-; apply IH | exact (IHl k' s' H)].
Qed.

(** C203. Through shared memory, of whatever previous contents, an observation of the space arrives as it was sent. *)
Lemma C203_round_trip_lemma : forall (V : Type) (conv : dt -> dt -> V -> V) (sp : space) (o : obs V) (b : buf V),
  (forall d v, conv d d v = v) -> fits sp o -> isbuf sp b ->
  exists b', encode conv o b = Ok b' /\ isbuf sp b' /\ eqo (decode b') o.
Proof.
  intros V conv sp o b HC. revert o b. induction sp as [d s|l IH|l IH] using space_induction; intros o b HF HB.
  - inversion HF; subst. inversion HB; subst. cbn [encode]. rewrite copyto_same by (try apply HC; assumption). cbn [bind]. eexists. split; [reflexivity|]. split; constructor.
  - inversion HF as [|? m HL HN|]; subst. inversion HB as [|? n HL' HN'|]; subst. rewrite encode_tup.
    destruct (enc_tup_ok conv m n (fun i o b' => forall s, nth_error l i = Some s -> isbuf s b' /\ eqo (decode b') o)) as (r & ER & LR & PR).
    + congruence.
    + intros i o b HO HI. destruct (nth_error l i) as [s|] eqn:ES; [|exfalso; apply nth_error_None in ES; assert (i < length m) by (apply nth_error_Some; congruence); lia].
      destruct (IH s (nth_error_In _ _ ES) o b (HN _ _ _ ES HO) (HN' _ _ _ ES HI)) as (b' & E & Q' & Q). exists b'. split; [exact E|]. intros s' HS. injection HS as <-. split; assumption.
    + rewrite ER. cbn [bind]. eexists. split; [reflexivity|]. split.
      * constructor; [congruence|]. intros i s b' HS HR. destruct (nth_error m i) as [o|] eqn:EO; [|exfalso; apply nth_error_None in EO; assert (i < length l) by (apply nth_error_Some; congruence); lia].
        exact (proj1 (PR i o b' EO HR s HS)).
      * cbn [decode]. constructor; [rewrite map_length; congruence|]. intros i a o HA HO. rewrite nth_error_map in HA. destruct (nth_error r i) as [b'|] eqn:EB; [|discriminate HA]. injection HA as <-.
        destruct (nth_error l i) as [s|] eqn:ES; [exact (proj2 (PR i o b' HO EB s ES))|]. exfalso. apply nth_error_None in ES. assert (i < length m) by (apply nth_error_Some; congruence). lia.
  - inversion HF as [| |? m ND HK NL HN]; subst. inversion HB as [| |? n HK' HN']; subst. rewrite encode_dic.
    destruct (enc_dic_ok conv (fun k o b' => exists s, lookup k l = Some s /\ isbuf s b' /\ eqo (decode b') o) m n ND) as (r & ER & KR & OR & PR).
    + intros k Hk. rewrite <- HK'. apply HK, Hk.
    + intros k o b HI HL. destruct (lookup k l) as [s|] eqn:ES.
      * destruct (HN k s ES) as (o' & HO' & HF'). rewrite (nodup_lookup _ _ _ ND HI) in HO'. injection HO' as <-. destruct (HN' k s ES) as (b0 & HB0 & HI0). rewrite HL in HB0. injection HB0 as <-.
        destruct (IH k s (lookup_in _ _ _ ES) o b HF' HI0) as (b' & E & Q1 & Q2). exists b'. split; [exact E|]. exists s. split; [reflexivity | split; assumption].
      * exfalso. apply (proj1 (lookup_keys k l)); [|exact ES]. apply HK. apply (in_map fst) in HI. exact HI.
    + rewrite ER. cbn [bind]. eexists. split; [reflexivity|]. split.
      * constructor; [congruence|]. intros k s HS. destruct (HN k s HS) as (o & HO & _). destruct (PR k o (lookup_in _ _ _ HO)) as (b' & HB' & s' & HS' & Q & _). exists b'. split; [exact HB'|]. congruence.
      * cbn [decode]. constructor.
        -- intros k a HA. rewrite lookup_map in HA. destruct (lookup k r) as [b'|] eqn:EB; [|discriminate HA]. injection HA as <-.
           assert (IK : In k (map fst m)) by (apply HK; rewrite HK', <- KR; apply lookup_keys; congruence). apply lookup_keys in IK. destruct (lookup k m) as [o|] eqn:EO; [|contradiction].
           destruct (PR k o (lookup_in _ _ _ EO)) as (b0 & HB0 & _ & _ & _ & Q). rewrite EB in HB0. injection HB0 as <-. exists o. split; [reflexivity | exact Q].
        -- intros k HA. rewrite lookup_map in HA. destruct (lookup k r) as [b'|] eqn:EB; [discriminate HA|]. destruct (lookup k m) as [o|] eqn:EO; [|reflexivity]. exfalso.
           destruct (PR k o (lookup_in _ _ _ EO)) as (b0 & HB0 & _). congruence.
Qed.
Lemma supported_in d : supported d = true <-> In d [DBool; DUInt 8; DUInt 16; DUInt 32; DUInt 64; DInt 8; DInt 16; DInt 32; DInt 64; DFloat 32; DFloat 64].
Proof.
  split.
  - destruct d as [|n|n|n|]; cbn [supported]; intros H; try discriminate H; [left; reflexivity| | |];
      apply existsb_exists in H; destruct H as (x & HX & E); apply Nat.eqb_eq in E; subst x; cbn [In] in HX |- *;
      repeat (destruct HX as [<- | HX]; [tauto|]); destruct HX.
  - cbn [In]. intros H. repeat (destruct H as [<- | H]; [reflexivity|]). destruct H.
Qed.
(** C203. Shared memory can be made exactly for spaces of the supported types; otherwise a KeyError. *)
Lemma C203_setup_lemma : forall (V : Type) (v0 : V) (sp : space),
  (shareable sp -> exists b, setup_buf v0 sp = Ok b /\ isbuf sp b) /\ (~ shareable sp -> setup_buf v0 sp = Err KeyError).
Proof.
  intros V v0 sp. assert (G : (shareable sp /\ exists b, setup_buf v0 sp = Ok b /\ isbuf sp b) \/ (~ shareable sp /\ setup_buf v0 sp = Err KeyError)).
  { induction sp as [d s|l IH|l IH] using space_induction.
    - cbn [setup_buf]. destruct (supported d) eqn:E; [left | right]; cbn [guard].
      + split; [constructor; apply supported_in; exact E|]. eexists. split; [reflexivity | constructor].
      + split; [|reflexivity]. intros H. inversion H as [? ? HI| |]. apply supported_in in HI. congruence.
    - cbn [setup_buf].
      set (go := fix go (l : list space) := match l with [] => Ok [] | s :: l => let* b := setup_buf v0 s in let* r := go l in Ok (b :: r) end).
      assert (G : ((forall s, In s l -> shareable s) /\ exists m, go l = Ok m /\ length l = length m /\ forall i s b, nth_error l i = Some s -> nth_error m i = Some b -> isbuf s b)
        \/ (~ (forall s, In s l -> shareable s) /\ go l = Err KeyError)).
      { induction l as [|s l IHl].
        - left. split; [intros s []|]. exists []. split; [reflexivity|]. split; [reflexivity|]. intros [|i]; discriminate.
        - destruct (IH s (or_introl eq_refl)) as [[HS (b & EB & HB)] | [HS EB]].
          + destruct IHl as [[HL (m & EM & LM & HM)] | [HL EM]]; [intros s' H'; apply IH; right; exact H' | left | right].
            * split; [intros s' [<- | H']; [exact HS | apply HL, H']|]. exists (b :: m). cbn [go]. rewrite EB. cbn [bind]. fold go. rewrite EM. split; [reflexivity|]. split; [cbn; congruence|].
              intros [|i] s' b'; cbn [nth_error]; [intros A B; injection A as <-; injection B as <-; exact HB | apply HM].
            * split; [intros C; apply HL; intros s' H'; apply C; right; exact H'|]. cbn [go]. rewrite EB. cbn [bind]. fold go. rewrite EM. reflexivity.
          + right. split; [intros C; apply HS, C; left; reflexivity|]. cbn [go]. rewrite EB. reflexivity. }
      destruct G as [[HL (m & EM & LM & HM)] | [HL EM]]; rewrite EM; cbn [bind]; [left | right].
      + split; [constructor; exact HL|]. eexists. split; [reflexivity | constructor; assumption].
      + split; [|reflexivity]. intros H. inversion H. apply HL. assumption.
    - cbn [setup_buf].
      set (go := fix go (l : list (nat * space)) := match l with [] => Ok [] | (k, s) :: l => let* b := setup_buf v0 s in let* r := go l in Ok ((k, b) :: r) end).
      assert (G : ((forall k s, In (k, s) l -> shareable s) /\ exists m, go l = Ok m /\ map fst l = map fst m /\ forall k s, lookup k l = Some s -> exists b, lookup k m = Some b /\ isbuf s b)
        \/ (~ (forall k s, In (k, s) l -> shareable s) /\ go l = Err KeyError)).
      { induction l as [|[k s] l IHl].
        - left. split; [intros k s []|]. exists []. split; [reflexivity|]. split; [reflexivity|]. discriminate.
        - destruct (IH k s (or_introl eq_refl)) as [[HS (b & EB & HB)] | [HS EB]].
          + destruct IHl as [[HL (m & EM & LM & HM)] | [HL EM]]; [intros k' s' H'; apply (IH k' s'); right; exact H' | left | right].
            * split; [intros k' s' [H' | H']; [injection H' as _ <-; exact HS | exact (HL k' s' H')]|]. exists ((k, b) :: m). cbn [go]. rewrite EB. cbn [bind]. fold go. rewrite EM.
              split; [reflexivity|]. split; [cbn; congruence|]. intros k' s'. cbn [lookup]. destruct (k =? k'); [intros A; injection A as <-; exists b; split; [reflexivity | exact HB] | apply HM].
            * split; [intros C; apply HL; intros k' s' H'; apply (C k' s'); right; exact H'|]. cbn [go]. rewrite EB. cbn [bind]. fold go. rewrite EM. reflexivity.
          + right. split; [intros C; apply HS, (C k s); left; reflexivity|]. cbn [go]. rewrite EB. reflexivity. }
      destruct G as [[HL (m & EM & LM & HM)] | [HL EM]]; rewrite EM; cbn [bind]; [left | right].
      + split; [constructor; exact HL|]. eexists. split; [reflexivity | constructor; assumption].
      + split; [|reflexivity]. intros H. inversion H. apply HL. assumption. }
  destruct G as [[H1 H2] | [H1 H2]]; split; intros; try assumption; contradiction.
Qed.
(** C203. A number or a list is not written: the reader gets what was there before. *)
Lemma C203_number_refuted_lemma : forall (V : Type) (conv : dt -> dt -> V -> V) (v : V) (l : list (obs V)) (b : buf V),
  encode conv (OScalar v) b = Ok b /\ encode conv (OList l) b = Ok b.
Proof. intros. split; destruct b; reflexivity. Qed.
(** C203. A dictionary without some key leaves the value of an earlier observation there. *)
Lemma C203_missing_key_refuted_lemma : forall (V : Type) (conv : dt -> dt -> V -> V) (l : list (nat * obs V)) (m : list (nat * buf V)) (b' : buf V) (k : nat) (b : buf V),
  encode conv (ODict l) (BDict m) = Ok b' -> ~ In k (map fst l) -> lookup k m = Some b -> exists m', decode b' = ODict m' /\ lookup k m' = Some (decode b).
Proof.
  intros V conv l m b' k b H HK HB. rewrite encode_dic in H. destruct (enc_dic conv l m) as [r|] eqn:E; [|discriminate H]. injection H as <-.
  eexists. split; [reflexivity|]. rewrite lookup_map. assert (G : lookup k r = Some b); [|rewrite G; reflexivity].
  revert m HB E. induction l as [|[j o] l IH]; intros m HB E; [injection E as <-; exact HB|]. rewrite enc_dic_cons in E. destruct (lookup j m) as [c|]; [|discriminate E].
  destruct (encode conv o c) as [c'|]; [|discriminate E]. cbn [bind] in E. apply (IH ltac:(intros C; apply HK; right; exact C) (replace j c' m)); [|exact E].
  rewrite lookup_replace. destruct (Nat.eqb_spec j k) as [-> | ]; [exfalso; apply HK; left; reflexivity | exact HB].
Qed.
Lemma concat_repeat1 {A : Type} (v : A) n : concat (repeat [v] n) = repeat v n.
Proof. induction n; cbn; congruence. Qed.
(** C203. An array of one element is accepted in place of a row of any length. *)
Lemma C203_broadcast_refuted_lemma : forall (V : Type) (conv : dt -> dt -> V -> V) (d : dt) (n : nat) (v : V) (old : list V),
  (forall v, conv d d v = v) -> encode conv (OArr (mkNd d [1] [v])) (BArr d [n] old) = Ok (BArr d [n] (repeat v n)).
Proof.
  intros V conv d n v old HC. cbn [encode]. unfold copyto, can_cast. cbn [n_dt n_shape n_data]. rewrite Nat.leb_refl. cbn [guard]. rewrite (HC v : conv d d v = v) || (cbn [map]; rewrite HC).
  unfold align. cbn [length Nat.sub drop1 repeat app bcast]. destruct (Nat.eqb_spec 1 n) as [<- | N]; cbn; [reflexivity|]. rewrite concat_repeat1. reflexivity.
Qed.

(** ** Workers *)
Section Workers.
Context {V : Type}.
Variable v0 : V.
Variable conv : dt -> dt -> V -> V.
Context {E A X Info At Rg : Type}.
Variable e_step : E -> A -> E * (obs V * X).
Variable e_reset : E -> option (option Z) -> E * (obs V * Info).
Variable e_render : option (E -> E * At).
Variable e_seed : option (E -> option Z -> E * At).
Variable e_get : E -> nat -> option At.
Variable e_set : E -> nat -> At -> E.
Variable seed_rg : option Z -> Rg -> Rg.
Variable draw : Rg -> Rg * A.
Notation dummy_op := (dummy_op (V := V) (A := A) e_step e_reset e_render e_seed e_get e_set seed_rg draw).
Notation proc_op := (proc_op (V := V) (A := A) conv e_step e_reset e_render e_seed e_get e_set seed_rg draw).
Variable sp : option space.
Hypothesis same : forall d v, conv d d v = v.
Hypothesis of_space : match sp with Some s => (forall e a, fits s (fst (snd (e_step e a)))) /\ (forall e k, fits s (fst (snd (e_reset e k)))) | None => True end.
Definition goodmem (b : option (buf V)) : Prop := match sp, b with Some s, Some b => isbuf s b | None, None => True | _, _ => False end.
Notation eqs := (match sp with Some _ => eqo | None => Logic.eq end).
Lemma put_ok (p : @proc V E Rg) e (o : obs V) (k : obs V -> @out V A X Info At) :
  goodmem (p_buf p) -> match sp with Some s => fits s o | None => True end ->
  exists b o', put_obs conv p e o k = (mkP e (c_space p) (p_space p) b false, Ok (k o')) /\ goodmem b /\ eqs o' o.
Proof.
  intros HG HF. unfold put_obs, goodmem in *. destruct sp as [s|], (p_buf p) as [b|]; try contradiction.
  - destruct (C203_round_trip_lemma V conv s o b same HF HG) as (b' & EB & HB & HE). rewrite EB. exists (Some b'), (decode b'). split; [reflexivity | split; assumption].
  - exists None, o. split; [reflexivity | split; [exact Logic.I | reflexivity]].
Qed.
Lemma op_ok (w : @dummy E Rg) (p : @proc V E Rg) o : d_env w = p_env p -> p_dead p = false -> goodmem (p_buf p) ->
  let '(w', r) := dummy_op w o in let '(p', r') := proc_op p o in
  d_env w' = p_env p' /\ p_dead p' = false /\ goodmem (p_buf p')
  /\ (is_sample o = false -> agree eqs (is_seed o) r r')
  /\ (seeded_reset o = false -> d_space w = p_space p -> d_space w' = p_space p' /\ (is_sample o = true -> r = r')).
Proof.
  intros HE HD HG. destruct o as [seed|seed|a| |k|k v|s|]; unfold WorkModel.dummy_op, WorkModel.proc_op; rewrite ?HD, ?HE; cbn [is_sample is_seed seeded_reset].
  - destruct (e_reset (p_env p) seed) as [e [b i]] eqn:ER.
    destruct (put_ok (with_space seed_rg p seed) e b (fun b => RReset b i) HG) as (m & o' & -> & HM & HO).
    { destruct sp; [|exact Logic.I]. pose proof (proj2 of_space (p_env p) seed) as Q. rewrite ER in Q. exact Q. }
    cbn [d_env d_space p_env p_dead p_buf p_space]. split; [reflexivity|]. split; [reflexivity|]. split; [exact HM|]. split; [intros _; split; [exact HO | reflexivity]|].
    intros _ HS. split; [cbn [with_space p_space]; rewrite HS; reflexivity | discriminate].
  - destruct (e_reset (p_env p) seed) as [e [b i]] eqn:ER.
    destruct (put_ok (with_space seed_rg p seed) e b (fun b => RReset b i) HG) as (m & o' & -> & HM & HO).
    { destruct sp; [|exact Logic.I]. pose proof (proj2 of_space (p_env p) seed) as Q. rewrite ER in Q. exact Q. }
    cbn [d_env d_space p_env p_dead p_buf p_space]. split; [reflexivity|]. split; [reflexivity|]. split; [exact HM|]. split; [intros _; split; [exact HO | reflexivity]|].
    intros HN HS. destruct seed; [discriminate HN|]. split; [exact HS | discriminate].
  - destruct (e_step (p_env p) a) as [e [b x]] eqn:ES.
    destruct (put_ok p e b (fun b => RStep b x) HG) as (m & o' & -> & HM & HO).
    { destruct sp; [|exact Logic.I]. pose proof (proj1 of_space (p_env p) a) as Q. rewrite ES in Q. exact Q. }
    cbn [d_env d_space p_env p_dead p_buf p_space]. split; [reflexivity|]. split; [reflexivity|]. split; [exact HM|]. split; [intros _; split; [exact HO | reflexivity]|].
    intros _ HS. split; [exact HS | discriminate].
  - destruct e_render as [f|].
    + destruct (f (p_env p)) as [e v]. cbn. split; [reflexivity|]. split; [reflexivity|]. split; [exact HG|]. split; [reflexivity|]. intros. split; [assumption | discriminate].
    + cbn. split; [exact HE|]. split; [exact HD|]. split; [exact HG|]. split; [intros; exact Logic.I|]. intros. split; [assumption | discriminate].
  - destruct (e_get (p_env p) k); cbn; (split; [first [exact HE | reflexivity]|]); (split; [first [exact HD | reflexivity]|]); (split; [exact HG|]); (split; [intros _; first [exact Logic.I | reflexivity]|]); intros; split; try assumption; discriminate.
  - cbn. split; [reflexivity|]. split; [reflexivity|]. split; [exact HG|]. split; [reflexivity|]. intros; split; [assumption | discriminate].
  - destruct e_seed as [f|].
    + destruct (f (p_env p) s) as [e v]. cbn. split; [reflexivity|]. split; [reflexivity|]. split; [exact HG|]. split; [reflexivity|]. intros _ HS. split; [congruence | discriminate].
    + cbn. split; [reflexivity|]. split; [reflexivity|]. split; [exact HG|]. split; [reflexivity|]. intros _ HS. split; [congruence | discriminate].
  - destruct (draw (d_space w)) as [g a] eqn:E1. destruct (draw (p_space p)) as [g' a'] eqn:E2. cbn. split; [reflexivity|]. split; [reflexivity|]. split; [exact HG|]. split; [discriminate|].
    intros _ HS. rewrite HS, E2 in E1. injection E1 as <- <-. split; reflexivity.
Qed.
End Workers.

Lemma run_ok : forall (V : Type) (conv : dt -> dt -> V -> V) (E A X Info At Rg : Type) e_step e_reset (e_render : option (E -> E * At)) e_seed e_get e_set seed_rg (draw : Rg -> Rg * A) (sp : option space),
  (forall d v, conv d d v = v) ->
  match sp with Some s => (forall (e : E) (a : A), fits s (fst (snd (e_step e a : E * (obs V * X))))) /\ (forall e k, fits s (fst (snd (e_reset e k : E * (obs V * Info))))) | None => True end ->
  forall (ops : list (@wop A At)) w p, d_env w = p_env p -> p_dead p = false -> goodmem sp (p_buf p) ->
  let '(w', rs) := dummy_run e_step e_reset e_render e_seed e_get e_set seed_rg draw w ops in
  let '(p', rs') := proc_run conv e_step e_reset e_render e_seed e_get e_set seed_rg draw p ops in
  d_env w' = p_env p' /\ p_dead p' = false /\ length rs = length ops /\ length rs' = length ops
  /\ (forall i o r r', nth_error ops i = Some o -> nth_error rs i = Some r -> nth_error rs' i = Some r' -> is_sample o = false ->
        agree (match sp with Some _ => eqo | None => Logic.eq end) (is_seed o) r r')
  /\ ((forall o, In o ops -> seeded_reset o = false) -> d_space w = p_space p -> d_space w' = p_space p' /\
        forall i o r r', nth_error ops i = Some o -> nth_error rs i = Some r -> nth_error rs' i = Some r' -> is_sample o = true -> r = r').
Proof.
  intros V conv E A X Info At Rg e_step e_reset e_render e_seed e_get e_set seed_rg draw sp same HF. induction ops as [|o ops IH]; intros w p HE HD HG; cbn [dummy_run proc_run].
  - split; [exact HE|]. split; [exact HD|]. split; [reflexivity|]. split; [reflexivity|]. split; [intros [|i]; discriminate|]. intros _ HS. split; [exact HS | intros [|i]; discriminate].
  - pose proof (op_ok conv e_step e_reset e_render e_seed e_get e_set seed_rg draw sp same HF w p o HE HD HG) as Q.
    destruct (dummy_op e_step e_reset e_render e_seed e_get e_set seed_rg draw w o) as [w1 r1]. destruct (proc_op conv e_step e_reset e_render e_seed e_get e_set seed_rg draw p o) as [p1 r1'].
    destruct Q as (Q1 & Q2 & Q3 & Q4 & Q5). specialize (IH w1 p1 Q1 Q2 Q3).
    destruct (dummy_run e_step e_reset e_render e_seed e_get e_set seed_rg draw w1 ops) as [w' rs]. destruct (proc_run conv e_step e_reset e_render e_seed e_get e_set seed_rg draw p1 ops) as [p' rs'].
    destruct IH as (I1 & I2 & I3 & I4 & I5 & I6). split; [exact I1|]. split; [exact I2|]. split; [cbn; congruence|]. split; [cbn; congruence|]. split.
    + intros [|i] o' r r'; cbn [nth_error]; [|apply I5]. intros A1 A2 A3. injection A1 as <-. injection A2 as <-. injection A3 as <-. exact Q4.
    + intros HN HS. destruct (Q5 (HN o (or_introl eq_refl)) HS) as [S1 S2]. destruct (I6 (fun o' H' => HN o' (in_cons _ _ _ H')) S1) as [S3 S4]. split; [exact S3|].
      intros [|i] o' r r'; cbn [nth_error]; [|apply S4]. intros A1 A2 A3. injection A1 as <-. injection A2 as <-. injection A3 as <-. exact S2.
Qed.
Lemma new_good {V E Rg : Type} (v0 : V) sp (e : E) (g : Rg) p : new_proc v0 sp e g = Ok p -> p_env p = e /\ p_space p = g /\ p_dead p = false /\ goodmem sp (p_buf p).
Proof.
  unfold new_proc. destruct sp as [s|]; intros H.
  - destruct (setup_buf v0 s) as [b|] eqn:EB; [|discriminate H]. injection H as <-. split; [reflexivity|]. split; [reflexivity|]. split; [reflexivity|]. unfold goodmem. cbn.
    destruct (C203_setup_lemma V v0 s) as [H1 H2]. 
    assert (G : exists b', setup_buf v0 s = Ok b' /\ isbuf s b').
    { assert (D : shareable s \/ ~ shareable s); [|destruct D as [D | D]; [exact (H1 D) | rewrite (H2 D) in EB; discriminate EB]].
      clear. induction s as [d s|l IH|l IH] using space_induction.
      - destruct (supported d) eqn:ED; [left; constructor; apply supported_in; exact ED | right; intros H; inversion H as [? ? HI| |]; apply supported_in in HI; congruence].
      - assert (G : (forall s, In s l -> shareable s) \/ ~ (forall s, In s l -> shareable s)).
        { induction l as [|s l IHl]; [left; intros s []|]. destruct (IH s (or_introl eq_refl)) as [D | D]; [|right; intros C; apply D, C; left; reflexivity].
          destruct IHl as [L | L]; [intros s' H'; apply IH; right; exact H' | left; intros s' [<- | H']; [exact D | apply L, H'] | right; intros C; apply L; intros s' H'; apply C; right; exact H']. }
        destruct G as [G | G]; [left; constructor; exact G | right; intros H; inversion H; contradiction].
      - assert (G : (forall k s, In (k, s) l -> shareable s) \/ ~ (forall k s, In (k, s) l -> shareable s)).
        { induction l as [|[k s] l IHl]; [left; intros k s []|]. destruct (IH k s (or_introl eq_refl)) as [D | D]; [|right; intros C; apply D, (C k s); left; reflexivity].
          destruct IHl as [L | L]; [intros k' s' H'; apply (IH k' s'); right; exact H' | left; intros k' s' [H' | H']; [injection H' as _ <-; exact D | exact (L k' s' H')]
            | right; intros C; apply L; intros k' s' H'; apply (C k' s'); right; exact H']. }
        destruct G as [G | G]; [left; constructor; exact G | right; intros H; inversion H; contradiction]. }
    destruct G as (b' & EB' & HB'). congruence.
  - injection H as <-. repeat (split; [reflexivity|]). exact Logic.I.
Qed.

(** C204. Whatever is asked of it, a worker in another process, with shared memory or without, answers as one in the same process and its environment goes through the
    same states; where the latter raises an AttributeError it answers None, and it does not answer with seeds. *)
Lemma C204_same_answers_lemma : forall (V : Type) (v0 : V) (conv : dt -> dt -> V -> V) (E A X Info At Rg : Type) (e_step : E -> A -> E * (obs V * X))
    (e_reset : E -> option (option Z) -> E * (obs V * Info)) (e_render : option (E -> E * At)) (e_seed : option (E -> option Z -> E * At)) (e_get : E -> nat -> option At)
    (e_set : E -> nat -> At -> E) (seed_rg : option Z -> Rg -> Rg) (draw : Rg -> Rg * A) (sp : option space) (e : E) (g : Rg) (p : proc) (ops : list wop),
  (forall d v, conv d d v = v) ->
  match sp with Some s => (forall e a, fits s (fst (snd (e_step e a)))) /\ (forall e k, fits s (fst (snd (e_reset e k)))) | None => True end ->
  new_proc v0 sp e g = Ok p ->
  let '(w', rs) := dummy_run e_step e_reset e_render e_seed e_get e_set seed_rg draw (new_dummy e g) ops in
  let '(p', rs') := proc_run conv e_step e_reset e_render e_seed e_get e_set seed_rg draw p ops in
  d_env w' = p_env p' /\ p_dead p' = false /\ length rs = length ops /\ length rs' = length ops /\
  forall i o r r', nth_error ops i = Some o -> nth_error rs i = Some r -> nth_error rs' i = Some r' -> is_sample o = false ->
    agree (match sp with Some _ => eqo | None => Logic.eq end) (is_seed o) r r'.
Proof.
  intros V v0 conv E A X Info At Rg e_step e_reset e_render e_seed e_get e_set seed_rg draw sp e g p ops HC HF HN.
  destruct (new_good v0 sp e g p HN) as (N1 & N2 & N3 & N4).
  pose proof (run_ok V conv E A X Info At Rg e_step e_reset e_render e_seed e_get e_set seed_rg draw sp HC HF ops (new_dummy e g) p (eq_sym N1) N3 N4) as Q.
  destruct (dummy_run e_step e_reset e_render e_seed e_get e_set seed_rg draw (new_dummy e g) ops) as [w' rs]. destruct (proc_run conv e_step e_reset e_render e_seed e_get e_set seed_rg draw p ops) as [p' rs'].
  destruct Q as (Q1 & Q2 & Q3 & Q4 & Q5 & _). split; [exact Q1|]. split; [exact Q2|]. split; [exact Q3|]. split; [exact Q4 | exact Q5].
Qed.
(** C204. A missing attribute, a missing [render] and [seed] are answered differently, always. *)
Lemma C204_same_answers_refuted_lemma : forall (V : Type) (v0 : V) (conv : dt -> dt -> V -> V) (E A X Info At Rg : Type) (e_step : E -> A -> E * (obs V * X))
    (e_reset : E -> option (option Z) -> E * (obs V * Info)) (e_get : E -> nat -> option At)
    (e_set : E -> nat -> At -> E) (seed_rg : option Z -> Rg -> Rg) (draw : Rg -> Rg * A) (w : dummy) (p : proc) (k : nat) (s : option Z),
  d_env w = p_env p -> p_dead p = false -> e_get (d_env w) k = None ->
  let dop := dummy_op e_step e_reset None None e_get e_set seed_rg draw w in
  let pop := proc_op conv e_step e_reset None None e_get e_set seed_rg draw p in
  snd (dop (WGet k)) = Err AttributeError /\ snd (pop (WGet k)) = Ok RNone /\ snd (dop WRender) = Err AttributeError /\ snd (pop WRender) = Ok RNone /\
  snd (dop (WSeed s)) = Ok (RSeeds [s]) /\ snd (pop (WSeed s)) = Ok RNone.
Proof.
  intros V v0 conv E A X Info At Rg e_step e_reset e_get e_set seed_rg draw w p k s HE HD HG dop pop. subst dop pop. unfold dummy_op, proc_op. rewrite HD. cbn [snd]. rewrite HG. rewrite <- HE, HG.
  repeat split; reflexivity.
Qed.
(** C205. As long as the vector environment's [reset] is not given a seed, the action spaces of both kinds of worker give the same actions. *)
Lemma C205_actions_lemma : forall (V : Type) (v0 : V) (conv : dt -> dt -> V -> V) (E A X Info At Rg : Type) (e_step : E -> A -> E * (obs V * X))
    (e_reset : E -> option (option Z) -> E * (obs V * Info)) (e_render : option (E -> E * At)) (e_seed : option (E -> option Z -> E * At)) (e_get : E -> nat -> option At)
    (e_set : E -> nat -> At -> E) (seed_rg : option Z -> Rg -> Rg) (draw : Rg -> Rg * A) (sp : option space) (e : E) (g : Rg) (p : proc) (ops : list wop),
  (forall d v, conv d d v = v) ->
  match sp with Some s => (forall e a, fits s (fst (snd (e_step e a)))) /\ (forall e k, fits s (fst (snd (e_reset e k)))) | None => True end ->
  new_proc v0 sp e g = Ok p -> (forall o, In o ops -> seeded_reset o = false) ->
  let '(w', rs) := dummy_run e_step e_reset e_render e_seed e_get e_set seed_rg draw (new_dummy e g) ops in
  let '(p', rs') := proc_run conv e_step e_reset e_render e_seed e_get e_set seed_rg draw p ops in
  d_space w' = p_space p' /\
  forall i o r r', nth_error ops i = Some o -> nth_error rs i = Some r -> nth_error rs' i = Some r' -> is_sample o = true -> r = r'.
Proof.
  intros V v0 conv E A X Info At Rg e_step e_reset e_render e_seed e_get e_set seed_rg draw sp e g p ops HC HF HN HO.
  destruct (new_good v0 sp e g p HN) as (N1 & N2 & N3 & N4).
  pose proof (run_ok V conv E A X Info At Rg e_step e_reset e_render e_seed e_get e_set seed_rg draw sp HC HF ops (new_dummy e g) p (eq_sym N1) N3 N4) as Q.
  destruct (dummy_run e_step e_reset e_render e_seed e_get e_set seed_rg draw (new_dummy e g) ops) as [w' rs]. destruct (proc_run conv e_step e_reset e_render e_seed e_get e_set seed_rg draw p ops) as [p' rs'].
  destruct Q as (_ & _ & _ & _ & _ & Q). apply Q; [exact HO | cbn; congruence].
Qed.
(** C205. With a seed, [reset] seeds the action space of a worker in another process and leaves the other kind as it was; the next actions are drawn from these. *)
Lemma C205_reset_seed_refuted_lemma : forall (V : Type) (v0 : V) (conv : dt -> dt -> V -> V) (E A X Info At Rg : Type) (e_step : E -> A -> E * (obs V * X))
    (e_reset : E -> option (option Z) -> E * (obs V * Info)) (e_render : option (E -> E * At)) (e_seed : option (E -> option Z -> E * At)) (e_get : E -> nat -> option At)
    (e_set : E -> nat -> At -> E) (seed_rg : option Z -> Rg -> Rg) (draw : Rg -> Rg * A) (e : E) (g : Rg) (s : option Z),
  exists (p : proc) r r', new_proc v0 None e g = Ok p /\
  snd (dummy_run e_step e_reset e_render e_seed e_get e_set seed_rg draw (new_dummy e g) [WSendReset (Some s); WSample]) = [r; Ok (RAct (snd (draw g)))] /\
  snd (proc_run conv e_step e_reset e_render e_seed e_get e_set seed_rg draw p [WSendReset (Some s); WSample]) = [r'; Ok (RAct (snd (draw (seed_rg s g))))].
Proof.
  intros. eexists. exists (snd (dummy_op e_step e_reset e_render e_seed e_get e_set seed_rg draw (new_dummy e g) (WSendReset (Some s)))).
  exists (snd (proc_op conv e_step e_reset e_render e_seed e_get e_set seed_rg draw (mkP e g g None false) (WSendReset (Some s)))). split; [reflexivity|].
  cbn [dummy_run proc_run]. unfold dummy_op, proc_op, new_dummy. cbn [d_env d_space p_env p_dead]. destruct (e_reset e (Some s)) as [e' [b i]]. unfold put_obs, with_space. cbn.
  destruct (draw g) as [g1 a1]. destruct (draw (seed_rg s g)) as [g2 a2]. split; reflexivity.
Qed.

(** ** Views of shared memory *)
Lemma eqo_arr {V : Type} (b : buf V) sp (o : obs V) : is_array sp = true -> isbuf sp b -> fits sp o -> eqo (decode b) o -> decode b = o.
Proof. intros HA HB HF HE. destruct sp; try discriminate HA. inversion HB; subst. cbn in *. inversion HE; subst. reflexivity. Qed.
Lemma returned_arr {V : Type} (b : buf V) sp i : is_array sp = true -> isbuf sp b -> returned i b = Kept (decode b).
Proof. intros HA HB. destruct sp; try discriminate HA. inversion HB; subst. reflexivity. Qed.
Lemma returned_dict {V : Type} (b : buf V) sp i : is_dict sp = true -> isbuf sp b -> returned i b = View i.
Proof. intros HA HB. destruct sp; try discriminate HA. inversion HB; subst. reflexivity. Qed.
Lemma upd_nth_error {A : Type} (l : list A) i j x : nth_error (upd l i x) j = if (i =? j) && (j <? length l) then Some x else nth_error l j.
Proof.
  revert i j. induction l as [|y l IH]; intros i j.
  - cbn [length]. destruct i, j; cbn; rewrite ?andb_false_r; reflexivity.
  - destruct i as [|i], j as [|j]; cbn [upd nth_error length]; try reflexivity. rewrite IH. replace (S i =? S j) with (i =? j) by reflexivity. replace (S j <? S (length l)) with (j <? length l) by reflexivity. reflexivity.
Qed.
Lemma shm_spec {V : Type} (conv : dt -> dt -> V -> V) sp : (forall d v, conv d d v = v) -> forall l mem,
  (forall b, In b mem -> isbuf sp b) -> (forall i o, In (i, o) l -> i < length mem /\ fits sp o) ->
  exists mem' rs, shm_run conv mem l = Ok (mem', rs) /\ length mem' = length mem /\ length rs = length l /\
  (forall k i o, nth_error l k = Some (i, o) -> exists b, nth_error rs k = Some (returned i b) /\ isbuf sp b /\ eqo (decode b) o) /\
  (forall i, match last_of i l with Some o => exists b, nth_error mem' i = Some b /\ eqo (decode b) o | None => nth_error mem' i = nth_error mem i end).
Proof.
  intros HC. induction l as [|[i o] l IH]; intros mem HM HL.
  - exists mem, []. cbn. split; [reflexivity|]. split; [reflexivity|]. split; [reflexivity|]. split; [intros [|k]; discriminate | reflexivity].
  - destruct (HL i o (or_introl eq_refl)) as [HI HF]. cbn [shm_run]. destruct (nth_error mem i) as [b|] eqn:EN; [|apply nth_error_None in EN; lia].
    destruct (C203_round_trip_lemma V conv sp o b HC HF (HM b (nth_error_In _ _ EN))) as (b' & EB & HB & HE). rewrite EB. cbn [bind].
    destruct (IH (upd mem i b')) as (mem' & rs & ER & L1 & L2 & R1 & R2).
    + intros c Hc. apply In_nth_error in Hc. destruct Hc as [j Hj]. rewrite upd_nth_error in Hj. destruct ((i =? j) && (j <? length mem)); [injection Hj as <-; exact HB | exact (HM c (nth_error_In _ _ Hj))].
    + intros j o' Hj. rewrite upd_length. apply HL. right. exact Hj.
    + rewrite ER. cbn [bind fst snd]. rewrite upd_length in L1. exists mem', (returned i b' :: rs). split; [reflexivity|]. split; [exact L1|]. split; [cbn; congruence|]. split.
      * intros [|k] j o'; cbn [nth_error]; [|apply R1]. intros Q. injection Q as <- <-. exists b'. split; [reflexivity | split; assumption].
      * intros j. cbn [last_of]. specialize (R2 j). destruct (last_of j l) as [o'|]; [exact R2|]. rewrite upd_nth_error in R2. destruct (Nat.eqb_spec i j) as [EQ | N]; cbn [andb] in R2; [|exact R2]. rewrite <- EQ in *.
        replace (i <? length mem) with true in R2 by (symmetry; apply Nat.ltb_lt; exact HI). exists b'. split; [exact R2 | exact HE].
Qed.
(** C206. Array observations returned by a vector environment with shared memory stay as they were, whatever the workers do later. *)
Lemma C206_arrays_lemma : forall (V : Type) (conv : dt -> dt -> V -> V) (sp : space) (l : list (nat * obs V)) (mem : list (buf V)),
  (forall d v, conv d d v = v) -> is_array sp = true -> (forall b, In b mem -> isbuf sp b) -> (forall i o, In (i, o) l -> i < length mem /\ fits sp o) ->
  exists mem' rs, shm_run conv mem l = Ok (mem', rs) /\ length rs = length l /\
  forall k i o, nth_error l k = Some (i, o) -> exists r, nth_error rs k = Some r /\ read mem' r = Some o.
Proof.
  intros V conv sp l mem HC HA HM HL. destruct (shm_spec conv sp HC l mem HM HL) as (mem' & rs & ER & L1 & L2 & R1 & R2). exists mem', rs. split; [exact ER|]. split; [exact L2|].
  intros k i o HK. destruct (R1 k i o HK) as (b & EB & HB & HE). exists (returned i b). split; [exact EB|]. rewrite (returned_arr b sp i HA HB). cbn [read]. f_equal.
  apply (eqo_arr b sp o HA HB); [|exact HE]. apply nth_error_In in HK. exact (proj2 (HL i o HK)).
Qed.
(** C206. Dictionaries do not: once the worker has moved on, each one it ever returned shows its latest observation. *)
Lemma C206_dicts_refuted_lemma : forall (V : Type) (conv : dt -> dt -> V -> V) (sp : space) (l : list (nat * obs V)) (mem : list (buf V)),
  (forall d v, conv d d v = v) -> is_dict sp = true -> (forall b, In b mem -> isbuf sp b) -> (forall i o, In (i, o) l -> i < length mem /\ fits sp o) ->
  exists mem' rs, shm_run conv mem l = Ok (mem', rs) /\ length rs = length l /\
  forall k i o, nth_error l k = Some (i, o) -> exists r o' latest, nth_error rs k = Some r /\ read mem' r = Some o' /\ last_of i l = Some latest /\ eqo o' latest.
Proof.
  intros V conv sp l mem HC HA HM HL. destruct (shm_spec conv sp HC l mem HM HL) as (mem' & rs & ER & L1 & L2 & R1 & R2). exists mem', rs. split; [exact ER|]. split; [exact L2|].
  intros k i o HK. destruct (R1 k i o HK) as (b & EB & HB & _). specialize (R2 i). destruct (last_of i l) as [o'|] eqn:EL.
  - destruct R2 as (b' & EB' & HE'). exists (returned i b), (decode b'), o'. split; [exact EB|]. rewrite (returned_dict b sp i HA HB). cbn [read]. rewrite EB'. split; [reflexivity | split; [reflexivity | exact HE']].
  - exfalso. clear - HK EL. revert k HK EL. induction l as [|[j o'] l IH]; intros [|k] HK EL; try discriminate HK; cbn [last_of nth_error] in *.
    + injection HK as -> ->. destruct (last_of i l); [discriminate EL|]. rewrite Nat.eqb_refl in EL. discriminate EL.
    + destruct (last_of i l) eqn:E; [discriminate EL|]. exact (IH k HK eq_refl).
Qed.
Lemma collect_arr {V : Type} (conv : dt -> dt -> V -> V) sp : (forall d v, conv d d v = v) -> is_array sp = true -> forall l b prev, isbuf sp b -> answers (fits sp) l ->
  collect_shm conv b (Kept prev) l = Ok (map (fun x => (Some (fst x), Some (snd x))) (transitions prev l)).
Proof.
  intros HC HA. induction l as [|[o again] l IH]; intros b prev HB HL; [reflexivity|]. cbn [collect_shm transitions map fst snd].
  destruct (HL o again (or_introl eq_refl)) as [HF HG]. destruct (C203_round_trip_lemma V conv sp o b HC HF HB) as (b1 & -> & HB1 & HE1). cbn [bind].
  pose proof (eqo_arr b1 sp o HA HB1 HF HE1) as D1. assert (HL' : answers (fits sp) l) by (intros o' a' H'; apply HL; right; exact H').
  destruct again as [o'|].
  - destruct (C203_round_trip_lemma V conv sp o' b1 HC HG HB1) as (b2 & -> & HB2 & HE2). cbn [bind]. rewrite (returned_arr b2 sp 0 HA HB2), (eqo_arr b2 sp o' HA HB2 HG HE2), (IH b2 o' HB2 HL'). cbn [bind].
    rewrite (returned_arr b1 sp 0 HA HB1). cbn [read]. rewrite D1. reflexivity.
  - cbn [bind]. rewrite (returned_arr b1 sp 0 HA HB1), D1, (IH b1 o HB1 HL'). reflexivity.
Qed.
(** C206. With array observations the collector stores each observation with the next one. *)
Lemma C206_collector_lemma : forall (V : Type) (conv : dt -> dt -> V -> V) (sp : space) (b : buf V) (first : obs V) (l : list (obs V * option (obs V))),
  (forall d v, conv d d v = v) -> is_array sp = true -> isbuf sp b -> fits sp first -> answers (fits sp) l ->
  collect_from conv b first l = Ok (map (fun x => (Some (fst x), Some (snd x))) (transitions first l)).
Proof.
  intros V conv sp b first l HC HA HB HF HL. unfold collect_from. destruct (C203_round_trip_lemma V conv sp first b HC HF HB) as (b1 & -> & HB1 & HE1). cbn [bind].
  rewrite (returned_arr b1 sp 0 HA HB1), (eqo_arr b1 sp first HA HB1 HF HE1). exact (collect_arr conv sp HC HA l b1 first HB1 HL).
Qed.
(** C206. With dictionaries, it stores the next observation twice, in every transition. *)
Lemma C206_collector_refuted_lemma : forall (V : Type) (conv : dt -> dt -> V -> V) (sp : space) (b : buf V) (first : obs V) (l : list (obs V * option (obs V))),
  (forall d v, conv d d v = v) -> is_dict sp = true -> isbuf sp b -> fits sp first -> answers (fits sp) l ->
  exists r, collect_from conv b first l = Ok r /\ length r = length l /\
  forall k o again, nth_error l k = Some (o, again) -> exists a, nth_error r k = Some (Some a, Some a) /\ eqo a o.
Proof.
  intros V conv sp b first l HC HA HB HF HL. unfold collect_from. destruct (C203_round_trip_lemma V conv sp first b HC HF HB) as (b1 & -> & HB1 & _). cbn [bind].
  rewrite (returned_dict b1 sp 0 HA HB1). clear HF first HB b. revert b1 HB1 HL. induction l as [|[o again] l IH]; intros b HB HL.
  - exists []. split; [reflexivity|]. split; [reflexivity|]. intros [|k]; discriminate.
  - cbn [collect_shm]. destruct (HL o again (or_introl eq_refl)) as [HF HG]. destruct (C203_round_trip_lemma V conv sp o b HC HF HB) as (b1 & -> & HB1 & HE1). cbn [bind].
    assert (HL' : answers (fits sp) l) by (intros o' a' H'; apply HL; right; exact H'). rewrite (returned_dict b1 sp 0 HA HB1). cbn [read nth_error option_map].
    destruct again as [o'|].
    + destruct (C203_round_trip_lemma V conv sp o' b1 HC HG HB1) as (b2 & -> & HB2 & _). cbn [bind]. rewrite (returned_dict b2 sp 0 HA HB2).
      destruct (IH b2 HB2 HL') as (r & -> & LR & PR). cbn [bind]. eexists. split; [reflexivity|]. split; [cbn; congruence|]. intros [|k] o1 ag; cbn [nth_error]; [|apply PR].
      intros Q. injection Q as <- _. exists (decode b1). split; [reflexivity | exact HE1].
    + cbn [bind]. destruct (IH b1 HB1 HL') as (r & -> & LR & PR). cbn [bind]. eexists. split; [reflexivity|]. split; [cbn; congruence|]. intros [|k] o1 ag; cbn [nth_error]; [|apply PR].
      intros Q. injection Q as <- _. exists (decode b1). split; [reflexivity | exact HE1].
Qed.

(** ** Normalised observations *)
Lemma column_app j l m : column j (l ++ m) = column j l ++ column j m. Proof. apply map_app. Qed.
Lemma column_nil j l : column j l = [] -> l = []. Proof. destruct l; [reflexivity | discriminate]. Qed.
Lemma first_update mean std (b : list Qc) : b <> [] -> exists r, rms_update (rms_init mean std) b = Ok r /\ r_mean r = np_mean b /\ r_var r = np_var b /\ r_count r = length b.
Proof.
  intros Hb. unfold rms_update. destruct (Nat.eqb_spec (length b) 0) as [E|E]; [destruct b; [contradiction|discriminate]|].
  eexists. split; [reflexivity|]. cbn [rms_init r_mean r_var r_count Nat.add]. change (sq 0) with 0%Qc.
  assert (Nd : sq (length b) <> 0%Qc) by (apply sq_neq; lia). split; [field; exact Nd|]. split; [field; exact Nd|reflexivity].
Qed.
Definition seen_by (mean std : Qc) (d : nat) (all : list (list Qc)) (rs : list rms) : Prop :=
  length rs = d /\ (all = [] -> rs = repeat (rms_init mean std) d) /\ (all <> [] -> forall j r, nth_error rs j = Some r -> stats_of j all r).
Lemma cols_spec mean std all data : data <> [] -> forall rs j0, (all = [] -> forall r, In r rs -> r = rms_init mean std) ->
  (all <> [] -> forall j r, nth_error rs j = Some r -> stats_of (j0 + j) all r) ->
  exists rs', rms_cols j0 rs data = Ok rs' /\ length rs' = length rs /\ forall j r, nth_error rs' j = Some r -> stats_of (j0 + j) (all ++ data) r.
Proof.
  intros HD. induction rs as [|r rs IH]; intros j0 H0 H1; [exists []; split; [reflexivity|]; split; [reflexivity|]; intros [|j]; discriminate|]. cbn [rms_cols].
  assert (Q : exists r', rms_update r (column j0 data) = Ok r' /\ stats_of j0 (all ++ data) r').
  { assert (HC : column j0 data <> []) by (intros C; apply column_nil in C; contradiction). destruct all as [|x all].
    - rewrite (H0 eq_refl r (or_introl eq_refl)). destruct (first_update mean std _ HC) as (r' & E & Q1 & Q2 & Q3). exists r'. split; [exact E|]. cbn [app]. split; [|split; assumption]. rewrite Q3. apply map_length.
    - assert (HX : x :: all <> []) by discriminate. assert (HXc : column j0 (x :: all) <> []) by (intros C; apply column_nil in C; discriminate C).
      destruct (H1 HX 0 r eq_refl) as (S1 & S2 & S3). rewrite Nat.add_0_r in S2, S3.
      destruct (update_mean_var r (column j0 (x :: all)) (column j0 data) HXc HC S2 S3) as (r' & E & Q1 & Q2 & Q3); [unfold column; rewrite map_length; exact S1|].
      exists r'. split; [exact E|]. rewrite <- column_app in Q1, Q2, Q3. split; [|split; assumption]. rewrite Q3. apply map_length. }
  destruct Q as (r' & -> & HS). cbn [bind]. destruct (IH (S j0)) as (rs' & -> & L & P).
  - intros HA r1 Hr1. apply (H0 HA). right. exact Hr1.
  - intros HA j r1 Hj. specialize (H1 HA (S j) r1 Hj). rewrite Nat.add_succ_r in H1. exact H1.
  - cbn [bind]. exists (r' :: rs'). split; [reflexivity|]. split; [cbn; congruence|]. intros [|j] r1; cbn [nth_error]; [intros Q; injection Q as <-; rewrite Nat.add_0_r; exact HS|].
    intros Q. rewrite Nat.add_succ_r. apply (P j r1 Q).
Qed.
(** What the training wrapper has seen in a history. *)
Lemma norm_shared sqrt eps clip mean std d a : forall l h all, a < length h -> seen_by mean std d all (nth a h []) -> (forall b o, In (b, o) l -> rows_ok d o) ->
  exists outs h', norm_run sqrt eps clip (mkN true (Some a), mkN false (Some a)) h l = Ok (outs, h') /\ length outs = length l /\
    length h' = length h /\ (forall a', a' <> a -> nth a' h' [] = nth a' h []) /\ seen_by mean std d (all ++ trained l) (nth a h' []) /\
    forall k b o, nth_error l k = Some (b, o) -> exists rs, nth_error outs k = Some (Rows (map (norm_row sqrt eps clip rs) (rows o))) /\ seen_by mean std d (all ++ trained (firstn (S k) l)) rs.
Proof.
  induction l as [|[b o] l IH]; intros h all HA HS HL.
  - exists [], h. split; [reflexivity|]. split; [reflexivity|]. split; [reflexivity|]. split; [reflexivity|]. split; [cbn [trained]; rewrite app_nil_r; exact HS|]. intros [|k]; discriminate.
  - pose proof (HL b o (or_introl eq_refl)) as HR. destruct o as [rws|n]; [|destruct HR]. destruct HR as [HR1 HR2]. cbn [norm_run fst snd].
    set (all1 := all ++ if b then rws else []).
    assert (Q : exists h1, norm_call sqrt eps clip (if b then mkN true (Some a) else mkN false (Some a)) h (Rows rws) = Ok (Rows (map (norm_row sqrt eps clip (nth a h1 [])) rws), h1)
       /\ length h1 = length h /\ (forall a', a' <> a -> nth a' h1 [] = nth a' h []) /\ seen_by mean std d all1 (nth a h1 [])).
    { unfold norm_call. destruct b; cbn [n_rms n_update]; subst all1.
      - destruct HS as (L & S0 & S1). destruct (cols_spec mean std all rws HR1 (nth a h []) 0) as (rs' & ER & LR & PR).
        + intros HE r Hr. rewrite (S0 HE) in Hr. exact (repeat_spec _ _ _ Hr).
        + exact S1.
        + rewrite ER. cbn [bind]. exists (upd h a rs'). split; [reflexivity|]. split; [apply upd_length|]. split; [intros a' N; apply nth_upd_other; auto|]. rewrite nth_upd_same by exact HA.
          split; [congruence|]. split; [intros HE; apply app_eq_nil in HE; destruct HE; contradiction | intros _; exact PR].
      - exists h. rewrite app_nil_r. cbn [bind]. split; [reflexivity|]. split; [reflexivity|]. split; [reflexivity | exact HS]. }
    destruct Q as (h1 & E1 & L1 & O1 & S1). rewrite E1. cbn [bind fst snd].
    destruct (IH h1 all1 ltac:(lia) S1 (fun b' o' H' => HL b' o' (in_cons _ _ _ H'))) as (outs & h' & E2 & L2 & L3 & O2 & S2 & P2). rewrite E2. cbn [bind fst snd].
    eexists. exists h'. split; [reflexivity|]. split; [cbn; congruence|]. split; [congruence|]. split; [intros a' N; rewrite O2, O1; auto|].
    assert (T : forall m, all ++ trained ((b, Rows rws) :: m) = all1 ++ trained m) by (intros m; subst all1; cbn [trained rows]; apply app_assoc).
    rewrite T. split; [exact S2|]. intros [|k] b' o'; cbn [nth_error].
    + intros Q. injection Q as <- <-. exists (nth a h1 []). split; [reflexivity|]. cbn [firstn]. rewrite T. cbn [trained]. rewrite app_nil_r. exact S1.
    + intros Q. destruct (P2 k b' o' Q) as (rs & E3 & S3). exists rs. split; [exact E3|]. change (firstn (S (S k)) ((b, Rows rws) :: l)) with ((b, Rows rws) :: firstn (S k) l). rewrite T. exact S3.
Qed.
Lemma trained_all l : trained (map (fun o => (true, o)) l) = concat (map rows l).
Proof. induction l as [|o l IH]; [reflexivity|]. cbn [map trained concat]. rewrite IH. reflexivity. Qed.
(** C207. VectorEnvNormObs keeps the statistics of all observations it has returned, and each batch is normalised with those that include it. *)
Lemma C207_statistics_lemma : forall (sqrt : Qc -> Qc) (eps : Qc) (clip : option Qc) (mean std : Qc) (d : nat) (l : list raw),
  (forall o, In o l -> rows_ok d o) ->
  exists outs rs', norm_run sqrt eps clip (mkN true (Some 0), mkN true (Some 0)) [repeat (rms_init mean std) d] (map (fun o => (true, o)) l) = Ok (outs, [rs']) /\ length outs = length l /\
    length rs' = d /\ (l <> [] -> forall j r, nth_error rs' j = Some r -> stats_of j (concat (map rows l)) r) /\
    forall k o, nth_error l k = Some o -> exists rs, length rs = d /\ (forall j r, nth_error rs j = Some r -> stats_of j (concat (map rows (firstn (S k) l))) r) /\
      nth_error outs k = Some (Rows (map (fun row => map (fun x => rms_norm sqrt eps clip (fst x) (snd x)) (combine rs row)) (rows o))).
Proof.
  intros sqrt eps clip mean std d l HL.
  assert (E0 : forall w h m, norm_run sqrt eps clip (mkN true (Some 0), w) h (map (fun o => (true, o)) m) = norm_run sqrt eps clip (mkN true (Some 0), mkN false (Some 0)) h (map (fun o => (true, o)) m)).
  { intros w h m. revert h. induction m as [|o m IH]; intros h; [reflexivity|]. cbn [map norm_run fst]. destruct (norm_call sqrt eps clip (mkN true (Some 0)) h o) as [[o' h']|]; [|reflexivity]. cbn [bind snd]. rewrite IH. reflexivity. }
  rewrite E0. destruct (norm_shared sqrt eps clip mean std d 0 (map (fun o => (true, o)) l) [repeat (rms_init mean std) d] []) as (outs & h' & E & L & LH & _ & S & P).
  - cbn. lia.
  - cbn [nth]. split; [apply repeat_length|]. split; [reflexivity | contradiction].
  - intros b o H. apply in_map_iff in H. destruct H as (o' & Q & H). injection Q as <- <-. apply HL, H.
  - destruct h' as [|rs' [|? ?]]; try discriminate LH. rewrite map_length in L. exists outs, rs'. split; [exact E|]. split; [exact L|]. cbn [nth app] in S. rewrite trained_all in S. destruct S as (S1 & _ & S3). split; [exact S1|].
    assert (NE : forall m, m <> [] -> (forall o, In o m -> rows_ok d o) -> concat (map rows m) <> []).
    { intros [|o m] N HM; [contradiction|]. specialize (HM o (or_introl eq_refl)). destruct o as [rws|]; [|destruct HM]. cbn. destruct rws; [destruct HM; contradiction | discriminate]. }
    split; [intros N; apply S3, NE; assumption|]. intros k o HK. destruct (P k true o) as (rs & E1 & Q1 & _ & Q3); [rewrite nth_error_map, HK; reflexivity|].
    exists rs. split; [exact Q1|]. split; [|exact E1]. cbn [app] in Q3. rewrite firstn_map, trained_all in Q3. apply Q3, NE.
    + destruct l; [destruct k; discriminate HK | discriminate].
    + intros o' H'. apply HL. rewrite <- (firstn_skipn (S k) l). apply in_or_app. left. exact H'.
Qed.
(** C207. Without statistics ([set_obs_rms(None)]) observations of any kind pass unchanged. *)
Lemma C207_off_lemma : forall (sqrt : Qc -> Qc) (eps : Qc) (clip : option Qc) (u : bool) (h : list (list rms)) (o : raw), norm_call sqrt eps clip (mkN u None) h o = Ok (o, h).
Proof. reflexivity. Qed.
(** C207. The error for tuples says "change it to array or dict space", but dictionaries raise a TypeError as well, from numpy, whether or not the statistics are updated. *)
Lemma C207_dict_refuted_lemma : forall (sqrt : Qc -> Qc) (eps : Qc) (clip : option Qc) (u : bool) (a n : nat) (h : list (list rms)), norm_call sqrt eps clip (mkN u (Some a)) h (Dicts n) = Err TypeError.
Proof. reflexivity. Qed.
(** C208. Training and test wrappers that share statistics: whatever the order of their calls, the test wrapper never changes them, and both normalise with the statistics of
    what the training wrapper has seen so far (the initial ones if that is nothing). *)
Lemma C208_shared_lemma : forall (sqrt : Qc -> Qc) (eps : Qc) (clip : option Qc) (mean std : Qc) (d : nat) (l : list (bool * raw)),
  (forall b o, In (b, o) l -> rows_ok d o) ->
  exists outs rs', norm_run sqrt eps clip (mkN true (Some 0), mkN false (Some 0)) [repeat (rms_init mean std) d] l = Ok (outs, [rs']) /\ length outs = length l /\
    length rs' = d /\ (trained l <> [] -> forall j r, nth_error rs' j = Some r -> stats_of j (trained l) r) /\
    forall k b o, nth_error l k = Some (b, o) -> exists rs, length rs = d /\
      (trained (firstn (S k) l) = [] -> rs = repeat (rms_init mean std) d) /\
      (trained (firstn (S k) l) <> [] -> forall j r, nth_error rs j = Some r -> stats_of j (trained (firstn (S k) l)) r) /\
      nth_error outs k = Some (Rows (map (fun row => map (fun x => rms_norm sqrt eps clip (fst x) (snd x)) (combine rs row)) (rows o))).
Proof.
  intros sqrt eps clip mean std d l HL.
  destruct (norm_shared sqrt eps clip mean std d 0 l [repeat (rms_init mean std) d] []) as (outs & h' & E & L & LH & _ & S & P).
  - cbn. lia.
  - cbn [nth]. split; [apply repeat_length|]. split; [reflexivity | contradiction].
  - exact HL.
  - destruct h' as [|rs' [|? ?]]; try discriminate LH. exists outs, rs'. split; [exact E|]. split; [exact L|]. cbn [nth app] in S. destruct S as (S1 & _ & S3). split; [exact S1|]. split; [exact S3|].
    intros k b o HK. destruct (P k b o HK) as (rs & E1 & Q1 & Q2 & Q3). exists rs. cbn [app] in Q2, Q3. split; [exact Q1|]. split; [exact Q2|]. split; [exact Q3 | exact E1].
Qed.
(** C208. Two wrappers that both update shared statistics: a call of either counts. *)
Lemma C208_updating_lemma : forall (sqrt : Qc -> Qc) (eps : Qc) (clip : option Qc) (mean std : Qc) (d : nat) (b : bool) (o : raw), rows_ok d o ->
  exists outs rs', norm_run sqrt eps clip (mkN true (Some 0), mkN true (Some 0)) [repeat (rms_init mean std) d] [(b, o)] = Ok (outs, [rs']) /\
    forall j r, nth_error rs' j = Some r -> stats_of j (rows o) r.
Proof.
  intros sqrt eps clip mean std d b o HO. destruct o as [rws|]; [|destruct HO]. destruct HO as [H1 H2].
  destruct (cols_spec mean std [] rws H1 (repeat (rms_init mean std) d) 0) as (rs' & ER & LR & PR); [intros _ r Hr; exact (repeat_spec _ _ _ Hr) | contradiction|].
  assert (G : norm_call sqrt eps clip (mkN true (Some 0)) [repeat (rms_init mean std) d] (Rows rws) = Ok (Rows (map (norm_row sqrt eps clip rs') rws), [rs'])) by (unfold norm_call; cbn [n_rms n_update nth]; rewrite ER; reflexivity).
  exists [Rows (map (norm_row sqrt eps clip rs') rws)], rs'. split; [destruct b; cbn [norm_run fst snd]; rewrite G; reflexivity|]. intros j r Hj. exact (PR j r Hj).
Qed.

(** ** Wrappers *)
(** C210. In any number of wrappers: the reserved keys come from the workers, length and [is_async] are those of the environment inside, and methods exist. *)
Lemma C210_forwarded_lemma : forall (v : venv) (n : nat) (b : bool), base v = VBase n b ->
  getattr v AReserved = Ok (Workers n) /\ venv_len v = n /\ is_async v = b /\ getattr v AMethod = Ok (Method v) /\ exists f, getattr v AIsAsync = Ok f.
Proof.
  intros v n b. induction v as [m c|v IH]; cbn [base]; intros H.
  - injection H as -> ->. repeat (split; [reflexivity|]). eexists. reflexivity.
  - destruct (IH H) as (H1 & H2 & H3 & _). split; [exact H1|]. split; [exact H2|]. split; [exact H3|]. split; [reflexivity|]. eexists. reflexivity.
Qed.
(** C210. It is not "a drop-in replacement": no wrapper has the number of environments, the workers, or the lists of waiting and ready environments. *)
Lemma C210_drop_in_refuted_lemma : forall (v : venv) (a : attr), In a [AEnvFns; AWorkers; AWorkerClass; AEnvNum; AWaitNum; ATimeout; AWaitingConn; AWaitingId; AReadyId; AIsClosed] ->
  getattr (VWrap v) a = Err AttributeError /\ exists f, getattr (base v) a = Ok f.
Proof.
  intros v a H. assert (B : exists n b, base v = VBase n b) by (induction v as [n b|v IH]; [exists n, b; reflexivity | exact IH]). destruct B as (n & b & ->).
  cbn [In] in H. repeat (destruct H as [<- | H]; [split; [reflexivity | eexists; reflexivity]|]). destruct H.
Qed.
(** C210. So an AsyncCollector cannot be reset with a wrapped asynchronous environment, though it can with the one inside. *)
Lemma C210_async_collector_refuted_lemma : forall (v : venv), async_reset_env (VWrap v) = Err AttributeError /\ is_ok (async_reset_env (base v)) = true.
Proof.
  intros v. assert (B : exists n b, base v = VBase n b) by (induction v as [n b|v IH]; [exists n, b; reflexivity | exact IH]). destruct B as (n & b & ->). split; reflexivity.
Qed.

(** ** PettingZoo *)
Lemma agent_idx_spec a : forall l i, match agent_idx l i a with Some j => i <= j /\ nth_error l (j - i) = Some a | None => ~ In a l end.
Proof.
  induction l as [|b l IH]; intros i; cbn [agent_idx]; [intros []|]. specialize (IH (S i)). destruct (agent_idx l (S i) a) as [j|].
  - destruct IH as [L N]. split; [lia|]. replace (j - i) with (S (j - S i)) by lia. exact N.
  - destruct (Nat.eqb_spec b a) as [-> | N]; [split; [lia | rewrite Nat.sub_diag; reflexivity]|]. intros [C | C]; contradiction.
Qed.
Definition newest (a : nat) (rs : list (nat * Z)) (old : Z) : Z := match fold_left (fun acc x => if fst x =? a then Some (snd x) else acc) rs None with Some r => r | None => old end.
Lemma fold_some a : forall (rs : list (nat * Z)) r0, fold_left (fun acc x => if fst x =? a then Some (snd x) else acc) rs (Some r0) =
  match fold_left (fun acc x => if fst x =? a then Some (snd x) else acc) rs None with Some r => Some r | None => Some r0 end.
Proof.
  induction rs as [|[b r] rs IH]; intros r0; [reflexivity|]. cbn [fold_left fst snd]. destruct (b =? a); [|apply IH]. rewrite (IH r).
  destruct (fold_left _ rs None); reflexivity.
Qed.
Lemma newest_cons a b r rs old : newest a ((b, r) :: rs) old = newest a rs (if b =? a then r else old).
Proof.
  unfold newest. cbn [fold_left fst snd]. destruct (b =? a); [|reflexivity]. rewrite fold_some. destruct (fold_left _ rs None); reflexivity.
Qed.
Lemma set_rewards_spec agents : NoDup agents -> forall rs rew, (forall a r, In (a, r) rs -> In a agents) -> length rew = length agents ->
  exists rew', set_rewards agents rs rew = Ok rew' /\ length rew' = length agents /\ forall i a, nth_error agents i = Some a -> nth i rew' 0%Z = newest a rs (nth i rew 0%Z).
Proof.
  intros ND. induction rs as [|[b r] rs IH]; intros rew HA HL.
  - exists rew. split; [reflexivity|]. split; [exact HL | reflexivity].
  - cbn [set_rewards]. pose proof (agent_idx_spec b agents 0) as Q. destruct (agent_idx agents 0 b) as [j|]; [|exfalso; apply Q, (HA b r); left; reflexivity].
    destruct Q as [_ Q]. rewrite Nat.sub_0_r in Q. destruct (IH (upd rew j r)) as (rew' & E & L & P); [intros a' r' H'; apply (HA a' r'); right; exact H' | rewrite upd_length; exact HL|].
    exists rew'. split; [exact E|]. split; [exact L|]. intros i a Hi. rewrite (P i a Hi), newest_cons. f_equal.
    assert (LJ : j < length agents) by (apply nth_error_Some; congruence). destruct (Nat.eqb_spec b a) as [-> | N].
    + assert (j = i) as ->; [|apply nth_upd_same; lia]. apply (NoDup_nth_error agents); [exact ND | exact LJ | congruence].
    + apply nth_upd_other. intros ->. congruence.
Qed.
Lemma zoo_run_spec {E A O : Type} (z_step : E -> A -> E) (z_reset : E -> E) (z_sel : E -> nat) (z_last : E -> O * option (list Z) * bool * bool) (z_rewards : E -> list (nat * Z)) (discrete : option nat) :
  forall agents, NoDup agents -> (forall e a r, In (a, r) (z_rewards e) -> In a agents) -> forall l z, z_agents z = agents -> length (z_rew z) = length agents ->
  exists z' es, zoo_run z_step z_reset z_sel z_last z_rewards discrete z l = Ok (z', es) /\ z_agents z' = agents /\ length (z_rew z') = length agents /\
    forall i a, nth_error agents i = Some a -> nth i (z_rew z') 0%Z = match last_reward a (map z_rewards es) with Some r => r | None => nth i (z_rew z) 0%Z end.
Proof.
  intros agents ND HR. induction l as [|[|act] l IH]; intros z HA HL.
  - exists z, []. split; [reflexivity|]. split; [exact HA|]. split; [exact HL | reflexivity].
  - cbn [zoo_run zoo_reset fst]. destruct (IH (mkZ (z_reset (z_env z)) (z_agents z) (z_rew z)) HA HL) as (z' & es & E1 & Q). exists z', es. split; [exact E1 | exact Q].
  - cbn [zoo_run]. unfold zoo_step. destruct (z_last (z_step (z_env z) act)) as [[[o m] term] trunc]. rewrite HA.
    destruct (set_rewards_spec agents ND (z_rewards (z_step (z_env z) act)) (z_rew z) (HR _) HL) as (rew & -> & L & P). cbn [bind fst].
    destruct (IH (mkZ (z_step (z_env z) act) agents rew) eq_refl L) as (z' & es & -> & Q1 & Q2 & Q3). cbn [bind fst snd z_env]. eexists _, _. split; [reflexivity|]. split; [exact Q1|]. split; [exact Q2|].
    intros i a Hi. rewrite (Q3 i a Hi). cbn [map last_reward z_rew]. destruct (last_reward a (map z_rewards es)); [reflexivity|]. rewrite (P i a Hi). reflexivity.
Qed.
(** C209. The rewards of a PettingZooEnv: for each agent the one last reported, through any steps and resets, 0 before the first. *)
Lemma C209_rewards_lemma : forall (E A O : Type) (z_step : E -> A -> E) (z_reset : E -> E) (z_sel : E -> nat) (z_last : E -> O * option (list Z) * bool * bool)
    (z_rewards : E -> list (nat * Z)) (discrete : option nat) (e : E) (agents : list nat) (l : list zop),
  NoDup agents -> (forall e a r, In (a, r) (z_rewards e) -> In a agents) ->
  exists z es, zoo_run z_step z_reset z_sel z_last z_rewards discrete (zoo_init z_reset e agents) l = Ok (z, es) /\ length (z_rew z) = length agents /\
    forall i a, nth_error agents i = Some a -> nth i (z_rew z) 0%Z = match last_reward a (map z_rewards es) with Some r => r | None => 0%Z end.
Proof.
  intros E A O z_step z_reset z_sel z_last z_rewards discrete e agents l ND HR.
  destruct (zoo_run_spec z_step z_reset z_sel z_last z_rewards discrete agents ND HR l (zoo_init z_reset e agents) eq_refl (repeat_length _ _)) as (z & es & E1 & _ & L & P).
  exists z, es. split; [exact E1|]. split; [exact L|]. intros i a Hi. rewrite (P i a Hi). cbn [zoo_init z_rew]. rewrite nth_repeat. reflexivity.
Qed.
(** C209. So an agent that the environment reports no reward for (one that has left the game) is given its old reward at every step, also in later episodes. *)
Lemma C209_stale_refuted_lemma : forall (E A O : Type) (z_step : E -> A -> E) (z_reset : E -> E) (z_sel : E -> nat) (z_last : E -> O * option (list Z) * bool * bool)
    (z_rewards : E -> list (nat * Z)) (discrete : option nat) (z : @zoo E) (l : list zop) (i a : nat),
  NoDup (z_agents z) -> (forall e a r, In (a, r) (z_rewards e) -> In a (z_agents z)) -> length (z_rew z) = length (z_agents z) ->
  nth_error (z_agents z) i = Some a ->
  exists z' es, zoo_run z_step z_reset z_sel z_last z_rewards discrete z (l : list (@zop A)) = Ok (z', es) /\
    ((forall e r, In e es -> ~ In (a, r) (z_rewards e)) -> nth i (z_rew z') 0%Z = nth i (z_rew z) 0%Z).
Proof.
  intros E A O z_step z_reset z_sel z_last z_rewards discrete z l i a ND HR HL Hi.
  destruct (zoo_run_spec z_step z_reset z_sel z_last z_rewards discrete (z_agents z) ND HR l z eq_refl HL) as (z' & es & E1 & _ & L & P).
  exists z', es. split; [exact E1|]. intros HN. rewrite (P i a Hi). assert (G : last_reward a (map z_rewards es) = None); [|rewrite G; reflexivity].
  clear - HN. induction es as [|e es IH]; [reflexivity|]. cbn [map last_reward]. rewrite IH by (intros e' r H'; apply HN; right; exact H').
  assert (HE : forall r, ~ In (a, r) (z_rewards e)) by (intros r; apply HN; left; reflexivity). clear - HE. induction (z_rewards e) as [|[b r] rs IH]; [reflexivity|]. cbn [fold_left fst snd].
  destruct (Nat.eqb_spec b a) as [-> | N]; [exfalso; apply (HE r); left; reflexivity|]. apply IH. intros r' H'. apply (HE r'). right. exact H'.
Qed.
(** C209. The agent to act and its mask, after reset and after step: where the environment gives a mask, the actions marked 1; otherwise all of them if they are discrete. *)
Lemma C209_masks_lemma : forall (E A O : Type) (z_step : E -> A -> E) (z_reset : E -> E) (z_sel : E -> nat) (z_last : E -> O * option (list Z) * bool * bool)
    (z_rewards : E -> list (nat * Z)) (discrete : option nat) (z z' : @zoo E) (a : A) (o ob : zobs) (rew : list Z) (term trunc : bool),
  snd (zoo_reset z_reset z_sel z_last discrete z) = o ->
  zoo_step z_step z_sel z_last z_rewards discrete z a = Ok (z', (ob, rew, term, trunc)) ->
  forall e x, (e, x) = (z_reset (z_env z), o) \/ (e, x) = (z_env z', ob) ->
  zo_agent x = z_sel e /\ zo_obs x = fst (fst (fst (z_last e))) /\
  match snd (fst (fst (z_last e))) with
  | Some m => exists bs, zo_mask x = Some bs /\ length bs = length m /\ forall i v, nth_error m i = Some v -> (nth i bs false = true <-> v = 1%Z)
  | None => match discrete with Some n => exists bs, zo_mask x = Some bs /\ length bs = n /\ forall i, i < n -> nth i bs false = true | None => zo_mask x = None end end.
Proof.
  intros E A O z_step z_reset z_sel z_last z_rewards discrete z z' a o ob rew term trunc HR HS e x Hx.
  assert (G : x = observe z_sel z_last discrete e).
  { destruct Hx as [Hx | Hx]; injection Hx as -> ->; [symmetry; exact HR|]. unfold zoo_step in HS. destruct (z_last (z_step (z_env z) a)) as [[[o1 m] t1] t2].
    destruct (set_rewards (z_agents z) (z_rewards (z_step (z_env z) a)) (z_rew z)); [|discriminate HS]. injection HS as <- <- _ _ _. reflexivity. }
  rewrite G. unfold observe. destruct (z_last e) as [[[o1 m] t1] t2]. cbn [fst snd zo_agent zo_obs zo_mask]. split; [reflexivity|]. split; [reflexivity|]. destruct m as [m|].
  - eexists. split; [reflexivity|]. split; [apply map_length|]. intros i v Hv. rewrite (nth_indep _ false (Z.eqb 0 1)) by (rewrite map_length; apply nth_error_Some; congruence).
    rewrite (map_nth (fun x => Z.eqb x 1)), (nth_error_nth m i 0%Z Hv). apply Z.eqb_eq.
  - destruct discrete as [n|]; [|reflexivity]. eexists. split; [reflexivity|]. split; [apply repeat_length|]. intros i Hi. rewrite (nth_indep _ false true) by (rewrite repeat_length; exact Hi). apply nth_repeat.
Qed.

(** ** Spaces *)
Lemma qmin_spec : forall l x, (forall y, In y (x :: l) -> (qmin x l <= y)%Qc) /\ In (qmin x l) (x :: l).
Proof.
  induction l as [|y l IH]; intros x; cbn [qmin]; [split; [intros y [<- | []]; apply Qcle_refl | left; reflexivity]|].
  destruct (IH (Qcminb x y)) as [H1 H2]. assert (M : (Qcminb x y <= x)%Qc /\ (Qcminb x y <= y)%Qc /\ (Qcminb x y = x \/ Qcminb x y = y)).
  { unfold Qcminb. destruct (Qcleb_spec x y); split; [apply Qcle_refl | split; [assumption | auto] | apply Qclt_le_weak; assumption | split; [apply Qcle_refl | auto]]. }
  destruct M as (M1 & M2 & M3). pose proof (H1 _ (or_introl eq_refl)) as H0. split.
  - intros z [<- | [<- | Hz]]; [eapply Qcle_trans; eassumption | eapply Qcle_trans; eassumption | apply H1; right; exact Hz].
  - destruct H2 as [H2 | H2]; [|right; right; exact H2]. rewrite <- H2. destruct M3 as [-> | ->]; [left | right; left]; reflexivity.
Qed.
Lemma qmax_spec : forall l x, (forall y, In y (x :: l) -> (y <= qmax x l)%Qc) /\ In (qmax x l) (x :: l).
Proof.
  induction l as [|y l IH]; intros x; cbn [qmax]; [split; [intros y [<- | []]; apply Qcle_refl | left; reflexivity]|].
  destruct (IH (Qcmaxb x y)) as [H1 H2]. assert (M : (x <= Qcmaxb x y)%Qc /\ (y <= Qcmaxb x y)%Qc /\ (Qcmaxb x y = x \/ Qcmaxb x y = y)).
  { unfold Qcmaxb. destruct (Qcleb_spec x y); split; [assumption | split; [apply Qcle_refl | auto] | apply Qcle_refl | split; [apply Qclt_le_weak; assumption | auto]]. }
  destruct M as (M1 & M2 & M3). pose proof (H1 _ (or_introl eq_refl)) as H0. split.
  - intros z [<- | [<- | Hz]]; [eapply Qcle_trans; eassumption | eapply Qcle_trans; eassumption | apply H1; right; exact Hz].
  - destruct H2 as [H2 | H2]; [|right; right; exact H2]. rewrite <- H2. destruct M3 as [-> | ->]; [left | right; left]; reflexivity.
Qed.
Lemma qz_le a b : (a <= b)%Z <-> (qz a <= qz b)%Qc.
Proof. unfold qz, Qcle, Q2Qc. cbn [this]. rewrite !Qred_correct. rewrite <- Zle_Qle. reflexivity. Qed.
(** C211. The action bounds of a box: the smallest lower and the largest upper bound, so every action of the box lies between them; those of a discrete space: its first and
    last action. The dimension is the number of components, or of actions. *)
Lemma C211_box_lemma : forall (shape : list nat) (low high : list Qc), length low = size shape -> length high = size shape -> size shape <> 0 ->
  exists i, action_from (GBox shape low high) = Ok i /\ In (ai_min i) low /\ In (ai_max i) high /\ shp_dim (ai_shape i) = length low /\
  (forall x, In x low -> (ai_min i <= x)%Qc) /\ (forall x, In x high -> (x <= ai_max i)%Qc) /\
  forall act, length act = length low -> (forall k, k < length act -> (nth k low 0 <= nth k act 0 /\ nth k act 0 <= nth k high 0)%Qc) -> forall x, In x act -> (ai_min i <= x /\ x <= ai_max i)%Qc.
Proof.
  intros shape low high HL HH HN. destruct low as [|x low]; [cbn in HL; lia|]. destruct high as [|y high]; [cbn in HH; lia|]. cbn [action_from]. eexists. split; [reflexivity|]. cbn [ai_min ai_max ai_shape shp_dim].
  destruct (qmin_spec low x) as [A1 A2]. destruct (qmax_spec high y) as [B1 B2]. split; [exact A2|]. split; [exact B2|]. split; [symmetry; exact HL|]. split; [exact A1|]. split; [exact B1|].
  intros act LA HA z Hz. destruct (In_nth _ _ 0%Qc Hz) as (k & Hk & <-). destruct (HA k Hk) as [C1 C2]. split.
  - eapply Qcle_trans; [apply A1, (nth_In _ 0%Qc (n := k)); lia | exact C1].
  - eapply Qcle_trans; [exact C2 | apply B1, (nth_In _ 0%Qc (n := k)); lia].
Qed.
(** C211. *)
Lemma C211_discrete_lemma : forall (start : Z) (n : nat), exists i, action_from (GDiscrete start n) = Ok i /\ shp_dim (ai_shape i) = n /\
  forall a, (qz a = ai_min i <-> a = start) /\ ((start <= a < start + Z.of_nat n)%Z <-> (ai_min i <= qz a /\ qz a <= ai_max i)%Qc).
Proof.
  intros start n. eexists. split; [reflexivity|]. split; [reflexivity|]. intros a. cbn [ai_min ai_max]. split.
  - split; [intros H | intros ->; reflexivity]. apply Z.le_antisymm; apply qz_le; rewrite H; apply Qcle_refl.
  - rewrite <- !qz_le. lia.
Qed.
(** C211. Other spaces are rejected, with a ValueError; so are boxes without components, which numpy cannot take the minimum of. *)
Lemma C211_rejected_lemma : action_from GOther = Err ValueError /\ obs_from GOther = Err ValueError /\ (forall shape, action_from (GBox shape [] []) = Err ValueError) /\
  (forall shape low high, obs_from (GBox shape low high) = Ok (ShTuple shape)) /\ forall start n, obs_from (GDiscrete start n) = Ok (ShInt n).
Proof. repeat split; reflexivity. Qed.
