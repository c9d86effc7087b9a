(** * Proofs: Ray workers and dummy workers *)
From Verif Require Import Py PyLemmas RayModel.
Open Scope nat_scope.

Section Worker.
Context {E A V : Type}.
Variable env_reset : option nat -> E -> res V * E.
Variable env_step : A -> E -> res V * E.
Variable env_get : nat -> E -> res V.
Variable env_set : nat -> V -> E -> E.
Variable env_render : E -> res V * E.
Variable env_close : E -> E.
Notation qrun := (q_run env_reset env_step env_get env_set env_render env_close).
Notation tick := (a_tick env_reset env_step env_get env_set env_render env_close).
Notation get := (ray_get env_reset env_step env_get env_set env_render env_close).
Notation getf := (ray_get_fuel env_reset env_step env_get env_set env_render env_close).
Notation dcall := (d_call env_reset env_step env_get env_set env_render env_close).
Notation rcalls := (r_call env_reset env_step env_get env_set env_render env_close).
Notation tcks := (ticks env_reset env_step env_get env_set env_render env_close).

(** What the actor has when its queue is empty. *)
Fixpoint full (q : list (nat * @rcall A V)) (done : list (nat * res (@answer V))) (e : E) : list (nat * res (@answer V)) * E :=
  match q with [] => (done, e) | (h, c) :: q => full q (done ++ [(h, fst (qrun c e))]) (snd (qrun c e)) end.
Definition afull (a : actor) := full (a_queue a) (a_done a) (a_env a).
Lemma full_tick a : afull (tick a) = afull a /\ a_next (tick a) = a_next a.
Proof. destruct a as [[|[h c] q] d e n]; unfold afull, a_tick; cbn [a_queue a_done a_env a_next full]; [split; reflexivity|]. destruct (qrun c e); split; reflexivity. Qed.
Lemma look_app h l1 l2 : look (V:=V) h (l1 ++ l2) = match look h l1 with Some r => Some r | None => look h l2 end.
Proof. induction l1 as [|[k r] l1 IH]; [reflexivity|]. cbn [app look]. destruct (k =? h); [reflexivity|exact IH]. Qed.
Lemma full_stable : forall q d e h r, look h d = Some r -> look h (fst (full q d e)) = Some r.
Proof. induction q as [|[k c] q IH]; intros d e h r H; [exact H|]. cbn [full]. apply IH. rewrite look_app, H. reflexivity. Qed.
Lemma full_snoc : forall q d e h c, full (q ++ [(h, c)]) d e = (fst (full q d e) ++ [(h, fst (qrun c (snd (full q d e))))], snd (qrun c (snd (full q d e)))).
Proof. induction q as [|[k c'] q IH]; intros d e h c; [reflexivity|]. cbn [app full]. apply IH. Qed.
Lemma getf_spec : forall n a h r, n = length (a_queue a) -> look h (fst (afull a)) = Some r ->
  exists a', getf n a h = (r, a') /\ afull a' = afull a /\ a_next a' = a_next a.
Proof.
  induction n as [|n IH]; intros a h r Hn H; cbn [ray_get_fuel].
  - destruct a as [q d e k]; cbn [a_queue] in Hn. destruct q as [|]; [|discriminate]. unfold afull in H. cbn [a_queue a_done a_env full fst] in H |- *. rewrite H. eexists. repeat split; reflexivity.
  - destruct (look h (a_done a)) as [r'|] eqn:L.
    + unfold afull in H. rewrite (full_stable _ _ _ _ _ L) in H. injection H as ->. eexists. repeat split; reflexivity.
    + destruct (full_tick a) as [F K]. destruct (IH (tick a) h r) as (a' & G1 & G2 & G3); [|rewrite F; exact H|exists a'; split; [exact G1|split; congruence]].
      destruct a as [q d e k]; cbn [a_queue] in Hn. destruct q as [|[h0 c0] q]; [discriminate|]. unfold a_tick. cbn [a_queue a_env]. destruct (qrun c0 e). cbn [a_queue] in *. cbn in Hn. lia.
Qed.
Lemma get_spec a h r : look h (fst (afull a)) = Some r -> exists a', get a h = (r, a') /\ afull a' = afull a /\ a_next a' = a_next a.
Proof. apply getf_spec. reflexivity. Qed.

(** The dummy worker shows what the Ray worker has when the queue of its actor is empty. *)
Definition held (d : @dummy E V) (r : @ray E A V) : Prop :=
  let F := afull (r_actor r) in
  d_env d = snd F /\ d_space d = r_space r /\ d_closed d = r_closed r
  /\ (forall h x, look h (fst F) = Some x -> h < a_next (r_actor r))
  /\ match d_result d, r_result r with Some v, Some h => look h (fst F) = Some (Ok (AVal v)) | None, None => True | _, _ => False end.
Definition as_ray' (x : res (@answer V)) : res (@answer V) := match x with Ok (ASeeds _) => Ok ANone | _ => x end.

Lemma remote_full a (c : @rcall A V) : afull (fst (remote a c)) = (fst (afull a) ++ [(a_next a, fst (qrun c (snd (afull a))))], snd (qrun c (snd (afull a)))).
Proof. unfold remote, afull. cbn [fst a_queue a_done a_env]. apply full_snoc. Qed.
Lemma fresh (r : @ray E A V) : (forall h x, look h (fst (afull (r_actor r))) = Some x -> h < a_next (r_actor r)) -> look (a_next (r_actor r)) (fst (afull (r_actor r))) = None.
Proof. intros H. destruct (look _ _) as [x|] eqn:L; [|reflexivity]. apply H in L. exfalso. exact (Nat.lt_irrefl _ L). Qed.
Lemma bound_remote a (c : @rcall A V) : (forall h x, look h (fst (afull a)) = Some x -> h < a_next a) ->
  forall h x, look h (fst (afull (fst (remote a c)))) = Some x -> h < S (a_next a).
Proof.
  intros B h x. rewrite remote_full. cbn [fst]. rewrite look_app. destruct (look h (fst (afull a))) as [y|] eqn:L; [intros _; apply B in L; apply Nat.lt_lt_succ_r, L|].
  cbn [look]. destruct (Nat.eqb_spec (a_next a) h) as [<-|]; [intros _; apply Nat.lt_succ_diag_r|discriminate].
Qed.
(** Any call put into the queue leaves earlier results as they are. *)
Lemma ask_held d (r : @ray E A V) c x e : held d r -> qrun c (d_env d) = (x, e) ->
  exists r', r_ask env_reset env_step env_get env_set env_render env_close r c = (x, r') /\ held (d_with d e) r'.
Proof.
  intros (H1 & H2 & H3 & B & H4) Q. unfold r_ask. destruct (remote (r_actor r) c) as [a h] eqn:R.
  pose proof (remote_full (r_actor r) c) as F. pose proof (bound_remote (r_actor r) c B) as B'. rewrite R in F, B'. cbn [fst] in F, B'. rewrite <- H1, Q in F. cbn [fst snd] in F.
  assert (Hh : h = a_next (r_actor r) /\ a_next a = S (a_next (r_actor r))) by (unfold remote in R; injection R as <- <-; split; reflexivity). destruct Hh as [-> Hn].
  destruct (get_spec a (a_next (r_actor r)) x) as (a' & G1 & G2 & G3).
  { rewrite F. cbn [fst]. rewrite look_app, (fresh r B). cbn [look]. rewrite Nat.eqb_refl. reflexivity. }
  rewrite G1. eexists. split; [reflexivity|]. unfold held, r_with, d_with. cbn [r_actor r_result r_space r_closed d_env d_result d_space d_closed]. rewrite G2, G3, Hn, F. cbn [fst snd].
  split; [reflexivity|]. split; [exact H2|]. split; [exact H3|]. split; [rewrite F in B'; exact B'|]. destruct (d_result d), (r_result r); try exact H4. rewrite look_app, H4. reflexivity.
Qed.
Lemma tick_held : forall n d (r : @ray E A V), held d r -> held d (tcks n r).
Proof.
  induction n as [|n IH]; intros d r H; [exact H|]. cbn [ticks]. apply IH. destruct (full_tick (r_actor r)) as [F K]. unfold held, r_with in *. cbn [r_actor r_result r_space r_closed]. rewrite F, K. exact H.
Qed.
Lemma recv_held d (r : @ray E A V) : held d r ->
  exists r', r_recv env_reset env_step env_get env_set env_render env_close r = (fst (d_recv d), r') /\ held d r'.
Proof.
  intros (H1 & H2 & H3 & B & H4). unfold r_recv, d_recv. cbn [fst]. destruct (r_result r) as [h|] eqn:R, (d_result d) as [v|] eqn:D; try contradiction.
  - destruct (get_spec (r_actor r) h _ H4) as (a' & G1 & G2 & G3). rewrite G1. eexists. split; [reflexivity|]. unfold held, r_with. cbn [r_actor r_result r_space r_closed]. rewrite G2, G3, R, D. repeat split; assumption.
  - eexists. split; [reflexivity|]. unfold held. rewrite R, D. repeat split; assumption.
Qed.
Lemma seeded_held d (r : @ray E A V) s : held d r -> held (d_seeded d s) (r_seeded r s).
Proof. intros (H1 & H2 & H3 & B & H4). unfold held, d_seeded, r_seeded. cbn [r_actor r_result r_space r_closed d_env d_result d_space d_closed]. rewrite H2. repeat split; assumption. Qed.
Lemma post_held d (r : @ray E A V) c x e : held d r -> qrun c (d_env d) = (x, e) -> held (d_with d e) (r_with r (fst (remote (r_actor r) c))).
Proof.
  intros (H1 & H2 & H3 & B & H4) Q. pose proof (remote_full (r_actor r) c) as F. rewrite <- H1, Q in F. cbn [fst snd] in F.
  unfold held, r_with, d_with. cbn [r_actor r_result r_space r_closed d_env d_result d_space d_closed]. split; [rewrite F; reflexivity|]. split; [exact H2|]. split; [exact H3|]. split; [apply bound_remote, B|].
  rewrite F. cbn [fst]. destruct (d_result d), (r_result r); try exact H4. rewrite look_app, H4. reflexivity.
Qed.
Hypothesis reset_ok : forall s e, is_ok (fst (env_reset s e)) = true.
Hypothesis step_ok : forall a e, is_ok (fst (env_step a e)) = true.
Lemma send_held d (r : @ray E A V) act s : held d r -> fst (d_send env_reset env_step d act s) = Ok ANone /\ held (snd (d_send env_reset env_step d act s)) (r_send r act s).
Proof.
  intros H. pose proof H as (H1 & H2 & H3 & B & H4). unfold d_send.
  assert (Q : exists v e, match act with None => env_reset s (d_env d) | Some a => env_step a (d_env d) end = (Ok v, e)
     /\ qrun (match act with None => QReset s | Some a => QStep a end) (d_env d) = (Ok (AVal v), e)).
  { destruct act as [a|]; cbn [q_run]; [pose proof (step_ok a (d_env d)) as K; destruct (env_step a (d_env d)) as [[v|] e]|pose proof (reset_ok s (d_env d)) as K; destruct (env_reset s (d_env d)) as [[v|] e]]; try discriminate; exists v, e; split; reflexivity. }
  destruct Q as (v & e & Q1 & Q2). rewrite Q1. cbn [fst snd]. split; [reflexivity|].
  pose proof (remote_full (r_actor r) (match act with None => QReset s | Some a => QStep a end)) as F. rewrite <- H1, Q2 in F. cbn [fst snd] in F.
  unfold r_send. destruct (remote (r_actor r) _) as [a h] eqn:R. cbn [fst] in F.
  pose proof (bound_remote (r_actor r) (match act with None => QReset s | Some a => QStep a end) B) as B'. rewrite R in B'. cbn [fst] in B'.
  assert (Hh : h = a_next (r_actor r) /\ a_next a = S (a_next (r_actor r))) by (unfold remote in R; injection R as <- <-; split; reflexivity). destruct Hh as [-> Hn].
  unfold held. cbn [r_actor r_result r_space r_closed d_env d_result d_space d_closed]. rewrite Hn. split; [rewrite F; reflexivity|]. split; [exact H2|]. split; [exact H3|]. split; [exact B'|].
  rewrite F. cbn [fst]. rewrite look_app, (fresh r B). cbn [look]. rewrite Nat.eqb_refl. reflexivity.
Qed.
Lemma call_held c d (r : @ray E A V) : held d r -> fst (rcalls c r) = as_ray' (fst (dcall c d)) /\ held (snd (dcall c d)) (snd (rcalls c r)).
Proof.
  intros H. destruct c as [s|act s| |a|s|k|k v| |]; cbn [d_call r_call].
  - set (d1 := match s with Some s => d_seeded d s | None => d end). set (r1 := match s with Some s => r_seeded r s | None => r end).
    assert (H1 : held d1 r1) by (unfold d1, r1; destruct s; [apply seeded_held, H|exact H]).
    destruct (val_of (env_reset (match s with Some s => s | None => None end) (d_env d1))) as [x e] eqn:Q.
    destruct (ask_held d1 r1 (QReset (match s with Some s => s | None => None end)) x e H1 Q) as (r' & R & Hr). rewrite R. cbn [fst snd]. split; [|exact Hr].
    unfold val_of in Q. destruct (fst (env_reset _ _)); cbn [bind] in Q; injection Q as <- _; reflexivity.
  - destruct (send_held d r act s H) as [S1 S2]. rewrite S1. cbn [fst snd]. split; [reflexivity|exact S2].
  - destruct (recv_held d r H) as (r' & R & Hr). rewrite R. cbn [fst snd]. split; [|exact Hr]. unfold d_recv. cbn [fst]. destruct (d_result d); reflexivity.
  - destruct (send_held d r (Some a) None H) as [S1 S2]. destruct (d_send env_reset env_step d (Some a) None) as [x d'] eqn:D. cbn [fst snd] in S1, S2. rewrite S1.
    destruct (recv_held d' _ S2) as (r' & R & Hr). rewrite R. cbn [fst snd]. unfold d_recv. cbn [fst snd]. split; [destruct (d_result d'); reflexivity|exact Hr].
  - pose proof (seeded_held d r s H) as H1. pose proof (reset_ok s (d_env (d_seeded d s))) as K. destruct (env_reset s (d_env (d_seeded d s))) as [[v|] e] eqn:Q; [|discriminate]. cbn [bind fst snd].
    pose proof (post_held _ _ (QReset s) (Ok (AVal v)) e H1) as P. cbn [q_run] in P. rewrite Q in P. specialize (P eq_refl). destruct (remote (r_actor (r_seeded r s)) (QReset s)) as [a h]. cbn [fst snd] in *. split; [reflexivity|exact P].
  - destruct (ask_held d r (QGet k) _ _ H eq_refl) as (r' & R & Hr). rewrite R. cbn [fst snd]. split; [destruct (env_get k (d_env d)); reflexivity|]. destruct d; exact Hr.
  - destruct (ask_held d r (QSet k v) _ _ H eq_refl) as (r' & R & Hr). rewrite R. cbn [fst snd]. split; [reflexivity|exact Hr].
  - destruct (val_of (env_render (d_env d))) as [x e] eqn:Q. destruct (ask_held d r QRender x e H Q) as (r' & R & Hr). rewrite R. cbn [fst snd]. split; [|exact Hr].
    unfold val_of in Q. destruct (fst (env_render _)); cbn [bind] in Q; injection Q as <- _; reflexivity.
  - pose proof H as (_ & _ & C & _). rewrite C. destruct (r_closed r); [split; [reflexivity|exact H]|].
    assert (H' : held (mkD (d_env d) (d_result d) (d_space d) true) (mkRay (r_actor r) (r_result r) (r_space r) true)).
    { destruct H as (H1 & H2 & H3 & B & H4). unfold held. cbn [r_actor r_result r_space r_closed d_env d_result d_space d_closed]. repeat split; assumption. }
    destruct (ask_held _ _ QClose _ _ H' eq_refl) as (r' & R & Hr).
    cbn [q_run] in R, Hr. rewrite R. cbn [fst snd]. split; [reflexivity|exact Hr].
Qed.
Lemma run_held : forall l d (r : @ray E A V), held d r ->
  r_run env_reset env_step env_get env_set env_render env_close l r = map as_ray' (d_run env_reset env_step env_get env_set env_render env_close (map snd l) d).
Proof.
  induction l as [|[n c] l IH]; intros d r H; [reflexivity|]. cbn [map snd r_run d_run]. destruct (call_held c d (tcks n r) (tick_held n d r H)) as [C1 C2].
  destruct (rcalls c (tcks n r)) as [x r'], (dcall c d) as [y d']. cbn [fst snd] in C1, C2. cbn [map]. rewrite C1, (IH d' r' C2). reflexivity.
Qed.
Lemma after_held : forall l d (r : @ray E A V), held d r ->
  held (d_after env_reset env_step env_get env_set env_render env_close (map snd l) d) (r_after env_reset env_step env_get env_set env_render env_close l r).
Proof. induction l as [|[n c] l IH]; intros d r H; [exact H|]. cbn [map snd r_after d_after]. apply IH. apply (proj2 (call_held c d (tcks n r) (tick_held n d r H))). Qed.
End Worker.

(** C376.  If reset and step of the environment do not raise, a Ray worker answers every sequence
    of calls as a dummy worker does, whenever its actor runs the calls; only seed() returns None. *)
Lemma C376_answers_lemma : forall (E A V : Type) (env_reset : option nat -> E -> res V * E) (env_step : A -> E -> res V * E) (env_get : nat -> E -> res V) (env_set : nat -> V -> E -> E) (env_render : E -> res V * E) (env_close : E -> E)
  (e : E) (l : list (nat * wcall)),
  (forall s e, is_ok (fst (env_reset s e)) = true) -> (forall a e, is_ok (fst (env_step a e)) = true) ->
  r_run env_reset env_step env_get env_set env_render env_close l (r_new e)
  = map (fun x => match x with Ok (ASeeds _) => Ok ANone | _ => x end) (d_run env_reset env_step env_get env_set env_render env_close (map snd l) (d_new e)).
Proof.
  intros E A V env_reset env_step env_get env_set env_render env_close e l Hr Hs.
  apply (run_held env_reset env_step env_get env_set env_render env_close Hr Hs). repeat split. intros h x H. discriminate H.
Qed.
Lemma ticks_empty (E A V : Type) (env_reset : option nat -> E -> res V * E) (env_step : A -> E -> res V * E) env_get env_set env_render env_close e : forall n,
  ticks env_reset env_step env_get env_set env_render env_close n (r_new e) = r_new e.
Proof. induction n as [|n IH]; [reflexivity|exact IH]. Qed.
(** C376.  seed() of a dummy worker returns the seed in a list, that of a Ray worker None. *)
Lemma C376_seed_lemma : forall (E A V : Type) (env_reset : option nat -> E -> res V * E) (env_step : A -> E -> res V * E) (env_get : nat -> E -> res V) (env_set : nat -> V -> E -> E) (env_render : E -> res V * E) (env_close : E -> E)
  (d : @dummy E V) (r : @ray E A V) (s : option nat), is_ok (fst (env_reset s (d_env d))) = true ->
  fst (d_call env_reset env_step env_get env_set env_render env_close (WSeed s) d) = Ok (ASeeds [s])
  /\ fst (r_call env_reset env_step env_get env_set env_render env_close (WSeed s) r) = Ok ANone.
Proof.
  intros E A V env_reset env_step env_get env_set env_render env_close d r s H. split; [|reflexivity]. cbn [d_call d_env d_seeded]. destruct (env_reset s (d_env d)) as [[v|] e]; [reflexivity|discriminate].
Qed.
(** C376.  Both seed their action space alike and are closed alike. *)
Lemma C376_space_lemma : forall (E A V : Type) (env_reset : option nat -> E -> res V * E) (env_step : A -> E -> res V * E) (env_get : nat -> E -> res V) (env_set : nat -> V -> E -> E) (env_render : E -> res V * E) (env_close : E -> E)
  (e : E) (l : list (nat * wcall)),
  (forall s e, is_ok (fst (env_reset s e)) = true) -> (forall a e, is_ok (fst (env_step a e)) = true) ->
  let d := d_after env_reset env_step env_get env_set env_render env_close (map snd l) (d_new e) in
  let r := r_after env_reset env_step env_get env_set env_render env_close l (r_new e) in
  r_space r = d_space d /\ r_closed r = d_closed d.
Proof.
  intros E A V env_reset env_step env_get env_set env_render env_close e l Hr Hs d r.
  destruct (after_held env_reset env_step env_get env_set env_render env_close Hr Hs l (d_new e) (r_new e)) as (_ & H2 & H3 & _); [repeat split; intros h x H; discriminate H|]. split; symmetry; assumption.
Qed.
(** C376.  If a step raises, the dummy worker raises when the action is sent, and the Ray worker
    when the result is received; what a reset raises within seed() the Ray worker never reports. *)
Lemma C376_raise_lemma : forall (E A V : Type) (env_reset : option nat -> E -> res V * E) (env_step : A -> E -> res V * E) (env_get : nat -> E -> res V) (env_set : nat -> V -> E -> E) (env_render : E -> res V * E) (env_close : E -> E)
  (e : E) (a : A) (s : option nat) (x : exn) (e' : E) (i j : nat),
  (env_step a e = (Err x, e') ->
     d_run env_reset env_step env_get env_set env_render env_close [WSend (Some a) None; WRecv] (d_new e) = [Err x; Err AttributeError]
     /\ r_run env_reset env_step env_get env_set env_render env_close [(i, WSend (Some a) None); (j, WRecv)] (r_new e) = [Ok ANone; Err x]
     /\ d_run env_reset env_step env_get env_set env_render env_close [WStep a] (d_new e) = [Err x]
     /\ r_run env_reset env_step env_get env_set env_render env_close [(i, WStep a)] (r_new e) = [Err x])
  /\ (env_reset s e = (Err x, e') ->
     d_run env_reset env_step env_get env_set env_render env_close [WSeed s] (d_new e) = [Err x]
     /\ forall k, r_run env_reset env_step env_get env_set env_render env_close [(i, WSeed s); (j, WGet k)] (r_new e) = [Ok ANone; let* v := env_get k e' in Ok (AVal v)]).
Proof.
  intros E A V env_reset env_step env_get env_set env_render env_close e a s x e' i j. split; intros H.
  - split; [cbn; unfold d_send; cbn; rewrite H; reflexivity|]. split; [|split; [cbn; unfold d_send; cbn; rewrite H; reflexivity|]].
    + cbn [r_run]. rewrite ticks_empty. cbn [r_call]. f_equal. destruct j as [|j]; cbn [ticks].
      * cbn. unfold ray_get, a_tick. cbn. unfold val_of. rewrite H. reflexivity.
      * set (r := r_with _ _). assert (R : forall n, ticks env_reset env_step env_get env_set env_render env_close n r = r).
        { unfold r, r_send, r_with, a_tick. cbn. unfold val_of. rewrite H. cbn. induction n as [|n IH]; [reflexivity|exact IH]. }
        rewrite R. unfold r, r_send, r_with, a_tick. cbn. unfold val_of. rewrite H. reflexivity.
    + cbn [r_run]. rewrite ticks_empty. cbn. unfold ray_get, a_tick. cbn. unfold val_of. rewrite H. reflexivity.
  - split; [cbn; rewrite H; reflexivity|]. intros k. cbn [r_run]. rewrite ticks_empty. cbn [r_call]. cbn [remote]. f_equal. destruct j as [|j]; cbn [ticks].
    + cbn. unfold ray_get, a_tick. cbn. unfold val_of. rewrite H. cbn. reflexivity.
    + set (r := r_with _ (a_tick _ _ _ _ _ _ _)). assert (R : forall n, ticks env_reset env_step env_get env_set env_render env_close n r = r).
      { unfold r, r_with, a_tick. cbn. unfold val_of. rewrite H. cbn. induction n as [|n IH]; [reflexivity|exact IH]. }
      rewrite R. unfold r, r_with, a_tick. cbn. unfold val_of. rewrite H. cbn. reflexivity.
Qed.
Lemma index_nth : forall l i h, NoDup l -> nth_error l i = Some h -> index_of h l = Some i.
Proof.
  induction l as [|y l IH]; intros [|i] h N H; try discriminate; apply NoDup_cons_iff in N as [N1 N2]; cbn in H |- *.
  - injection H as ->. rewrite Nat.eqb_refl. reflexivity.
  - destruct (Nat.eqb_spec y h) as [->|]; [exfalso; apply N1; exact (nth_error_In _ _ H)|]. rewrite (IH i h N2 H). reflexivity.
Qed.
(** C376.  wait returns the first [num] of the workers whose results are ready, in their order. *)
Lemma C376_wait_lemma : forall (W : Type) (result_of : W -> nat) (ready : nat -> bool) (workers : list W) (num : nat),
  NoDup (map result_of workers) -> 1 <= num -> num <= length workers ->
  wait_workers result_of ready workers num = Ok (firstn num (filter (fun w => ready (result_of w)) workers)).
Proof.
  intros W result_of ready workers num N H1 H2. unfold wait_workers, ray_wait. rewrite map_length, (proj2 (Nat.leb_le _ _) H1), (proj2 (Nat.leb_le _ _) H2). cbn [guard negb andb bind].
  set (g := fun h => match index_of h (map result_of workers) with None => Err ValueError | Some i => match nth_error workers i with Some w => Ok w | None => Err IndexError end end).
  assert (G : forall w, In w workers -> g (result_of w) = Ok w).
  { intros w Hw. apply In_nth_error in Hw as [i Hi]. unfold g. rewrite (index_nth _ i _ N); [rewrite Hi; reflexivity|]. rewrite nth_error_map, Hi. reflexivity. }
  assert (F : forall l k, (forall w, In w l -> In w workers) -> mapM g (firstn k (filter ready (map result_of l))) = Ok (firstn k (filter (fun w => ready (result_of w)) l))).
  { induction l as [|w l IH]; intros k Hl; [destruct k; reflexivity|]. cbn [map filter]. assert (Hl' : forall v, In v l -> In v workers) by (intros v Hv; apply Hl; right; exact Hv).
    destruct (ready (result_of w)); [|apply IH, Hl']. destruct k as [|k]; [reflexivity|]. cbn [firstn mapM]. rewrite (G w) by (apply Hl; left; reflexivity). cbn [bind]. rewrite (IH k Hl'). reflexivity. }
  apply F. intros w Hw. exact Hw.
Qed.
