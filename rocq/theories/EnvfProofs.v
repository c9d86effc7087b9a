(** * Proofs about environment factories *)
From Coq Require Import String.
From Verif Require Import EnvfModel EnvfSpec PyLemmas.
Open Scope nat_scope.
Open Scope list_scope.

Section Dict.
Context {V : Type}.
Notation dict := (list (string * V)).
Lemma kget_in : forall (d : dict) k v, NoDup (map fst d) -> kget k d = Some v <-> In (k, v) d.
Proof.
  induction d as [|[k0 v0] d IH]; intros k v N; cbn; [split; [discriminate|intros []]|].
  inversion N as [|x l H1 H2]; subst. destruct (String.eqb k k0) eqn:Ek.
  - apply String.eqb_eq in Ek. subst k0. split.
    + intros [= ->]. left. reflexivity.
    + intros [[= ->]|Hi]; [reflexivity|]. exfalso. apply H1. apply (in_map fst) in Hi. exact Hi.
  - rewrite IH by exact H2. split; [intros H; right; exact H|]. intros [[= -> ->]|Hi]; [rewrite String.eqb_refl in Ek; discriminate|exact Hi].
Qed.
Lemma kget_none : forall (d : dict) k, kget k d = None <-> ~ In k (map fst d).
Proof.
  induction d as [|[k0 v0] d IH]; intros k; cbn; [split; [intros _ []|reflexivity]|].
  destruct (String.eqb k k0) eqn:Ek.
  - apply String.eqb_eq in Ek. subst. split; [discriminate|]. intros H. exfalso. apply H. left. reflexivity.
  - rewrite IH. split.
    + intros H [<-|H']; [rewrite String.eqb_refl in Ek; discriminate|contradiction].
    + intros H H'. apply H. right. exact H'.
Qed.
Lemma khas_in : forall (d : dict) k, khas k d = true <-> In k (map fst d).
Proof.
  intros d k. unfold khas. destruct (kget k d) eqn:G.
  - split; [intros _|reflexivity]. destruct (in_dec string_dec k (map fst d)) as [H|H]; [exact H|]. apply kget_none in H. congruence.
  - apply kget_none in G. split; [discriminate|contradiction].
Qed.
Lemma keys_kset : forall (d : dict) k v x, In x (map fst (kset k v d)) <-> x = k \/ In x (map fst d).
Proof.
  induction d as [|[k0 v0] d IH]; intros k v x; cbn; [intuition congruence|].
  destruct (String.eqb k k0) eqn:Ek; cbn.
  - apply String.eqb_eq in Ek. subst. intuition congruence.
  - rewrite IH. intuition congruence.
Qed.
Lemma nodup_kset : forall (d : dict) k v, NoDup (map fst d) -> NoDup (map fst (kset k v d)).
Proof.
  induction d as [|[k0 v0] d IH]; intros k v N; cbn; [constructor; [intros []|constructor]|].
  inversion N as [|x l H1 H2]; subst. destruct (String.eqb k k0) eqn:Ek; cbn; [constructor; assumption|].
  constructor; [|apply IH; exact H2]. rewrite keys_kset. intros [->|H]; [rewrite String.eqb_refl in Ek; discriminate|contradiction].
Qed.
Lemma in_kset : forall (d : dict) k v k' v', NoDup (map fst d) ->
  In (k', v') (kset k v d) <-> (k' = k /\ v' = v) \/ (k' <> k /\ In (k', v') d).
Proof.
  induction d as [|[k0 v0] d IH]; intros k v k' v' N; cbn.
  - split; [intros [[= <- <-]|[]]; left; auto|]. intros [[-> ->]|[_ []]]. left. reflexivity.
  - inversion N as [|x l H1 H2]; subst. destruct (String.eqb k k0) eqn:Ek; cbn.
    + apply String.eqb_eq in Ek. subst k0. split.
      * intros [[= <- <-]|Hi]; [left; auto|]. right. split; [|right; exact Hi]. intros ->. apply H1. apply (in_map fst) in Hi. exact Hi.
      * intros [[-> ->]|[Hn [[= <- <-]|Hi]]]; [left; reflexivity|contradiction|right; exact Hi].
    + rewrite IH by exact H2. apply String.eqb_neq in Ek. split.
      * intros [[= <- <-]|[[-> ->]|[Hn Hi]]]; [right; split; [congruence|left; reflexivity]|left; auto|right; split; [exact Hn|right; exact Hi]].
      * intros [[-> ->]|[Hn [[= <- <-]|Hi]]]; [right; left; auto|left; reflexivity|right; right; auto].
Qed.
Lemma in_kdel : forall (d : dict) k k' v', NoDup (map fst d) -> In (k', v') (kdel k d) <-> k' <> k /\ In (k', v') d.
Proof.
  induction d as [|[k0 v0] d IH]; intros k k' v' N; cbn; [intuition|].
  inversion N as [|x l H1 H2]; subst. destruct (String.eqb k k0) eqn:Ek; cbn.
  - apply String.eqb_eq in Ek. subst k0. split.
    + intros Hi. split; [|right; exact Hi]. intros ->. apply H1. apply (in_map fst) in Hi. exact Hi.
    + intros [Hn [[= <- <-]|Hi]]; [contradiction|exact Hi].
  - rewrite IH by exact H2. apply String.eqb_neq in Ek. split.
    + intros [[= <- <-]|[Hn Hi]]; [split; [congruence|left; reflexivity]|auto].
    + intros [Hn [[= <- <-]|Hi]]; auto.
Qed.
Lemma keys_kdel : forall (d : dict) k x, In x (map fst (kdel k d)) -> In x (map fst d).
Proof.
  induction d as [|[k0 v0] d IH]; intros k x; cbn; [auto|]. destruct (String.eqb k k0); cbn; [auto|]. intros [H|H]; [auto|right; eapply IH; exact H].
Qed.
End Dict.

Section P.
Context {V E : Type}.
Variables (windows : bool) (obs act : E -> space) (high : E -> list Qc) (make : string -> list (string * V) -> res E).
Lemma kwargs_for : forall (r : registered V) m, NoDup (map fst (r_kwargs r)) -> args_for r m (create_kwargs r m).
Proof. intros r m N k v. unfold create_kwargs. apply in_kset. exact N. Qed.
Lemma mapM_times : forall (x : E) n, mapM (fun f : res E => f) (repeat (Ok x) n) = Ok (repeat x n).
Proof. intros x n. induction n as [|n IH]; [reflexivity|]. cbn. rewrite IH. reflexivity. Qed.
Lemma mapM_times_inv : forall (f : res E) n ws, mapM (fun f : res E => f) (repeat f n) = Ok ws -> length ws = n /\ Forall (fun e => f = Ok e) ws.
Proof. clear windows obs act high make.
  intros f. induction n as [|n IH]; intros ws H; cbn in H; [injection H as <-; split; [reflexivity|constructor]|].
  destruct f as [e|x]; [|discriminate]. cbn in H. destruct (mapM _ _) as [ws'|x] eqn:M; [|discriminate]. cbn in H. injection H as <-.
  destruct (IH _ eq_refl) as [L F]. split; [cbn; congruence|]. constructor; [reflexivity|exact F].
Qed.
Lemma make_venv_inv : forall t (f : res E) n (v : venv V E), make_venv windows t (times f n) = Ok v ->
  (0 < n)%Z /\ exists ws, v = VWork (backend_of windows t) ws None /\ length ws = Z.to_nat n /\ Forall (fun e => f = Ok e) ws.
Proof. clear obs act high make.
  intros t f n v H. unfold make_venv, times in H. destruct (mapM _ _) as [ws|x] eqn:M; [|discriminate]. cbn in H.
  apply mapM_times_inv in M as [L F]. destruct ws as [|w ws]; [discriminate|]. injection H as <-.
  split; [cbn in L; lia|]. eexists. split; [reflexivity|]. split; assumption.
Qed.
Lemma seed_workers : forall b (es : list E) s0 seed (P : E -> Prop), Forall P es ->
  workers (seed_venv (VWork b es s0 : venv V E) seed) b (length es) seed P.
Proof. clear windows obs act high make.
  intros b es s0 seed P F. exists es, (map (fun i => (seed + Z.of_nat i)%Z) (seq 0 (length es))). split; [reflexivity|]. split; [reflexivity|].
  split; [exact F|]. split; [rewrite map_length, seq_length; reflexivity|].
  intros i s H. rewrite nth_error_map in H. destruct (nth_error (seq 0 (length es)) i) as [x|] eqn:Ex; [|discriminate]. injection H as <-.
  assert (Hl : i < length es) by (assert (nth_error (seq 0 (length es)) i <> None) as Q by congruence; apply nth_error_Some in Q; rewrite seq_length in Q; exact Q).
  apply (nth_error_nth _ _ 0) in Ex. rewrite seq_nth in Ex by exact Hl. cbn in Ex. lia.
Qed.
Lemma reg_venv_inv : forall (r : registered V) n m v, NoDup (map fst (r_kwargs r)) -> r_pool r = false -> reg_venv windows make r n m = Ok v ->
  workers v (match m with MWatch => BDummy | _ => backend_of windows (r_vtype r) end) (match m with MWatch => 1 | _ => Z.to_nat n end)
    (match m with MTrain => r_train_seed r | _ => r_test_seed r end) (made make r m) /\ (m <> MWatch -> (0 < n)%Z).
Proof. clear obs act high.
  intros r n m v N Hp H. unfold reg_venv in H. rewrite Hp in H. destruct (base_venv _ _ _ _ _) as [v0|x] eqn:B; [|discriminate]. cbn in H.
  assert (M : forall m' e, reg_env make r m' = Ok e -> made make r m' e).
  { intros m' e He. exists (create_kwargs r m'). split; [exact He|apply kwargs_for; exact N]. }
  destruct m; cbn in B.
  - injection H as <-. apply make_venv_inv in B as (Hn & ws & -> & L & F). split; [|intros _; exact Hn]. rewrite <- L. apply seed_workers.
    eapply Forall_impl; [|exact F]. intros e He. apply M. exact He.
  - injection H as <-. apply make_venv_inv in B as (Hn & ws & -> & L & F). split; [|intros _; exact Hn]. rewrite <- L. apply seed_workers.
    eapply Forall_impl; [|exact F]. intros e He. apply M. exact He.
  - injection H as <-. split; [|congruence]. unfold make_venv in B. cbn in B. destruct (reg_env make r MWatch) as [e|x] eqn:Er; [|discriminate]. cbn in B.
    injection B as <-. apply (seed_workers BDummy [e]). constructor; [apply M; exact Er|constructor].
Qed.
Lemma environments_inv : forall t e (tr te : venv V E) w es, environments_of obs act high t e tr te w = Ok es ->
  es_type es = t /\ es_env es = e /\ es_train es = tr /\ es_test es = te /\ es_watch es = w /\
  es_max es = (match t with ECont => max_action act high e | EDisc => [] end).
Proof.
  intros t e tr te w es H. unfold environments_of in H.
  destruct (match t with ECont => cont_envs (obs e) (act e) | EDisc => disc_envs (obs e) (act e) end) as [s|x]; [|discriminate].
  cbn in H. injection H as <-. cbn. auto 10.
Qed.
Lemma usable_ok : forall e (tr te : venv V E) w, usable (obs e) (act e) <->
  exists t es, type_of (act e) = Ok t /\ environments_of obs act high t e tr te w = Ok es.
Proof.
  intros e tr te w. unfold usable, environments_of, cont_envs, disc_envs, shape_or_n, type_of.
  destruct (act e) as [n|l|l].
  - destruct (obs e) as [m|[|a o]|[|a o]]; cbn; (split; [intros [H1 H2]; try contradiction; eexists; eexists; split; reflexivity|]);
      intros (t & es & Ht & He); try (injection Ht as <-; cbn in He; discriminate); auto.
  - destruct (obs e) as [[|m]|[|a o]|[|a o]]; destruct l as [|b l]; cbn;
      (split; [intros [H1 H2]; try contradiction; try congruence; eexists; eexists; split; reflexivity|]);
      intros (t & es & Ht & He); injection Ht as <-; cbn in He; try discriminate; split; auto; congruence.
  - split; [intros [_ []]|]. intros (t & es & Ht & _). discriminate.
Qed.
End P.

(** C283. create_envs gives as many environments of each purpose as asked for, in the kind of vector
    environment asked for, with consecutive seeds from the seed of the purpose, a watch environment if
    asked for, and the class that suits the action space. *)
Lemma C283_created_lemma : forall (V E : Type) (windows : bool) (obs act : E -> space) (high : E -> list Qc)
    (make : string -> list (string * V) -> res E) (r : registered V) (n_train n_test : Z) (watch : bool) (es : environments V E),
  NoDup (map fst (r_kwargs r)) -> r_pool r = false -> reg_envs windows obs act high make r n_train n_test watch = Ok es ->
  made make r MTrain (es_env es) /\
  workers (es_train es) (backend_of windows (r_vtype r)) (Z.to_nat n_train) (r_train_seed r) (made make r MTrain) /\
  workers (es_test es) (backend_of windows (r_vtype r)) (Z.to_nat n_test) (r_test_seed r) (made make r MTest) /\
  (if watch then exists w, es_watch es = Some w /\ workers w BDummy 1 (r_test_seed r) (made make r MWatch) else es_watch es = None) /\
  of_type (act (es_env es)) (es_type es).
Proof.
  intros V E windows obs act high make r n_train n_test watch es N Hp H. unfold reg_envs, create_envs in H.
  destruct (reg_env make r MTrain) as [e|x] eqn:He; [|discriminate]. cbn [bind] in H.
  destruct (reg_venv windows make r n_train MTrain) as [tr|x] eqn:Htr; [|discriminate]. cbn [bind] in H.
  destruct (reg_venv windows make r n_test MTest) as [te|x] eqn:Hte; [|discriminate]. cbn [bind] in H.
  apply reg_venv_inv in Htr as [Wtr _]; [|exact N|exact Hp]. apply reg_venv_inv in Hte as [Wte _]; [|exact N|exact Hp].
  assert (K : exists w, (if watch then exists w', w = Some w' /\ workers w' BDummy 1 (r_test_seed r) (made make r MWatch) else w = None) /\
    (let* t := type_of (act e) in environments_of obs act high t e tr te w) = Ok es).
  { destruct watch.
    - destruct (reg_venv windows make r 1 MWatch) as [w|x] eqn:Hw; [|discriminate]. cbn [bind] in H.
      apply reg_venv_inv in Hw as [Ww _]; [|exact N|exact Hp]. exists (Some w). split; [exists w; split; [reflexivity|exact Ww]|exact H].
    - exists None. split; [reflexivity|exact H]. }
  destruct K as (w & Hw & H'). destruct (type_of (act e)) as [t|x] eqn:Ht; [|discriminate]. cbn [bind] in H'.
  apply environments_inv in H' as (A & B & C & D & F & _). rewrite A, B, C, D, F.
  split; [exists (create_kwargs r MTrain); split; [exact He|apply kwargs_for; exact N]|].
  split; [exact Wtr|]. split; [exact Wte|]. split; [destruct watch; exact Hw|].
  revert Ht. destruct (act e); intros [= <-]; exact Logic.I.
Qed.

(** C283. If the environments can be made, it succeeds for all positive numbers and usable spaces, and only for them. *)
Lemma C283_succeeds_lemma : forall (V E : Type) (windows : bool) (obs act : E -> space) (high : E -> list Qc)
    (make : string -> list (string * V) -> res E) (r : registered V) (n_train n_test : Z) (watch : bool) (e_train e_test e_watch : E),
  NoDup (map fst (r_kwargs r)) -> r_pool r = false ->
  (forall kw, args_for r MTrain kw -> make (r_task r) kw = Ok e_train) ->
  (forall kw, args_for r MTest kw -> make (r_task r) kw = Ok e_test) ->
  (forall kw, args_for r MWatch kw -> make (r_task r) kw = Ok e_watch) ->
  (exists es, reg_envs windows obs act high make r n_train n_test watch = Ok es) <->
  (0 < n_train)%Z /\ (0 < n_test)%Z /\ usable (obs e_train) (act e_train).
Proof.
  intros V E windows obs act high make r n_train n_test watch e1 e2 e3 N Hp M1 M2 M3.
  assert (R1 : reg_env make r MTrain = Ok e1) by (apply M1, kwargs_for, N).
  assert (R2 : reg_env make r MTest = Ok e2) by (apply M2, kwargs_for, N).
  assert (R3 : reg_env make r MWatch = Ok e3) by (apply M3, kwargs_for, N).
  assert (B : forall n m e, m <> MWatch -> reg_env make r m = Ok e ->
    reg_venv windows make r n m = if (0 <? n)%Z then Ok (seed_venv (VWork (backend_of windows (r_vtype r)) (repeat e (Z.to_nat n)) None) (match m with MTrain => r_train_seed r | _ => r_test_seed r end)) else Err IndexError).
  { intros n m e Hm Hr. unfold reg_venv. rewrite Hp.
    assert (BV : base_venv windows (V := V) (reg_env make r) (r_vtype r) n m = if (0 <? n)%Z then Ok (VWork (backend_of windows (r_vtype r)) (repeat e (Z.to_nat n)) None) else Err IndexError).
    { assert (BB : base_venv windows (V := V) (reg_env make r) (r_vtype r) n m = make_venv windows (r_vtype r) (times (reg_env make r m) n)) by (destruct m; [reflexivity|reflexivity|congruence]).
      rewrite BB. unfold make_venv, times. rewrite Hr, mapM_times. cbn [bind].
      destruct (Z.ltb_spec 0 n) as [L|L].
      - destruct (Z.to_nat n) as [|k] eqn:Ek; [lia|]. reflexivity.
      - replace (Z.to_nat n) with 0 by lia. reflexivity. }
    rewrite BV. destruct (0 <? n)%Z; reflexivity. }
  unfold reg_envs, create_envs. rewrite R1. cbn [bind].
  rewrite (B n_train MTrain e1) by (try discriminate; exact R1). rewrite (B n_test MTest e2) by (try discriminate; exact R2).
  destruct (Z.ltb_spec 0 n_train) as [L1|L1]; [|split; [intros [es He]; discriminate|intros (H & _); lia]]. cbn [bind].
  destruct (Z.ltb_spec 0 n_test) as [L2|L2]; [|split; [intros [es He]; discriminate|intros (_ & H & _); lia]]. cbn [bind].
  assert (W : exists w, (if watch then let* w := reg_venv windows make r 1 MWatch in Ok (Some w) else Ok None) = Ok w).
  { destruct watch; [|exists None; reflexivity]. unfold reg_venv. rewrite Hp. cbn [base_venv]. unfold make_venv. cbn [mapM bind]. rewrite R3. cbn. eexists. reflexivity. }
  destruct W as [w ->]. cbn [bind].
  set (tr := seed_venv _ _). set (te := seed_venv _ _).
  assert (U := usable_ok obs act high e1 tr te w). split.
  - intros [es He]. split; [exact L1|]. split; [exact L2|]. apply U. destruct (type_of (act e1)) as [t|x]; [|discriminate]. cbn [bind] in He. eauto.
  - intros (_ & _ & Hu). apply U in Hu as (t & es & -> & He). cbn [bind]. eauto.
Qed.

(** C283. The vector environment runs in this process, in Ray or in processes of its own; these share memory for all kinds but SUBPROC, and are forked for the kind asking for it and by default where the platform can. *)
Lemma C283_backend_lemma : forall (windows : bool) (t : vtype),
  (backend_of windows t = BDummy <-> t = TDummy) /\ (backend_of windows t = BRay <-> t = TRay) /\
  (forall shared fork, backend_of windows t = BSubproc shared fork ->
    (shared = true <-> t <> TSubproc) /\ (fork = true <-> t = TShmemFork \/ (t = TAuto /\ windows = false))).
Proof.
  intros windows t. split; [|split].
  - destruct t; cbn; try destruct windows; split; intros H; try discriminate; reflexivity.
  - destruct t; cbn; try destruct windows; split; intros H; try discriminate; reflexivity.
  - intros shared fork. destruct t; cbn; try destruct windows; intros H; try discriminate; injection H as <- <-;
      (split; split; intros H; try discriminate; try reflexivity; try congruence; try (left; reflexivity); try (right; split; reflexivity);
       destruct H as [H|[H H']]; discriminate).
Qed.

(** C284. With envpool, the vector environment has the task, number, seed and the keyword arguments except for the render mode. *)
Lemma C284_pool_lemma : forall (V E : Type) (windows : bool) (make : string -> list (string * V) -> res E) (r : registered V) (n : Z) (m : emode),
  NoDup (map fst (r_kwargs r)) -> r_pool r = true -> (forall k, In k (map fst (r_kwargs r)) -> k <> "num_envs"%string /\ k <> "seed"%string) ->
  exists kw, reg_venv windows make r n m = Ok (VPool (r_task r) n (match m with MTrain => r_train_seed r | _ => r_test_seed r end) kw) /\
    forall k v, In (k, v) kw <-> k <> "render_mode"%string /\ In (k, v) (r_kwargs r).
Proof.
  intros V E windows make r n m N Hp Hk. unfold reg_venv. rewrite Hp. unfold pool_venv.
  set (d := create_kwargs r m).
  assert (Nd : NoDup (map fst d)) by (apply nodup_kset; exact N).
  assert (Ha := kwargs_for r m N). fold d in Ha. unfold args_for in Ha.
  assert (Hr : khas "render_mode" d = true).
  { apply khas_in. apply keys_kset. left. reflexivity. }
  unfold transform_kwargs. rewrite Hr.
  assert (Hd : forall k v, In (k, v) (kdel "render_mode" d) <-> k <> "render_mode"%string /\ In (k, v) (r_kwargs r)).
  { intros k v. rewrite in_kdel by exact Nd. rewrite Ha. intuition. }
  assert (Hkey : forall k, In k (map fst (kdel "render_mode" d)) -> In k (map fst (r_kwargs r))).
  { intros k Hi. apply in_map_iff in Hi as ([k' v'] & <- & Hi). apply Hd in Hi as [_ Hi]. apply (in_map fst) in Hi. exact Hi. }
  assert (G : khas "num_envs" (kdel "render_mode" d) || khas "seed" (kdel "render_mode" d) = false).
  { apply orb_false_intro.
    - destruct (khas "num_envs" (kdel "render_mode" d)) eqn:Q; [|reflexivity]. apply khas_in in Q. apply Hkey in Q. destruct (Hk _ Q). congruence.
    - destruct (khas "seed" (kdel "render_mode" d)) eqn:Q; [|reflexivity]. apply khas_in in Q. apply Hkey in Q. destruct (Hk _ Q). congruence. }
  rewrite G. cbn [negb guard]. eexists. split; [reflexivity|exact Hd].
Qed.
(** C284. Without, every environment of the vector environment has the keyword arguments, with the render mode of its purpose. *)
Lemma C284_gym_lemma : forall (V E : Type) (windows : bool) (make : string -> list (string * V) -> res E) (r : registered V) (n : Z) (m : emode) (v : venv V E),
  NoDup (map fst (r_kwargs r)) -> r_pool r = false -> reg_venv windows make r n m = Ok v ->
  exists b es seeds, v = VWork b es seeds /\ forall e, In e es -> made make r m e.
Proof.
  intros V E windows make r n m v N Hp H. apply reg_venv_inv in H as [(es & seeds & -> & _ & F & _) _]; [|exact N|exact Hp].
  eexists _, _, _. split; [reflexivity|]. apply Forall_forall. exact F.
Qed.

(** C285. In WATCH mode the vector environment is a DUMMY one with a single environment, whatever number is asked for. *)
Lemma C285_watch_lemma : forall (V E : Type) (windows : bool) (make : string -> list (string * V) -> res E) (r : registered V) (n : Z) (v : venv V E),
  NoDup (map fst (r_kwargs r)) -> r_pool r = false -> reg_venv windows make r n MWatch = Ok v ->
  exists e, v = VWork BDummy [e] (Some [r_test_seed r]) /\ made make r MWatch e.
Proof.
  intros V E windows make r n v N Hp H. apply reg_venv_inv in H as [(es & seeds & -> & L & F & L2 & S) _]; [|exact N|exact Hp].
  destruct es as [|e [|]]; try discriminate. destruct seeds as [|s [|]]; try discriminate. exists e.
  rewrite (S 0 s eq_refl). cbn [Z.of_nat]. rewrite Z.add_0_r. split; [reflexivity|]. inversion F; assumption.
Qed.
(** C285. Not so with envpool: there are as many environments as asked for, and none has a render mode. *)
Lemma C285_pool_refuted_lemma : forall (V E : Type) (windows : bool) (make : string -> list (string * V) -> res E) (r : registered V) (n : Z),
  NoDup (map fst (r_kwargs r)) -> r_pool r = true -> (forall k, In k (map fst (r_kwargs r)) -> k <> "num_envs"%string /\ k <> "seed"%string) ->
  exists kw, reg_venv windows make r n MWatch = Ok (VPool (r_task r) n (r_test_seed r) kw) /\ ~ In "render_mode"%string (map fst kw).
Proof.
  intros V E windows make r n N Hp Hk. destruct (C284_pool_lemma V E windows make r n MWatch N Hp Hk) as (kw & H & A). exists kw. split; [exact H|].
  intros Hi. apply in_map_iff in Hi as ([k v] & Ek & Hi). cbn in Ek. apply A in Hi as [Hn _]. congruence.
Qed.

(** C286. A state with the old single seed becomes one with that seed for training and test, everything else kept. *)
Lemma C286_old_lemma : forall (V : Type) (state : list (string * V)) (s : V),
  NoDup (map fst state) -> In ("seed"%string, s) state -> ~ In "test_seed"%string (map fst state) -> ~ In "train_seed"%string (map fst state) ->
  exists state', reg_setstate state = Ok state' /\ reg_setstate state' = Ok state' /\
    forall k v, In (k, v) state' <-> (k <> "seed"%string /\ In (k, v) state) \/ ((k = "test_seed"%string \/ k = "train_seed"%string) /\ v = s).
Proof.
  intros V state s N Hs H1 H2. unfold reg_setstate at 1.
  rewrite (proj2 (kget_in state "seed" s N) Hs).
  destruct (khas "test_seed" state) eqn:Q1; [apply khas_in in Q1; contradiction|].
  destruct (khas "train_seed" state) eqn:Q2; [apply khas_in in Q2; contradiction|]. cbn [orb negb guard].
  set (d1 := kset "test_seed" s state). set (d2 := kset "train_seed" s d1).
  assert (N1 : NoDup (map fst d1)) by (apply nodup_kset; exact N). assert (N2 : NoDup (map fst d2)) by (apply nodup_kset; exact N1).
  assert (A : forall k v, In (k, v) (kdel "seed" d2) <-> (k <> "seed"%string /\ In (k, v) state) \/ ((k = "test_seed"%string \/ k = "train_seed"%string) /\ v = s)).
  { intros k v. rewrite in_kdel by exact N2. unfold d2. rewrite in_kset by exact N1. unfold d1. rewrite in_kset by exact N.
    assert (K1 : In (k, v) state -> k <> "test_seed"%string) by (intros Hi ->; apply H1; apply (in_map fst) in Hi; exact Hi).
    assert (K2 : In (k, v) state -> k <> "train_seed"%string) by (intros Hi ->; apply H2; apply (in_map fst) in Hi; exact Hi).
    split.
    - intros [Hn [[-> ->]|[_ [[-> ->]|[_ Hi]]]]]; auto.
    - intros [[Hn Hi]| [[-> | ->] ->]].
      + split; [exact Hn|]. right. split; [apply K2; exact Hi|]. right. split; [apply K1; exact Hi|exact Hi].
      + split; [discriminate|]. right. split; [discriminate|]. left. auto.
      + split; [discriminate|]. left. auto. }
  exists (kdel "seed" d2). split; [reflexivity|]. split; [|exact A].
  unfold reg_setstate. replace (kget "seed" (kdel "seed" d2)) with (@None V); [reflexivity|]. symmetry. apply kget_none.
  intros Hi. apply in_map_iff in Hi as ([k v] & Ek & Hi). cbn in Ek. subst k. apply A in Hi as [[Hn _]|[[Hn|Hn] _]]; [congruence|discriminate|discriminate].
Qed.
(** C286. A state without it is kept, and one with both is refused. *)
Lemma C286_new_lemma : forall (V : Type) (state : list (string * V)),
  (~ In "seed"%string (map fst state) -> reg_setstate state = Ok state) /\
  (In "seed"%string (map fst state) -> In "test_seed"%string (map fst state) \/ In "train_seed"%string (map fst state) -> reg_setstate state = Err RuntimeError).
Proof.
  intros V state. unfold reg_setstate. split.
  - intros H. apply kget_none in H. rewrite H. reflexivity.
  - intros H Ho. destruct (kget "seed" state) eqn:G; [|apply kget_none in G; contradiction].
    destruct Ho as [Ho|Ho]; apply khas_in in Ho; rewrite Ho; [|rewrite orb_true_r]; reflexivity.
Qed.

(** C287. from_factory_and_type with the continuous type refuses environments that are not. *)
Lemma C287_continuous_lemma : forall (V E : Type) (windows : bool) (obs act : E -> space) (high : E -> list Qc) (factory : emode -> res E)
    (vt : vtype) (n_train n_test : Z) (watch : bool) (es : environments V E),
  from_factory_and_type windows obs act high factory ECont vt n_train n_test watch = Ok es ->
  of_type (act (es_env es)) (es_type es) /\ es_type es = ECont.
Proof.
  intros V E windows obs act high factory vt n_train n_test watch es H. unfold from_factory_and_type in H.
  destruct (make_venv _ _ _) as [tr|x]; [|discriminate]. cbn [bind] in H. destruct (make_venv _ _ (times (factory MTest) n_test)) as [te|x]; [|discriminate]. cbn [bind] in H.
  match type of H with bind ?q _ = _ => destruct q as [w|x] end; [|discriminate]. cbn [bind] in H.
  destruct (factory MTrain) as [e|x]; [|discriminate]. cbn [bind] in H. assert (H' := H). apply environments_inv in H' as (A & B & _).
  rewrite A, B. unfold environments_of, cont_envs in H. destruct (act e); [discriminate|split; [exact Logic.I|reflexivity]|discriminate].
Qed.
(** C287. With the discrete type every environment with an observation shape and a Box of actions is taken, and is then said to be discrete. *)
Lemma C287_discrete_refuted_lemma : forall (V E : Type) (windows : bool) (obs act : E -> space) (high : E -> list Qc) (factory : emode -> res E)
    (vt : vtype) (n_train n_test : Z) (watch : bool) (e_train e_test e_watch : E) (s : nat) (shape : list nat),
  factory MTrain = Ok e_train -> factory MTest = Ok e_test -> factory MWatch = Ok e_watch -> (0 < n_train)%Z -> (0 < n_test)%Z ->
  usable (obs e_train) (act e_train) -> act e_train = Box (s :: shape) ->
  exists es : environments V E, from_factory_and_type windows obs act high factory EDisc vt n_train n_test watch = Ok es /\
    es_env es = e_train /\ es_type es = EDisc /\ ~ of_type (act (es_env es)) (es_type es) /\ es_act es = STuple (s :: shape).
Proof.
  intros V E windows obs act high factory vt n_train n_test watch e1 e2 e3 s shape F1 F2 F3 L1 L2 U A.
  unfold from_factory_and_type. rewrite F1, F2, F3. unfold make_venv at 1 2, times. rewrite !mapM_times. cbn [bind].
  destruct (Z.to_nat n_train) as [|k] eqn:E1; [lia|]. destruct (Z.to_nat n_test) as [|k'] eqn:E2; [lia|]. cbn [repeat bind].
  assert (W : exists w : option (venv V E), (if watch then let* w := make_venv windows TDummy [Ok e3] in Ok (Some w) else Ok None) = Ok w) by (destruct watch; eexists; reflexivity).
  destruct W as [w ->]. cbn [bind]. unfold environments_of, disc_envs. rewrite A in U |- *. destruct U as [U _].
  assert (O : exists o, shape_or_n (obs e1) = Ok o) by (destruct (obs e1) as [m|[|a o]|[|a o]]; try contradiction; eexists; reflexivity).
  destruct O as [o ->]. cbn [bind shape_or_n]. eexists. split; [reflexivity|]. cbn. split; [reflexivity|]. split; [reflexivity|]. split; [|reflexivity]. rewrite A. exact (fun f => f).
Qed.

(** C288. If all upper bounds of a vector of actions are the same, max_action is that bound. *)
Lemma C288_uniform_lemma : forall (V E : Type) (obs act : E -> space) (high : E -> list Qc) (e : E) (tr te : venv V E) (w : option (venv V E)) (es : environments V E) (n : nat) (b : Qc),
  environments_of obs act high ECont e tr te w = Ok es -> act e = Box [n] -> length (high e) = n -> (0 < n) ->
  (forall h, In h (high e) -> h = b) -> es_max es = [b].
Proof.
  intros V E obs act high e tr te w es n b H A L P Hb. apply environments_inv in H as (_ & _ & _ & _ & _ & ->). unfold max_action. rewrite A. cbn [fold_right].
  destruct (high e) as [|h hs]; [cbn in L; lia|]. cbn [firstn]. rewrite (Hb h (or_introl eq_refl)). reflexivity.
Qed.
(** C288. Otherwise it is only the bound of the first component: any larger bound exceeds it. *)
Lemma C288_first_refuted_lemma : forall (V E : Type) (obs act : E -> space) (high : E -> list Qc) (e : E) (tr te : venv V E) (w : option (venv V E)) (es : environments V E) (n : nat) (h0 h : Qc) (hs : list Qc),
  environments_of obs act high ECont e tr te w = Ok es -> act e = Box [n] -> high e = h0 :: hs -> In h hs -> (h0 < h)%Qc ->
  ~ (exists m, es_max es = [m] /\ forall b, In b (high e) -> (b <= m)%Qc).
Proof.
  intros V E obs act high e tr te w es n h0 h hs H A Hh Hi Hlt (m & Hm & Hb). apply environments_inv in H as (_ & _ & _ & _ & _ & Hx).
  rewrite Hx in Hm. unfold max_action in Hm. rewrite A, Hh in Hm. cbn in Hm. injection Hm as <-.
  assert (Hle : (h <= h0)%Qc) by (apply Hb; rewrite Hh; right; exact Hi). qclra.
Qed.
(** C288. And for actions of several dimensions it is not a number. *)
Lemma C288_matrix_refuted_lemma : forall (V E : Type) (obs act : E -> space) (high : E -> list Qc) (e : E) (tr te : venv V E) (w : option (venv V E)) (es : environments V E) (n a : nat) (shape : list nat),
  environments_of obs act high ECont e tr te w = Ok es -> act e = Box (n :: a :: shape) -> length (high e) = n * (a * fold_right Nat.mul 1 shape) ->
  0 < n -> length (es_max es) = a * fold_right Nat.mul 1 shape.
Proof.
  intros V E obs act high e tr te w es n a shape H A L P. apply environments_inv in H as (_ & _ & _ & _ & _ & ->). unfold max_action. rewrite A. cbn [fold_right].
  rewrite firstn_length, L. set (k := a * fold_right Nat.mul 1 shape). clearbody k. nia.
Qed.
