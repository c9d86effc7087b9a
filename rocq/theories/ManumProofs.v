(** * Proofs: the multi-agent manager and the names of the agents *)
From Verif Require Import Py PyLemmas MaModel MaProofs ReplModel ReplProofs.
Open Scope nat_scope.

Section Names.
Variable f : nat -> nat.
Variable f_inj : forall a b, f a = f b -> a = b.
Lemma index_map ids a : agent_index (map f ids) (f a) = agent_index ids a.
Proof.
  unfold agent_index. rewrite map_length. apply filter_ext_in'. intros i Hi. apply in_seq in Hi. rewrite map_nth.
  destruct (Nat.eqb_spec (nth i ids a) a) as [->|N]; [apply Nat.eqb_refl|]. apply Nat.eqb_neq. intros Q. apply N, f_inj, Q.
Qed.
End Names.
Lemma mapM_map' {A B C} (g : A -> B) (h : B -> res C) : forall l, mapM h (map g l) = mapM (fun x => h (g x)) l.
Proof. induction l as [|x l IH]; [reflexivity|]. cbn [map mapM]. rewrite IH. reflexivity. Qed.
Lemma foldM_map' {A B S} (g : A -> B) (h : S -> B -> res S) : forall l s, foldM h (map g l) s = foldM (fun s x => h s (g x)) l s.
Proof. induction l as [|x l IH]; intros s; [reflexivity|]. cbn [map foldM]. destruct (h s (g x)); [cbn [bind]; apply IH|reflexivity]. Qed.
Lemma combine_map_l {A B C} (g : A -> B) : forall (l : list A) (m : list C), combine (map g l) m = map (fun xy => (g (fst xy), snd xy)) (combine l m).
Proof. induction l as [|x l IH]; intros [|y m]; [reflexivity..|]. cbn. rewrite IH. reflexivity. Qed.

(** C377.  If the agents get other names and the policies, the rows and the states move with them,
    the same actions result, and the states under the new names. *)
Lemma C377_act_lemma : forall (Row Act St : Type) (f : nat -> nat)
  (policy policy' : nat -> option (option St) -> list Row -> res (list Act * option St)) (noise noise' : nat -> list Act -> list Row -> res (list Act))
  (agents ids : list nat) (rows : list Row) (state state' : option (nat -> option St)) (act : list Act),
  (forall a b, f a = f b -> a = b) ->
  (forall a st rs, policy' (f a) st rs = policy a st rs) -> (forall a x rs, noise' (f a) x rs = noise a x rs) ->
  (forall a, option_map (fun st => st (f a)) state' = option_map (fun st => st a) state) ->
  forward policy' (map f agents) (map f ids) rows state'
    = (let* out := forward policy agents ids rows state in Ok (fst out, map (fun bs => (f (fst bs), snd bs)) (snd out)))
  /\ exploration noise' (map f agents) (map f ids) rows act = exploration noise agents ids rows act.
Proof.
  intros Row Act St f policy policy' noise noise' agents ids rows state state' act Hf Hp Hz Hs. split.
  - unfold forward. rewrite mapM_map'. rewrite (mapM_ext_in _ (forward_one policy (ids, rows) state)).
    2:{ intros a _. unfold forward_one. rewrite (index_map f Hf). destruct (length _ =? 0); [reflexivity|]. destruct (take rows _); [|reflexivity]. cbn [bind]. rewrite Hs, Hp. reflexivity. }
    destruct (mapM _ agents) as [r|]; [|reflexivity]. cbn [bind]. destruct (foldM _ r (acts_of r)) as [x|]; [|reflexivity]. cbn [bind fst snd]. rewrite combine_map_l. reflexivity.
  - unfold exploration. rewrite foldM_map'. revert act. induction agents as [|a agents IH]; intros act; [reflexivity|]. cbn [foldM]. rewrite (index_map f Hf).
    destruct (length (agent_index ids a) =? 0); cbn [bind]; [apply IH|]. destruct (take act _) as [x|]; [|reflexivity]. destruct (take rows _) as [tmp|]; [|reflexivity]. cbn [bind]. rewrite Hz.
    destruct (noise a x tmp) as [new|]; [|reflexivity]. cbn [bind]. destruct (put act _ new); [|reflexivity]. cbn [bind]. apply IH.
Qed.
(** C377.  Likewise the data and the statistics of the agents are the same under the new names. *)
Lemma C377_learn_lemma : forall (Row R X Stats : Type) (f : nat -> nat) (agent_idx agent_idx' : nat -> nat)
  (pf pf' : nat -> list Row -> list R -> list nat -> list R -> res X) (learn_fn learn_fn' : nat -> X -> res Stats)
  (agents ids : list nat) (rows : list Row) (rews : list (list R)) (indice : list nat) (save : list (list R)) (results : list (nat * option X)),
  (forall a b, f a = f b -> a = b) -> (forall a, agent_idx' (f a) = agent_idx a) ->
  (forall a rs tr ti br, pf' (f a) rs tr ti br = pf a rs tr ti br) -> (forall a x, learn_fn' (f a) x = learn_fn a x) ->
  process agent_idx' pf' (map f agents) (map f ids) rows rews indice save
    = (let run := process agent_idx pf agents ids rows rews indice save in (fst run, let* l := snd run in Ok (map (fun ax => (f (fst ax), snd ax)) l)))
  /\ ma_learn learn_fn' (map (fun ax => (f (fst ax), snd ax)) results) = (let* l := ma_learn learn_fn results in Ok (map (fun sx => (f (fst sx), snd sx)) l)).
Proof.
  intros Row R X Stats f agent_idx agent_idx' pf pf' learn_fn learn_fn' agents ids rows rews indice save results Hf Hi Hp Hl. split.
  - assert (F : forall cur, process_loop agent_idx' pf' (map f agents) (map f ids) rows rews indice save cur
      = (let run := process_loop agent_idx pf agents ids rows rews indice save cur in (fst run, let* l := snd run in Ok (map (fun ax => (f (fst ax), snd ax)) l)))).
    { induction agents as [|a agents IH]; intros cur; [reflexivity|]. cbn [map process_loop].
      assert (O : process_one agent_idx' pf' (map f ids) rows rews indice save (f a) cur = process_one agent_idx pf ids rows rews indice save a cur).
      { unfold process_one. rewrite (index_map f Hf). destruct (length _ =? 0); [reflexivity|]. rewrite Hi.
        destruct (take rows _) as [x1|]; [|reflexivity]. cbn [bind]. destruct (take rews _) as [x2|]; [|reflexivity]. cbn [bind]. destruct (take indice _) as [x3|]; [|reflexivity]. cbn [bind].
        destruct (column _ x2) as [x4|]; [|reflexivity]. cbn [bind]. destruct (column _ save) as [x5|]; [|reflexivity]. cbn [bind]. rewrite Hp. reflexivity. }
      rewrite O. destruct (process_one agent_idx pf ids rows rews indice save a cur) as [c [y|]]; [|reflexivity]. rewrite IH.
      destruct (process_loop agent_idx pf agents ids rows rews indice save c) as [c2 [l|]]; reflexivity. }
    unfold process. rewrite F. destruct (process_loop agent_idx pf agents ids rows rews indice save REmpty) as [c [l|]]; reflexivity.
  - unfold ma_learn. rewrite mapM_map'. cbn [fst snd].
    assert (F : mapM (fun x : nat * option X => match snd x with None => Ok [] | Some x0 => let* s := learn_fn' (f (fst x)) x0 in Ok [(f (fst x), s)] end) results
      = (let* l := mapM (fun ax : nat * option X => match snd ax with None => Ok [] | Some x => let* s := learn_fn (fst ax) x in Ok [(fst ax, s)] end) results in Ok (map (map (fun sx => (f (fst sx), snd sx))) l))).
    { induction results as [|[a [x|]] results IH]; [reflexivity| |]; cbn [mapM fst snd].
      - rewrite Hl. destruct (learn_fn a x); [|reflexivity]. cbn [bind]. rewrite IH. clear IH. destruct (mapM _ results); reflexivity.
      - cbn [bind]. rewrite IH. clear IH. destruct (mapM _ results); reflexivity. }
    rewrite F. clear F. destruct (mapM _ results) as [l|]; [|reflexivity]. cbn [bind]. rewrite concat_map. reflexivity.
Qed.
