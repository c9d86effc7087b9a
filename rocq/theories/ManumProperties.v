(** * Property C377: the multi-agent manager and the names of the agents *)
From Verif Require Import Py PyLemmas MaModel MaProofs ManumProofs.
Open Scope nat_scope.

(** C377.  If the agents get other names and the policies, the rows and the states move with them,
    the same actions result, and the states under the new names. *)
Theorem C377_act : forall (Row Act St : Type) (f : nat -> nat)
  (policy policy' : nat -> option (option St) -> list Row -> res (list Act * option St)) (noise noise' : nat -> list Act -> list Row -> res (list Act))
  (agents ids : list nat) (rows : list Row) (state state' : option (nat -> option St)) (act : list Act),
  (forall a b, f a = f b -> a = b) ->
  (forall a st rs, policy' (f a) st rs = policy a st rs) -> (forall a x rs, noise' (f a) x rs = noise a x rs) ->
  (forall a, option_map (fun st => st (f a)) state' = option_map (fun st => st a) state) ->
  forward policy' (map f agents) (map f ids) rows state'
    = (let* out := forward policy agents ids rows state in Ok (fst out, map (fun bs => (f (fst bs), snd bs)) (snd out)))
  /\ exploration noise' (map f agents) (map f ids) rows act = exploration noise agents ids rows act.
Proof. exact C377_act_lemma. Qed.
Print Assumptions C377_act.

(** C377.  Likewise the data and the statistics of the agents are the same under the new names. *)
Theorem C377_learn : forall (Row R X Stats : Type) (f : nat -> nat) (agent_idx agent_idx' : nat -> nat)
  (pf pf' : nat -> list Row -> list R -> list nat -> list R -> res X) (learn_fn learn_fn' : nat -> X -> res Stats)
  (agents ids : list nat) (rows : list Row) (rews : list (list R)) (indice : list nat) (save : list (list R)) (results : list (nat * option X)),
  (forall a b, f a = f b -> a = b) -> (forall a, agent_idx' (f a) = agent_idx a) ->
  (forall a rs tr ti br, pf' (f a) rs tr ti br = pf a rs tr ti br) -> (forall a x, learn_fn' (f a) x = learn_fn a x) ->
  process agent_idx' pf' (map f agents) (map f ids) rows rews indice save
    = (let run := process agent_idx pf agents ids rows rews indice save in (fst run, let* l := snd run in Ok (map (fun ax => (f (fst ax), snd ax)) l)))
  /\ ma_learn learn_fn' (map (fun ax => (f (fst ax), snd ax)) results) = (let* l := ma_learn learn_fn results in Ok (map (fun sx => (f (fst sx), snd sx)) l)).
Proof. exact C377_learn_lemma. Qed.
Print Assumptions C377_learn.

(** ** Non-vacuity: agents 1, 2, 3 are renamed 12, 14, 16. *)
Definition ex_f (a : nat) : nat := 10 + 2 * a.
Definition ex_policy (a : nat) (st : option (option nat)) (rows : list nat) : res (list nat * option nat) :=
  Ok (map (fun r => a * 100 + r + match st with Some (Some s) => s * 1000 | _ => 0 end) rows, Some (length rows)).
Definition ex_policy' (b : nat) := ex_policy ((b - 10) / 2).
Definition ex_pf (a : nat) (rows rew indice brew : list nat) : res (list nat) := Ok (a :: rew ++ brew).
Example C377_act_ex : (forall a b, ex_f a = ex_f b -> a = b) /\ (forall a st rs, ex_policy' (ex_f a) st rs = ex_policy a st rs)
  /\ forward ex_policy [1; 2; 3] [2; 1; 2] [10; 11; 12] (Some (fun a => Some a)) = Ok ([2210; 1111; 2212], [(1, Some 1); (2, Some 2); (3, None)])
  /\ forward ex_policy' [12; 14; 16] [14; 12; 14] [10; 11; 12] (Some (fun b => Some ((b - 10) / 2))) = Ok ([2210; 1111; 2212], [(12, Some 1); (14, Some 2); (16, None)]).
Proof.
  assert (D : forall a, (ex_f a - 10) / 2 = a) by (intros a; unfold ex_f; replace (10 + 2 * a - 10) with (a * 2) by lia; apply Nat.div_mul; discriminate).
  split; [intros a b; unfold ex_f; lia|]. split; [intros a st rs; unfold ex_policy'; rewrite D; reflexivity|]. split; reflexivity.
Qed.
Example C377_learn_ex : process (fun a => if a =? 1 then 0 else 1) ex_pf [1; 2] [2; 1; 2] [10; 11; 12] [[1; 2]; [3; 4]; [5; 6]] [0; 1; 2] [[7; 8]]
    = (RFull [[7; 8]], Ok [(1, Some [1; 3; 7]); (2, Some [2; 2; 6; 8])])
  /\ process (fun b => if b =? 12 then 0 else 1) (fun b => ex_pf ((b - 10) / 2)) [12; 14] [14; 12; 14] [10; 11; 12] [[1; 2]; [3; 4]; [5; 6]] [0; 1; 2] [[7; 8]]
    = (RFull [[7; 8]], Ok [(12, Some [1; 3; 7]); (14, Some [2; 2; 6; 8])]).
Proof. split; reflexivity. Qed.
