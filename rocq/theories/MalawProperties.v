(** * Property C334: the multi-agent manager with policies that act row by row *)
From Verif Require Import Py PyLemmas MaModel MaProofs MalawProofs.
From Coq Require Import Permutation.
Open Scope nat_scope.

(** C334.  If every agent's policy acts row by row, so does the manager: row [i] gets what the
    policy of its agent does for it. *)
Theorem C334_rowwise : forall (Row Act St : Type) (policy : nat -> option (option St) -> list Row -> res (list Act * option St))
    (g : nat -> option (option St) -> Row -> Act) (agents ids : list nat) (rows : list Row) (state : option (nat -> option St)),
  NoDup agents -> length ids = length rows -> (forall a, In a ids -> In a agents) ->
  (forall a st rs, exists s, policy a st rs = Ok (map (g a st) rs, s)) ->
  exists sts, forward policy agents ids rows state = Ok (map (fun ar => g (fst ar) (option_map (fun st => st (fst ar)) state) (snd ar)) (combine ids rows), sts).
Proof. exact C334_rowwise_lemma. Qed.
Print Assumptions C334_rowwise.

(** C334.  Hence rows in another order get their actions in that order. *)
Theorem C334_order : forall (Row Act St : Type) (policy : nat -> option (option St) -> list Row -> res (list Act * option St))
    (g : nat -> option (option St) -> Row -> Act) (agents agents' : list nat) (l l' : list (nat * Row)) (state : option (nat -> option St)) act sts,
  NoDup agents -> Permutation agents agents' -> (forall a, In a (map fst l) -> In a agents) ->
  (forall a st rs, exists s, policy a st rs = Ok (map (g a st) rs, s)) ->
  Permutation l l' -> forward policy agents (map fst l) (map snd l) state = Ok (act, sts) ->
  exists act' sts', forward policy agents' (map fst l') (map snd l') state = Ok (act', sts') /\ Permutation (combine l act) (combine l' act').
Proof. exact C334_order_lemma. Qed.
Print Assumptions C334_order.

(** C334.  And cutting the batch in two changes nothing. *)
Theorem C334_parts : forall (Row Act St : Type) (policy : nat -> option (option St) -> list Row -> res (list Act * option St))
    (g : nat -> option (option St) -> Row -> Act) (agents ids1 ids2 : list nat) (rows1 rows2 : list Row) (state : option (nat -> option St)) act1 act2 sts1 sts2,
  NoDup agents -> length ids1 = length rows1 -> length ids2 = length rows2 -> (forall a, In a (ids1 ++ ids2) -> In a agents) ->
  (forall a st rs, exists s, policy a st rs = Ok (map (g a st) rs, s)) ->
  forward policy agents ids1 rows1 state = Ok (act1, sts1) -> forward policy agents ids2 rows2 state = Ok (act2, sts2) ->
  exists sts, forward policy agents (ids1 ++ ids2) (rows1 ++ rows2) state = Ok (act1 ++ act2, sts).
Proof. exact C334_parts_lemma. Qed.
Print Assumptions C334_parts.

(** ** Non-vacuity: three agents, one without rows; the state shifts the actions. *)
Definition ex_g (a : nat) (st : option (option nat)) (r : nat) : nat := a * 100 + r + match st with Some (Some s) => s * 1000 | _ => 0 end.
Definition ex_policy (a : nat) (st : option (option nat)) (rows : list nat) : res (list nat * option nat) := Ok (map (ex_g a st) rows, Some (length rows)).
Example C334_ex : (forall a st rs, exists s, ex_policy a st rs = Ok (map (ex_g a st) rs, s))
  /\ forward ex_policy [1; 2; 3] [2; 1; 2; 2; 1] [10; 11; 12; 13; 14] (Some (fun a => if a =? 1 then Some 3 else None)) = Ok ([210; 3111; 212; 213; 3114], [(1, Some 2); (2, Some 3); (3, None)])
  /\ forward ex_policy [3; 2; 1] [1; 2; 2; 1; 2] [14; 13; 12; 11; 10] (Some (fun a => if a =? 1 then Some 3 else None)) = Ok ([3114; 213; 212; 3111; 210], [(3, None); (2, Some 3); (1, Some 2)])
  /\ forward ex_policy [1; 2; 3] [2; 1] [10; 11] (Some (fun a => if a =? 1 then Some 3 else None)) = Ok ([210; 3111], [(1, Some 1); (2, Some 1); (3, None)]).
Proof. split; [intros a st rs; eexists; reflexivity|]. repeat split; reflexivity. Qed.
