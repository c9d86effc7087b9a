(** * Property C327: laws of stacking batches *)
From Coq Require Import String.
From Verif Require Import Py PyLemmas BatchModel BatchSpec BatlawSpec StlawProofs.
Open Scope nat_scope.

(** C327.  Stacking two groups of batches and concatenating the stacks is stacking all of them. *)
Theorem C327_stack_cat : forall (ty : list string -> akind * list nat) (xs ys : list bval),
  xs <> [] -> ys <> [] -> stack_typed ty (xs ++ ys) ->
  (forall b b' p, In b (xs ++ ys) -> In b' (xs ++ ys) -> layout (at_path p b) (at_path p b')) ->
  (forall b, In b (xs ++ ys) -> nonempty b /\ exists p k a, at_path p b = Some (Leaf k a)) ->
  exists r rx ry r', bstack (xs ++ ys) = Ok r /\ bstack xs = Ok rx /\ bstack ys = Ok ry /\ bcat [rx; ry] = Ok r' /\ same_batch r r'.
Proof. exact C327_stack_cat_lemma. Qed.
Print Assumptions C327_stack_cat.

(** C327.  Row i of a stack is batch i: the same arrays, the same keys. *)
Theorem C327_row : forall (ty : list string -> akind * list nat) (bs : list bval) (i : nat) (b : bval),
  stack_typed ty bs -> (forall b b' p, In b bs -> In b' bs -> layout (at_path p b) (at_path p b')) ->
  (forall b, In b bs -> nonempty b /\ exists p k a, at_path p b = Some (Leaf k a)) -> nth_error bs i = Some b ->
  exists r s, bstack bs = Ok r /\ bgetitem r (IInt (Z.of_nat i)) = Ok s /\ same_batch b s.
Proof. exact C327_row_lemma. Qed.
Print Assumptions C327_row.

(** C327.  Stacking the rows of a batch gives the batch. *)
Theorem C327_rows : forall (ty : list string -> akind * list nat) (b : bval) (n : nat),
  nonempty b -> well_typed ty n b -> 0 < n ->
  exists rows r, mapM (fun i => bgetitem b (IInt (Z.of_nat i))) (seq 0 n) = Ok rows /\ bstack rows = Ok r /\ same_batch b r.
Proof. exact C327_rows_lemma. Qed.
Print Assumptions C327_rows.

(** ** Non-vacuity: nested batches of numbers and pairs, with an empty nested batch. *)
Local Open Scope string_scope.
Local Open Scope list_scope.
Local Open Scope nat_scope.
Ltac walk p H :=
  destruct p as [|? p]; cbn in H;
  repeat match type of H with context [if ?c then _ else _] => destruct c; cbn in H end;
  try discriminate; try (progress walk p H).
Definition cn (z : Z) : nd := Sc (CN (Q2Qc (inject_Z z))).
Definition ex_b (x y : Z) : bval := Node [("a", Leaf KFloat (cn x)); ("n", Node [("x", Leaf KFloat (cn y)); ("r", Node [])])].
Definition ex_ty (p : list string) : akind * list nat := (KFloat, []).
Lemma ex_leaf x y p k a : at_path p (ex_b x y) = Some (Leaf k a) -> k = KFloat /\ typed k [] a.
Proof. intro H. walk p H; injection H as <- <-; cbn; split; [reflexivity|exact Logic.I|reflexivity|exact Logic.I]. Qed.
Example C327_ex : stack_typed ex_ty [ex_b 1 2; ex_b 3 4; ex_b 5 6]
  /\ (forall b, In b [ex_b 1 2; ex_b 3 4; ex_b 5 6] -> nonempty b /\ exists p k a, at_path p b = Some (Leaf k a))
  /\ (let* x := bstack [ex_b 1 2; ex_b 3 4] in let* y := bstack [ex_b 5 6] in bcat [x; y]) = bstack [ex_b 1 2; ex_b 3 4; ex_b 5 6]
  /\ (let* r := bstack [ex_b 1 2; ex_b 3 4; ex_b 5 6] in bgetitem r (IInt 1)) = Ok (ex_b 3 4).
Proof.
  assert (F : forall b, In b [ex_b 1 2; ex_b 3 4; ex_b 5 6] -> exists x y, b = ex_b x y) by (intros b [<-|[<-|[<-|[]]]]; eauto).
  split; [|split; [|split; vm_compute; reflexivity]].
  - intros b Hb. destruct (F b Hb) as (x & y & ->). repeat match goal with |- _ /\ _ => split end.
    + intros p l H; walk p H; injection H as <-; repeat constructor; cbn; intuition discriminate.
    + intros p H; walk p H.
    + intros p k a H. exact (ex_leaf x y p k a H).
    + intros p k a b' l Hb' H H'. destruct (F b' Hb') as (x' & y' & ->).
      destruct p as [|s p]; [discriminate|]. cbn in H, H'. destruct (String.eqb s "a"); [destruct p; cbn in *; congruence|].
      destruct (String.eqb s "n"); [|discriminate]. cbn in H, H'. destruct p as [|s' p]; [discriminate|]. cbn in H, H'.
      destruct (String.eqb s' "x"); [destruct p; cbn in *; congruence|]. destruct (String.eqb s' "r"); [|discriminate]. cbn in H, H'. destruct p; cbn in *; congruence.
  - intros b Hb. destruct (F b Hb) as (x & y & ->). split; [eexists; split; [reflexivity|discriminate]|]. exists ["a"]. eexists _, _. reflexivity.
Qed.
Definition ex_3 : bval := Node [("a", Leaf KInt (Ar [2] [Ar [] [cn 1; cn 2]; Ar [] [cn 3; cn 4]; Ar [] [cn 5; cn 6]])); ("r", Node [])].
Example C327_rows_ex : well_typed (fun _ => (KInt, [2])) 3 ex_3
  /\ (let* rows := mapM (fun i => bgetitem ex_3 (IInt (Z.of_nat i))) (seq 0 3) in bstack rows) = Ok ex_3.
Proof.
  split; [|vm_compute; reflexivity]. split; [|split; [|split]].
  - intros p k a H. walk p H; injection H as <- <-; cbn; repeat split; repeat constructor.
  - intros p H; walk p H.
  - intros p l H; walk p H; injection H as <-; repeat constructor; cbn; intuition discriminate.
  - intro H. exfalso. exact (H ["a"] _ _ eq_refl).
Qed.
