(** * Batch concatenation: statements *)
From Verif Require Import BatchModel BatchSpec BatchCatProofs.
Open Scope nat_scope.
Open Scope list_scope.

(** Concatenating non-empty batches of the same structure whose arrays agree in kind and row shape
    at every path: the result has, at every path, the rows of all batches in order, a batch with an
    empty batch there contributing padding rows. *)
Theorem C19_cat : forall (ty : list string -> akind * list nat) (bns : list (bval * nat)),
  bns <> [] ->
  (forall bn, In bn bns -> well_typed ty (snd bn) (fst bn)) ->
  (forall bn bn', In bn bns -> In bn' bns -> same_structure (fst bn) (fst bn')) ->
  (forall bn, In bn bns -> exists l, fst bn = Node l /\ l <> []) ->
  exists r, bcat (map fst bns) = Ok r /\ merged ty (fun p => cat_rows ty p bns) (map fst bns) r.
Proof. exact C19_cat_lemma. Qed.
Print Assumptions C19_cat.

(** Empty batches in the list are ignored. *)
Theorem C19_cat_empty : forall (bs : list bval),
  bcat bs = bcat (filter (fun b => negb (is_reserved b)) bs).
Proof. exact C19_cat_empty_lemma. Qed.
Print Assumptions C19_cat_empty.

(** Two non-empty batches of different structure cannot be concatenated. *)
Theorem C19_cat_structure : forall (bs : list bval) (b b' : bval),
  (forall c, In c bs -> distinct c /\ exists l, c = Node l) ->
  In b bs -> In b' bs -> b <> Node [] -> b' <> Node [] -> ~ same_structure b b' ->
  bcat bs = Err ValueError.
Proof. exact C19_cat_structure_lemma. Qed.
Print Assumptions C19_cat_structure.

(** Slicing the concatenation at the place of one of the batches gives its arrays back. *)
Theorem C19_cat_slice : forall (ty : list string -> akind * list nat) (bns : list (bval * nat)) (i : nat) (b : bval) (n : nat),
  (forall bn, In bn bns -> well_typed ty (snd bn) (fst bn)) ->
  (forall bn bn', In bn bns -> In bn' bns -> same_structure (fst bn) (fst bn')) ->
  (forall bn, In bn bns -> exists l, fst bn = Node l /\ l <> []) ->
  nth_error bns i = Some (b, n) ->
  exists r s, bcat (map fst bns) = Ok r /\
    bgetitem r (ISlice (offset bns i) (offset bns i + n)) = Ok s /\
    forall p k a, at_path p b = Some (Leaf k a) -> at_path p s = Some (Leaf k a).
Proof. exact C19_cat_slice_lemma. Qed.
Print Assumptions C19_cat_slice.

From Coq Require Import String.
Import List BatchModel.
Local Open Scope string_scope.
Local Open Scope list_scope.
Local Open Scope nat_scope.
Ltac walk p H :=
  destruct p as [|? p]; cbn in H;
  repeat match type of H with context [if ?c then _ else _] => destruct c; cbn in H end;
  try discriminate; try (progress walk p H).
Definition n_ (z : Z) : nd := Sc (CN (Q2Qc (inject_Z z))).
Definition ex_1 : bval := Node [("a", Leaf KInt (Ar [] [n_ 1; n_ 2])); ("n", Node [("x", Leaf KFloat (Ar [] [n_ 3; n_ 4])); ("r", Node [])])].
Definition ex_2 : bval := Node [("n", Node [("r", Node []); ("x", Node [])]); ("a", Leaf KInt (Ar [] [n_ 5]))].
Definition ex_ty (p : list string) : akind * list nat := match p with ["a"] => (KInt, []) | _ => (KFloat, []) end.
(** Two batches of the same structure, one of them with an empty batch in the place of an array. *)
Example C19_cat_ex : well_typed ex_ty 2 ex_1 /\ well_typed ex_ty 1 ex_2 /\ same_structure ex_1 ex_2 /\
  (let* r := bcat [ex_1; ex_2] in Ok (at_path ["n"; "x"] r)) = Ok (Some (Leaf KFloat (Ar [] [n_ 3; n_ 4; n_ 0]))).
Proof.
  assert (D1 : distinct ex_1) by (intros p l H; walk p H; injection H as <-; repeat constructor; cbn; intuition discriminate).
  assert (D2 : distinct ex_2) by (intros p l H; walk p H; injection H as <-; repeat constructor; cbn; intuition discriminate).
  split; [|split; [|split; [|vm_compute; reflexivity]]].
  - split; [|split; [intros p H; walk p H|split; [exact D1|intro H; exfalso; exact (H ["a"] _ _ eq_refl)]]].
    intros p k a H. destruct p as [|s p]; [discriminate|]. cbn in H.
    destruct (String.eqb s "a") eqn:E1; cbn in H; [apply String.eqb_eq in E1; subst|destruct (String.eqb s "n") eqn:E2; cbn in H; [apply String.eqb_eq in E2; subst|discriminate]].
    + walk p H. injection H as <- <-. cbn. repeat split; repeat constructor.
    + walk p H. injection H as <- <-. cbn. repeat split; repeat constructor.
  - split; [|split; [intros p H; walk p H|split; [exact D2|intro H; exfalso; exact (H ["a"] _ _ eq_refl)]]].
    intros p k a H. destruct p as [|s p]; [discriminate|]. cbn in H.
    destruct (String.eqb s "n") eqn:E1; cbn in H; [walk p H|].
    destruct (String.eqb s "a") eqn:E2; cbn in H; [apply String.eqb_eq in E2; subst|discriminate].
    walk p H. injection H as <- <-. cbn. repeat split; repeat constructor.
  - apply same_skel_spec; [exact D1|exact D2|vm_compute; reflexivity].
Qed.
(** Different keys: ValueError. *)
Example C19_cat_structure_ex : bcat [ex_1; Node [("a", Leaf KInt (Ar [] [n_ 1]))]] = Err ValueError.
Proof. vm_compute. reflexivity. Qed.
