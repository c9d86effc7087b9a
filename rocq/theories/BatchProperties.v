(** * Batch indexing and item assignment: statements *)
From Verif Require Import BatchModel BatchSpec BatchProofs.
Open Scope nat_scope.
Open Scope list_scope.

(** Indexing a batch gives, at every path, the selected rows of the array there; None and empty
    batches stay. *)
Theorem C19_getitem : forall (b : bval) (n : nat) (ix : index) (ps : list nat) (l0 : list (string * bval)),
  b = Node l0 -> l0 <> [] -> distinct b -> aligned n b -> selected n ix = Some ps ->
  exists r, bgetitem b ix = Ok r /\
    forall p, match at_path p b with
              | Some (Leaf k (Ar rs l)) => at_path p r = Some (Leaf k (picked ix rs l ps))
              | Some (Leaf k (Sc _)) => True
              | Some (Node l) => exists l', at_path p r = Some (Node l') /\ map fst l' = map fst l
              | Some NoneV => at_path p r = Some NoneV
              | None => at_path p r = None
              end.
Proof. exact C19_getitem_lemma. Qed.
Print Assumptions C19_getitem.

(** An index out of range for the common length raises IndexError as soon as there is an array. *)
Theorem C19_getitem_range : forall (b : bval) (n : nat) (ix : index) (p : list string) (k : akind) (a : nd),
  distinct b -> aligned n b -> selected n ix = None -> at_path p b = Some (Leaf k a) ->
  bgetitem b ix = Err IndexError.
Proof. exact C19_getitem_range_lemma. Qed.
Print Assumptions C19_getitem_range.

(** Item assignment: at every path exactly the selected rows are replaced, by the rows of the
    value or by padding where the value has nothing; all other rows and the keys are unchanged. *)
Theorem C20_setitem : forall (b v : bval) (n : nat) (ix : index) (ps : list nat),
  distinct b -> selected n ix = Some ps -> assignable b v ix n (length ps) ->
  exists b', bset b ix v = (b', None) /\
    forall p, match at_path p b with
              | Some (Leaf k (Ar rs l)) =>
                  exists l', at_path p b' = Some (Leaf k (Ar rs l')) /\ length l' = length l /\
                    forall r, r < length l ->
                      nth_error l' r = match write_at ps (new_rows ix k rs (length ps) (at_path p v)) r with
                                       | Some x => Some x
                                       | None => nth_error l r
                                       end
              | Some (Node l) => exists l', at_path p b' = Some (Node l') /\ map fst l' = map fst l
              | Some _ => True
              | None => at_path p b' = None
              end.
Proof. exact C20_setitem_lemma. Qed.
Print Assumptions C20_setitem.

(** A value with a key the batch does not have, or a value that is not a batch, raises ValueError
    and changes nothing. *)
Theorem C20_setitem_reject : forall (l : list (string * bval)) (v : bval) (ix : index),
  (forall lv, v = Node lv -> exists k, In k (map fst lv) /\ ~ In k (map fst l)) ->
  bset (Node l) ix v = (Node l, Some ValueError).
Proof. exact C20_setitem_reject_lemma. Qed.
Print Assumptions C20_setitem_reject.

(** An empty batch cannot be indexed. *)
Theorem C19_getitem_empty : forall (ix : index), bgetitem (Node []) ix = Err IndexError.
Proof. exact C19_getitem_empty_lemma. Qed.
Print Assumptions C19_getitem_empty.

(** None assigned to a float array writes NaN to the selected rows and to nothing else. *)
Theorem C20_none : forall (s : string) (rs : list nat) (l : list nd) (ix : index) (ps : list nat),
  selected (length l) ix = Some ps ->
  exists l', bset (Node [(s, Leaf KFloat (Ar rs l))]) ix (Node [(s, NoneV)]) = (Node [(s, Leaf KFloat (Ar rs l'))], None) /\ length l' = length l /\
    forall r, r < length l -> nth_error l' r = if in_dec Nat.eq_dec r ps then Some (constant CNan rs) else nth_error l r.
Proof. exact C20_none_lemma. Qed.
Print Assumptions C20_none.

From Coq Require Import String.
Import List BatchModel.
Local Open Scope string_scope.
Local Open Scope list_scope.
Local Open Scope nat_scope.
(** Case analysis on a path into a concrete batch. *)
Ltac walk p H :=
  destruct p as [|? p]; cbn in H;
  repeat match type of H with context [if ?c then _ else _] => destruct c; cbn in H end;
  try discriminate; try (progress walk p H).
Definition n_ (z : Z) : nd := Sc (CN (Q2Qc (inject_Z z))).
Definition ex_b : bval :=
  Node [("obs", Leaf KFloat (Ar [2] [Ar [] [n_ 1; n_ 2]; Ar [] [n_ 3; n_ 4]; Ar [] [n_ 5; n_ 6]]));
        ("info", Node [("id", Leaf KInt (Ar [] [n_ 7; n_ 8; n_ 9])); ("none", NoneV); ("e", Node [])])].
Example C19_getitem_ex : distinct ex_b /\ aligned 3 ex_b /\ selected 3 (IArr [(-1)%Z; 0%Z]) = Some [2; 0] /\
  selected 3 (IInt 3) = None /\ bgetitem ex_b (IInt 3) = Err IndexError /\
  (let* r := bgetitem ex_b (IArr [(-1)%Z; 0%Z]) in Ok (at_path ["info"; "id"] r)) = Ok (Some (Leaf KInt (Ar [] [n_ 9; n_ 7]))).
Proof.
  repeat split; try (vm_compute; reflexivity).
  - intros p l H. walk p H; injection H as <-; repeat constructor; cbn; intuition discriminate.
  - intros p k a H. walk p H; injection H as <- <-; eexists _, _; split; reflexivity.
Qed.
Definition ex_b2 : bval :=
  Node [("obs", Leaf KFloat (Ar [2] [Ar [] [n_ 1; n_ 2]; Ar [] [n_ 3; n_ 4]; Ar [] [n_ 5; n_ 6]]));
        ("info", Node [("id", Leaf KInt (Ar [] [n_ 7; n_ 8; n_ 9])); ("e", Node [])])].
Definition ex_v : bval := Node [("info", Node [("id", Leaf KInt (Ar [] [n_ 10; n_ 11]))])].
Example C20_setitem_ex : distinct ex_b2 /\ selected 3 (IArr [1%Z; (-2)%Z]) = Some [1; 1] /\ assignable ex_b2 ex_v (IArr [1%Z; (-2)%Z]) 3 2 /\
  at_path ["info"; "id"] (fst (bset ex_b2 (IArr [1%Z; (-2)%Z]) ex_v)) = Some (Leaf KInt (Ar [] [n_ 7; n_ 11; n_ 9])) /\
  at_path ["obs"] (fst (bset ex_b2 (IArr [1%Z; (-2)%Z]) ex_v)) = Some (Leaf KFloat (Ar [2] [Ar [] [n_ 1; n_ 2]; Ar [] [n_ 0; n_ 0]; Ar [] [n_ 5; n_ 6]])).
Proof.
  split; [intros p l H; walk p H; injection H as <-; repeat constructor; cbn; intuition discriminate|].
  split; [vm_compute; reflexivity|]. split; [|split; vm_compute; reflexivity].
  intro p. destruct (at_path p ex_b2) as [b|] eqn:H; [|exact Logic.I].
  destruct p as [|s p]; [cbn in H; injection H as <-; cbn; intros k [<-|[]]; right; left; reflexivity|].
  cbn in H |- *. destruct (String.eqb s "obs") eqn:E1; cbn in H.
  - apply String.eqb_eq in E1. subst s. cbn. walk p H. injection H as <-. eexists _, _. repeat split.
  - destruct (String.eqb s "info") eqn:E2; cbn in H |- *; [|discriminate].
    destruct p as [|s' p]; [cbn in H; injection H as <-; cbn; intros k [<-|[]]; left; reflexivity|].
    cbn in H |- *. destruct (String.eqb s' "id") eqn:E3; cbn in H |- *.
    + walk p H. injection H as <-. eexists _, _. repeat split; repeat constructor.
    + destruct (String.eqb s' "e") eqn:E4; cbn in H |- *; [|discriminate]. walk p H. injection H as <-. exact Logic.I.
Qed.
Example C20_reject_ex : bset ex_b2 (IInt 0) (Node [("new", Leaf KInt (n_ 1))]) = (ex_b2, Some ValueError).
Proof. vm_compute. reflexivity. Qed.
Example C20_none_ex : selected 3 (IArr [(-1)%Z; 0%Z]) = Some [2; 0] /\
  bset (Node [("a", Leaf KFloat (Ar [] [n_ 1; n_ 2; n_ 3]))]) (IArr [(-1)%Z; 0%Z]) (Node [("a", NoneV)])
  = (Node [("a", Leaf KFloat (Ar [] [Sc CNan; n_ 2; Sc CNan]))], None).
Proof. split; vm_compute; reflexivity. Qed.
