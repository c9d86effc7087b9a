(** * Batch stacking: statements *)
From Verif Require Import BatchModel BatchSpec BatchStackProofs.
Open Scope nat_scope.
Open Scope list_scope.

(** Stacking non-empty batches: at every path that holds an array in some batch the result has
    one row per batch, padding for the batches without it; provided that arrays at the same path
    agree in kind and shape and that keys missing from some batch look alike in the others. *)
Theorem C19_stack_partial : forall (ty : list string -> akind * list nat) (bs : list bval),
  bs <> [] -> stack_typed ty bs -> uniform_partial bs ->
  (forall b, In b bs -> exists l, b = Node l /\ l <> []) ->
  exists r, bstack bs = Ok r /\ merged ty (fun p => stack_rows ty p bs) bs r.
Proof. exact C19_stack_partial_lemma. Qed.
Print Assumptions C19_stack_partial.

From Coq Require Import String.
Import List BatchModel.
Local Open Scope string_scope.
Local Open Scope list_scope.
Local Open Scope nat_scope.
Ltac walk p H :=
  destruct p as [|? p]; cbn in H;
  repeat match type of H with context [if ?c then _ else _] => destruct c; cbn in H end;
  try discriminate; try (progress walk p H).
Definition n_ (z : Z) : nd := Sc (CN (Q2Qc (inject_Z z))).
Definition ex_1 : bval := Node [("a", Leaf KInt (n_ 1))].
Definition ex_2 : bval := Node [("n", Node [("x", Leaf KInt (Ar [] [n_ 3; n_ 4]))]); ("a", Leaf KInt (n_ 5))].
Definition ex_ty (p : list string) : akind * list nat := match p with ["a"] => (KInt, []) | _ => (KInt, [2]) end.
(** The second batch has a nested key that the first one lacks. *)
Example C19_stack_ex : stack_typed ex_ty [ex_1; ex_2] /\ uniform_partial [ex_1; ex_2] /\
  (let* r := bstack [ex_1; ex_2] in Ok (at_path ["n"; "x"] r)) = Ok (Some (Leaf KInt (Ar [2] [Ar [] [n_ 0; n_ 0]; Ar [] [n_ 3; n_ 4]]))).
Proof.
  split; [|split; [|vm_compute; reflexivity]].
  - assert (HL : forall b, In b [ex_1; ex_2] -> forall p k a, at_path p b = Some (Leaf k a) -> (p = ["a"] /\ k = KInt /\ typed KInt [] a) \/ (p = ["n"; "x"] /\ k = KInt /\ typed KInt [2] a)).
    { intros b [<-|[<-|[]]] p k a H; destruct p as [|s p]; try discriminate; cbn in H.
      - destruct (String.eqb s "a") eqn:E; cbn in H; [apply String.eqb_eq in E; subst|discriminate]. left.
        destruct p; [|discriminate]. cbn in H. injection H as <- <-. repeat split.
      - destruct (String.eqb s "n") eqn:E; cbn in H; [apply String.eqb_eq in E; subst|].
        + right. destruct p as [|s p]; [discriminate|]. cbn in H. destruct (String.eqb s "x") eqn:E; cbn in H; [apply String.eqb_eq in E; subst|discriminate].
          destruct p; [|discriminate]. injection H as <- <-. repeat split; repeat constructor.
        + destruct (String.eqb s "a") eqn:E'; cbn in H; [apply String.eqb_eq in E'; subst|discriminate]. left.
          destruct p; [|discriminate]. injection H as <- <-. repeat split. }
    intros b Hb. split; [|split; [|split]].
    + destruct Hb as [<-|[<-|[]]]; intros p l H; walk p H; injection H as <-; repeat constructor; cbn; intuition discriminate.
    + destruct Hb as [<-|[<-|[]]]; intros p H; walk p H.
    + intros p k a H. destruct (HL b Hb p k a H) as [(-> & -> & Ht)|(-> & -> & Ht)]; split; auto.
    + intros p k a b' l Hb' H H'. destruct (HL b Hb p k a H) as [(-> & _)|(-> & _)]; destruct Hb' as [<-|[<-|[]]]; discriminate.
  - intros p b0 b b' q H0 Hb Hb' He Hn Hn'.
    assert (Heq : b = b').
    { destruct H0 as [<-|[<-|[]]]; destruct Hb as [<-|[<-|[]]]; destruct Hb' as [<-|[<-|[]]]; try reflexivity; try contradiction. }
    subst b'. assert (HR : forall o : option bval, o <> Some NoneV -> layout o o).
    { intros [[| |]|]; cbn; auto. intros _ k. reflexivity. }
    apply HR. destruct Hb as [<-|[<-|[]]]; intro H; remember (p ++ q) as r; clear -H; walk r H.
Qed.
