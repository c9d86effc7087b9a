(** * Properties C110-C112: the storage of a buffer *)
From Verif Require Import Py Num BatchModel BatchSpec StoreModel StoreSpec StoreProofs.
From Verif Require BufferModel.
From Coq Require Import String.
Import List BatchModel.
Open Scope string_scope.
Open Scope list_scope.
Open Scope nat_scope.

(** C110.  After any history of admissible writes the storage has, at every path some written
    batch had an array, the array whose rows are the latest written ones, padding where nothing
    was written or the latest batch had nothing there; and no other paths. *)
Theorem C110_store : forall (ty : list string -> akind * list nat) (size : nat) (ops : list wop),
  ops <> [] -> Forall (wop_ok ty size) ops -> ForallOrdPairs fits_after ops ->
  exists meta, store_all size ops = Ok meta /\ merged ty (contents ty size ops) (map w_batch ops) meta.
Proof. exact C110_store_lemma. Qed.
Print Assumptions C110_store.

(** C110.  Reading a slot gives back the transition written to it, at every path it has an array. *)
Theorem C110_read_back : forall (ty : list string -> akind * list nat) (size : nat) (before after : list wop) (o : wop) (r : nat),
  Forall (wop_ok ty size) (before ++ o :: after) -> ForallOrdPairs fits_after (before ++ o :: after) ->
  w_single o = true -> w_rows o = [r] -> (forall o', In o' after -> ~ In r (w_rows o')) ->
  exists meta b, store_all size (before ++ o :: after) = Ok meta /\ bgetitem meta (IInt (Z.of_nat r)) = Ok b /\
    forall p k a, at_path p (w_batch o) = Some (Leaf k a) -> at_path p b = Some (Leaf (fst (ty p)) a).
Proof. exact C110_read_back_lemma. Qed.
Print Assumptions C110_read_back.

(** C111.  The array for a key has the type of the first value: a later fraction loses its
    fractional part. *)
Theorem C111_first_type_refuted : exists meta b,
  store_all 2 [mkWop true [0] (tr_with (Leaf KInt (Sc (CN 1%Qc)))); mkWop true [1] (tr_with (Leaf KFloat (Sc (CN (Q2Qc (1 # 2))))))] = Ok meta
  /\ bgetitem meta (IInt 1) = Ok b /\ at_path ["act"] b = Some (Leaf KInt (Sc (CN 0%Qc))).
Proof. exact C111_first_type_refuted_lemma. Qed.
Print Assumptions C111_first_type_refuted.

(** C112.  Whatever is written and whether or not it raises, every array of the storage keeps its
    rows other than those addressed. *)
Theorem C112_other_rows_partial : forall (size : nat) (stack : bool) (l0 : list (string * bval)) (meta : bval) (zs : list Z) (ps : list nat) (b meta' : bval) (e : option exn),
  meta = Node l0 -> selected size (IArr zs) = Some ps -> aligned size meta -> store_st size stack meta zs b = (meta', e) ->
  forall p k rs l, at_path p meta = Some (Leaf k (Ar rs l)) ->
    exists l', at_path p meta' = Some (Leaf k (Ar rs l')) /\ length l' = length l /\ forall r, ~ In r ps -> nth_error l' r = nth_error l r.
Proof. exact C112_other_rows_partial_lemma. Qed.
Print Assumptions C112_other_rows_partial.

(** C112.  An [add] that raises has moved the bookkeeping on and may have written part of the row:
    here the action of the second transition has a new shape. *)
Theorem C112_add_refuted : exists act s m s' m' e,
  add_two act = (s, m, None, (s', m', Some e)) /\ BufferModel.size s = 1 /\ BufferModel.size s' = 2
  /\ at_path ["obs"] m = Some (Leaf KInt (Ar [] [Sc (CN (Q2Qc (5 # 1))); Sc (CN 0%Qc); Sc (CN 0%Qc)]))
  /\ at_path ["obs"] m' = Some (Leaf KInt (Ar [] [Sc (CN (Q2Qc (5 # 1))); Sc (CN (Q2Qc (5 # 1))); Sc (CN 0%Qc)]))
  /\ at_path ["rew"] m' = Some (Leaf KFloat (Ar [] [Sc (CN 1%Qc); Sc (CN 0%Qc); Sc (CN 0%Qc)])).
Proof. exact C112_add_refuted_lemma. Qed.
Print Assumptions C112_add_refuted.

(** Two single transitions with different infos, then two at once. *)
Definition ex_ty (p : list string) : akind * list nat :=
  match p with
  | ["obs"] => (KFloat, [2])
  | ["rew"] => (KFloat, [])
  | ["info"; "b"; "c"] => (KFloat, [])
  | _ => (KInt, [])
  end.
Definition n1 (k : akind) (x : Z) : bval := Leaf k (Sc (CN (Q2Qc (inject_Z x)))).
Definition sc (x : Z) : nd := Sc (CN (Q2Qc (inject_Z x))).
Definition ex1 : wop := mkWop true [0] (Node [("obs", Leaf KFloat (Ar [] [sc 3; Sc CNan])); ("act", n1 KInt 7); ("rew", n1 KInt 2);
  ("terminated", n1 KInt 0); ("truncated", n1 KInt 0); ("done", n1 KInt 0); ("info", Node [("a", n1 KInt 4); ("b", Node [])])]).
Definition ex2 : wop := mkWop true [1] (Node [("obs", Leaf KFloat (Ar [] [sc 5; sc 6])); ("act", n1 KInt 8); ("rew", n1 KFloat 3);
  ("terminated", n1 KInt 1); ("truncated", n1 KInt 0); ("done", n1 KInt 1); ("info", Node [("b", Node [("c", n1 KFloat 9)])])]).
Definition col (k : akind) (x y : Z) : bval := Leaf k (Ar [] [sc x; sc y]).
Definition ex3 : wop := mkWop false [2; 0] (Node [("obs", Leaf KFloat (Ar [2] [Ar [] [sc 1; sc 1]; Ar [] [sc 2; sc 2]])); ("act", col KInt 3 4);
  ("rew", col KFloat 1 2); ("terminated", col KInt 0 0); ("truncated", col KInt 1 0); ("done", col KInt 1 0); ("info", Node [("e", col KInt 5 6)])]).

Ltac paths E := repeat (match type of E with
  | at_path ?p _ = _ => is_var p; destruct p as [|? p]; cbn in E; try discriminate
  | context [String.eqb ?s ?t] => is_var s; destruct (String.eqb_spec s t) as [->|]; cbn in E; try discriminate
  | context [match ?p with [] => _ | _ :: _ => _ end] => is_var p; destruct p as [|? p]; cbn in E; try discriminate
  end).
Ltac dist := intros p l E; paths E; injection E as <-; cbn; repeat (constructor; [cbn; intuition congruence|]); constructor.
Ltac okay := constructor;
  [ eexists; reflexivity
  | intros p l E; paths E; injection E as <-; cbn; repeat (constructor; [cbn; intuition congruence|]); constructor
  | intros p E; paths E
  | intros p k a E; paths E; injection E as <- <-; cbn; intuition (try congruence; repeat constructor)
  | cbn; repeat constructor
  | cbn; congruence
  | split; [reflexivity|do 2 eexists; vm_compute; reflexivity]
  | intros s [<-|[<-|[<-|[]]]]; (split; [reflexivity|do 2 eexists; split; [reflexivity|cbn; auto 8]]) ].
Example C110_ex_ok1 : wop_ok ex_ty 3 ex1.
Proof. okay. Qed.
Example C110_ex_ok2 : wop_ok ex_ty 3 ex2.
Proof. okay. Qed.
Example C110_ex_ok3 : wop_ok ex_ty 3 ex3.
Proof. okay. Qed.
Ltac fits := intros p l k a; split;
  [intros [E1 E2]; paths E1; cbn in E2; try discriminate; paths E2
  |intros E1 E2; paths E1; cbn in E2; try discriminate; paths E2; try congruence].
Example C110_ex_fits : ForallOrdPairs fits_after [ex1; ex2; ex3].
Proof.
  constructor; [constructor; [fits|constructor; [fits|constructor]]|].
  constructor; [constructor; [fits|constructor]|]. constructor; constructor.
Qed.
Example C110_ex_result : exists meta, store_all 3 [ex1; ex2; ex3] = Ok meta
  /\ at_path ["info"; "a"] meta = Some (Leaf KInt (Ar [] [sc 0; sc 0; sc 0]))
  /\ at_path ["info"; "b"; "c"] meta = Some (Leaf KFloat (Ar [] [sc 0; sc 9; sc 0]))
  /\ at_path ["info"; "e"] meta = Some (Leaf KInt (Ar [] [sc 6; sc 0; sc 5]))
  /\ at_path ["obs"] meta = Some (Leaf KFloat (Ar [2] [Ar [] [sc 2; sc 2]; Ar [] [sc 5; sc 6]; Ar [] [sc 1; sc 1]])).
Proof. eexists. split; [vm_compute; reflexivity|]. split; [vm_compute; reflexivity|]. split; [vm_compute; reflexivity|]. split; vm_compute; reflexivity. Qed.
(** Slot 1 still holds the second transition. *)
Example C110_ex_read_back : w_single ex2 = true /\ w_rows ex2 = [1] /\ (forall o, In o [ex3] -> ~ In 1 (w_rows o)).
Proof. repeat split. intros o [<-|[]]. cbn. intuition discriminate. Qed.
(** A write that raises: the new action has another shape; row 0 is not touched. *)
Definition ex_bad : bval := tr_with (Leaf KInt (Ar [] [sc 1; sc 1])).
Example C112_ex : exists l0 meta' e,
  store_all 3 [mkWop true [0] (tr_with (n1 KInt 1))] = Ok (Node l0) /\ selected 3 (IArr [1%Z]) = Some [1] /\ aligned 3 (Node l0) /\
  store_st 3 true (Node l0) [1%Z] ex_bad = (meta', Some e) /\ meta' <> Node l0.
Proof.
  do 3 eexists. split; [vm_compute; reflexivity|]. split; [reflexivity|].
  split; [intros p k a E; paths E; injection E as <- <-; do 2 eexists; split; reflexivity|]. split; [vm_compute; reflexivity|]. discriminate.
Qed.
