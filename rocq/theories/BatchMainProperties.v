(** * Batch: further laws and findings, statements *)
From Verif Require Import BatchModel BatchSpec BatchMainProofs.
From Coq Require Import String.
Import List BatchModel.
Local Open Scope string_scope.
Local Open Scope list_scope.
Local Open Scope nat_scope.

Theorem C19_stack : forall (ty : list string -> akind * list nat) (bs : list bval),
  bs <> [] -> stack_typed ty bs ->
  (forall b b' p, In b bs -> In b' bs -> layout (at_path p b) (at_path p b')) ->
  (forall b, In b bs -> exists l, b = Node l /\ l <> []) ->
  exists r, bstack bs = Ok r /\ merged ty (fun p => stack_rows ty p bs) bs r.
Proof. exact C19_stack_lemma. Qed.
Print Assumptions C19_stack.

(** Row i of the stack holds the arrays of batch i. *)
Theorem C19_stack_row : forall (ty : list string -> akind * list nat) (bs : list bval) (i : nat) (b : bval),
  stack_typed ty bs ->
  (forall b b' p, In b bs -> In b' bs -> layout (at_path p b) (at_path p b')) ->
  (forall b, In b bs -> exists l, b = Node l /\ l <> []) ->
  nth_error bs i = Some b ->
  exists r s, bstack bs = Ok r /\ bgetitem r (IInt (Z.of_nat i)) = Ok s /\
    forall p k a, at_path p b = Some (Leaf k a) -> at_path p s = Some (Leaf k a).
Proof. exact C19_stack_row_lemma. Qed.
Print Assumptions C19_stack_row.

Theorem C94_self_assign_partial : forall (ty : list string -> akind * list nat) (b : bval) (n : nat) (ix : index) (ps : list nat) (l0 : list (string * bval)),
  b = Node l0 -> l0 <> [] -> distinct b -> no_none b ->
  (forall p k a, at_path p b = Some (Leaf k a) -> typed k (n :: snd (ty p)) a) ->
  selected n ix = Some ps ->
  exists v b', bgetitem b ix = Ok v /\ bset b ix v = (b', None) /\
    forall p k a, at_path p b = Some (Leaf k a) -> at_path p b' = Some (Leaf k a).
Proof. exact C94_self_assign_partial_lemma. Qed.
Print Assumptions C94_self_assign_partial.

(** cat_ on a non-empty batch is the concatenation with it in front, when no key is empty in some
    of the batches only. *)
Theorem C91_cat_inplace_partial : forall (ty : list string -> akind * list nat) (self : bval) (n : nat) (bns : list (bval * nat)),
  bns <> [] ->
  (forall bn, In bn ((self, n) :: bns) -> well_typed ty (snd bn) (fst bn)) ->
  (forall bn bn', In bn ((self, n) :: bns) -> In bn' ((self, n) :: bns) -> same_structure (fst bn) (fst bn')) ->
  (forall bn, In bn ((self, n) :: bns) -> exists l, fst bn = Node l /\ l <> []) ->
  no_partial (self :: map fst bns) ->
  bcat_ self (map fst bns) = bcat (self :: map fst bns).
Proof. exact C91_cat_inplace_partial_lemma. Qed.
Print Assumptions C91_cat_inplace_partial.

Theorem C91_stack_inplace_partial : forall (self : bval) (bs : list bval),
  bs <> [] -> (forall b, In b (self :: bs) -> exists l, b = Node l /\ l <> []) ->
  no_partial (self :: bs) ->
  bstack_ self bs = bstack (self :: bs).
Proof. exact C91_stack_inplace_partial_lemma. Qed.
Print Assumptions C91_stack_inplace_partial.

(** hasnull: some value is None, or some array contains NaN or None. *)
Theorem C95_hasnull : forall (b : bval), distinct b ->
  (has_null b = true <-> exists p, at_path p b = Some NoneV \/
     exists k a q, at_path p b = Some (Leaf k a) /\ (cell_at q a = Some CNan \/ cell_at q a = Some (CO None))).
Proof. exact C95_hasnull_lemma. Qed.
Print Assumptions C95_hasnull.

(** On batches of one-dimensional arrays of equal length dropnull keeps exactly the rows without a
    null, provided there is one. *)
Theorem C95_dropnull_partial : forall (b : bval) (n : nat) (l0 : list (string * bval)) (P : nat -> bool),
  b = Node l0 -> distinct b -> no_none b ->
  (exists p k a, at_path p b = Some (Leaf k a)) ->
  (forall p k a, at_path p b = Some (Leaf k a) -> typed k [n] a) ->
  (forall i, i < n -> (P i = true <-> forall p k rs l c, at_path p b = Some (Leaf k (Ar rs l)) -> nth_error l i = Some (Sc c) -> c <> CNan /\ c <> CO None)) ->
  filter P (seq 0 n) <> [] ->
  exists r, dropnull b = Ok r /\
    forall p k rs l, at_path p b = Some (Leaf k (Ar rs l)) ->
      at_path p r = Some (Leaf k (Ar [] (map (fun i => nth i l (Sc CNan)) (filter P (seq 0 n))))).
Proof. exact C95_dropnull_partial_lemma. Qed.
Print Assumptions C95_dropnull_partial.

(** With a key that is empty in one of the batches, cat_ raises, or leaves the arrays with
    different lengths, where Batch.cat pads. *)
Theorem C91_cat_inplace_refuted :   (exists self o r, bcat_ self [o] = Err ValueError /\ bcat [self; o] = Ok r) /\
  (exists self o r r', bcat_ self [o] = Ok r /\ bcat [self; o] = Ok r' /\
     at_path ["a"] r = at_path ["a"] r' /\ at_path ["b"] r <> at_path ["b"] r' /\
     exists rs l, at_path ["b"] r = Some (Leaf KInt (Ar rs l)) /\ length l = 1 /\ blen o = Ok 2).
Proof. exact C91_cat_inplace_refuted_lemma. Qed.
Print Assumptions C91_cat_inplace_refuted.

(** A key that is empty in one batch, integer in the first batch that has it and float in a later
    one: the later values are truncated. *)
Theorem C92_cat_values_refuted :   exists b0 b1 b2 r s, bcat [b0; b1; b2] = Ok r /\ bgetitem r (ISlice 2 3) = Ok s /\
    at_path ["a"] b2 = Some (floats [(1#2)%Q]) /\ at_path ["a"] s = Some (ints [0%Z]).
Proof. exact C92_cat_values_refuted_lemma. Qed.
Print Assumptions C92_cat_values_refuted.

(** The same kinds without the empty batch: the values are kept. *)
Theorem C92_cat_values_partial : forall (ty : list string -> akind * list nat) (bns : list (bval * nat)) (i : nat) (b : bval) (n : nat),
  (forall bn, In bn bns -> well_typed ty (snd bn) (fst bn)) ->
  (forall bn bn', In bn bns -> In bn' bns -> same_structure (fst bn) (fst bn')) ->
  (forall bn, In bn bns -> exists l, fst bn = Node l /\ l <> []) ->
  nth_error bns i = Some (b, n) ->
  exists r s, bcat (map fst bns) = Ok r /\
    bgetitem r (ISlice (offset bns i) (offset bns i + n)) = Ok s /\
    forall p k a, at_path p b = Some (Leaf k a) -> at_path p s = Some (Leaf k a).
Proof. exact C92_cat_values_partial_lemma. Qed.
Print Assumptions C92_cat_values_partial.

(** Stacking nested batches with different keys works, but not when a batch without them is added. *)
Theorem C93_stack_more_refuted :   exists b1 b2 b3 r, bstack [b1; b2] = Ok r /\ bstack [b1; b2; b3] = Err ValueError /\ 
    at_path ["a"] b3 = None /\ at_path ["c"] b3 = at_path ["c"] b1.
Proof. exact C93_stack_more_refuted_lemma. Qed.
Print Assumptions C93_stack_more_refuted.

Theorem C93_stack_more_partial : forall (ty : list string -> akind * list nat) (bs : list bval),
  bs <> [] -> stack_typed ty bs -> uniform_partial bs ->
  (forall b, In b bs -> exists l, b = Node l /\ l <> []) ->
  exists r, bstack bs = Ok r /\ merged ty (fun p => stack_rows ty p bs) bs r.
Proof. exact C93_stack_more_partial_lemma. Qed.
Print Assumptions C93_stack_more_partial.

(** An unknown key in a nested value raises ValueError after other keys have been written. *)
Theorem C20_nested_unknown_refuted :   exists b v b', bset b (IInt 0) v = (b', Some ValueError) /\ at_path ["a"] b' <> at_path ["a"] b /\
    at_path ["n"; "z"] v <> None /\ at_path ["n"; "z"] b = None.
Proof. exact C20_nested_unknown_refuted_lemma. Qed.
Print Assumptions C20_nested_unknown_refuted.

(** A batch holding None cannot be assigned its own row. *)
Theorem C94_self_assign_refuted :   exists b v b', bgetitem b (IInt 0) = Ok v /\ bset b (IInt 0) v = (b', Some TypeError).
Proof. exact C94_self_assign_refuted_lemma. Qed.
Print Assumptions C94_self_assign_refuted.

(** dropnull of a batch without any null: arrays of rows of dimension one or more are flattened. *)
Theorem C95_dropnull_refuted :   (exists b r, has_null b = false /\ blen b = Ok 2 /\ dropnull b = Ok r /\ at_path ["b"] r <> at_path ["b"] b /\
     exists l, at_path ["b"] r = Some (Leaf KInt (Ar [] l)) /\ length l = 4) /\
  (exists b, blen b = Ok 1 /\ has_null b = true /\ dropnull b = Ok (Node [])).
Proof. exact C95_dropnull_refuted_lemma. Qed.
Print Assumptions C95_dropnull_refuted.

Ltac walk p H :=
  destruct p as [|? p]; cbn in H;
  repeat match type of H with context [if ?c then _ else _] => destruct c; cbn in H end;
  try discriminate; try (progress walk p H).
Definition ex_1 : bval := Node [("a", ints [1%Z; 2%Z]); ("n", Node [("x", ints [3%Z; 4%Z]); ("r", Node [])])].
Definition ex_ty (p : list string) : akind * list nat := (KInt, []).
Example C94_self_assign_ex : distinct ex_1 /\ no_none ex_1 /\
  (forall p k a, at_path p ex_1 = Some (Leaf k a) -> typed k (2 :: snd (ex_ty p)) a) /\ selected 2 (ISlice 1 5) = Some [1] /\
  (let* v := bgetitem ex_1 (ISlice 1 5) in Ok (bset ex_1 (ISlice 1 5) v)) = Ok (ex_1, None).
Proof.
  split; [intros p l H; walk p H; injection H as <-; repeat constructor; cbn; intuition discriminate|].
  split; [intros p H; walk p H|]. split; [|split; vm_compute; reflexivity].
  intros p k a H. walk p H; injection H as <- <-; cbn; repeat split; repeat constructor.
Qed.
(** In-place operations without partial keys. *)
Example C91_ex : no_partial [ex_1; ex_1] /\ bcat_ ex_1 [ex_1] = bcat [ex_1; ex_1] /\ bstack_ ex_1 [ex_1] = bstack [ex_1; ex_1] /\ is_ok (bcat [ex_1; ex_1]) = true /\ is_ok (bstack [ex_1; ex_1]) = true.
Proof.
  split; [|repeat split; vm_compute; reflexivity].
  intros k b b' Hb Hb' H. replace b' with b; [exact H|]. destruct Hb as [<-|[<-|[]]], Hb' as [<-|[<-|[]]]; reflexivity.
Qed.
Example C19_stack_row_ex : (let* r := bstack [ex_1; ex_1] in let* s := bgetitem r (IInt 1) in Ok (at_path ["n"; "x"] s)) = Ok (Some (ints [3%Z; 4%Z])).
Proof. vm_compute. reflexivity. Qed.
Definition ex_null : bval := Node [("a", Leaf KFloat (Ar [] [cnum 1; Sc CNan; cnum 3])); ("b", ints [4%Z; 5%Z; 6%Z])].
Example C95_ex : distinct ex_null /\ no_none ex_null /\ (forall p k a, at_path p ex_null = Some (Leaf k a) -> typed k [3] a) /\
  (let* r := dropnull ex_null in Ok (at_path ["b"] r)) = Ok (Some (ints [4%Z; 6%Z])).
Proof.
  split; [intros p l H; walk p H; injection H as <-; repeat constructor; cbn; intuition discriminate|].
  split; [intros p H; walk p H|]. split; [|vm_compute; reflexivity].
  intros p k a H. walk p H; injection H as <- <-; cbn; repeat split; repeat constructor.
Qed.
Example C95_hasnull_ex : has_null (Node [("a", ints [1%Z]); ("n", Node [("x", NoneV)])]) = true /\ has_null (Node [("a", ints [1%Z]); ("n", Node [])]) = false.
Proof. split; reflexivity. Qed.
