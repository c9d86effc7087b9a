(** * Properties C113-C120: arithmetic and the smaller methods of a batch *)
From Verif Require Import Py Num BatchModel BatchSpec BatchOpsModel BatchOpsSpec BatchOpsProofs.
From Coq Require Import String.
Import List BatchModel.
Open Scope string_scope.
Open Scope list_scope.
Open Scope nat_scope.

(** C113.  With the keys in the same order: element by element at every path. *)
Theorem C113_add_partial : forall (b v : bval), alike b v ->
  exists r, iadd b v = (r, None) /\ badd b v = Ok r /\
    leafwise b r (fun p q c => match number_at p q v with Some d => Some (csum c d) | None => None end).
Proof. exact C113_add_partial_lemma. Qed.
Print Assumptions C113_add_partial.

(** C113.  Adding or multiplying by a number: every entry of every array. *)
Theorem C113_scale : forall (k' : akind) (q : Qc) (b : bval), number_for k' q b ->
  (exists r, iscale OAdd k' q b = (r, None) /\ leafwise b r (fun _ _ c => Some (csum c (CN q)))) /\
  (exists r, iscale OMul k' q b = (r, None) /\ leafwise b r (fun _ _ c => Some (cprod c (CN q)))).
Proof. exact C113_scale_lemma. Qed.
Print Assumptions C113_scale.

(** C114.  Addition is commutative. *)
Theorem C114_comm : forall (a b : bval), twins a b -> badd a b = badd b a.
Proof. exact C114_comm_lemma. Qed.
Print Assumptions C114_comm.

(** C114.  ... and associative. *)
Theorem C114_assoc : forall (a b c : bval), twins a b -> twins b c ->
  (let* r := badd a b in badd r c) = (let* r := badd b c in badd a r).
Proof. exact C114_assoc_lemma. Qed.
Print Assumptions C114_assoc.

(** C114.  [b + b] is [b * 2]. *)
Theorem C114_double : forall (b : bval), numeric b -> badd b b = bscale OMul KInt (Q2Qc 2) b.
Proof. exact C114_double_lemma. Qed.
Print Assumptions C114_double.

(** C114.  Multiplication by a number distributes over addition. *)
Theorem C114_distr : forall (a b : bval) (k' : akind) (q : Qc), twins a b -> number_for k' q a ->
  (let* r := badd a b in bscale OMul k' q r) = (let* x := bscale OMul k' q a in let* y := bscale OMul k' q b in badd x y).
Proof. exact C114_distr_lemma. Qed.
Print Assumptions C114_distr.

(** Dividing a batch of floats: every entry; multiplying and dividing by the same number gives the
    batch back. *)
Theorem C116_floats_partial : forall (b : bval) (k' : akind) (q : Qc), floats b -> cell_of k' (CN q) -> k' <> KObj -> q <> 0%Qc ->
  (exists r, iscale ODiv k' q b = (r, None) /\ leafwise b r (fun _ _ c => Some (cquot c (CN q)))) /\
  (let* r := bscale OMul k' q b in bscale ODiv k' q r) = Ok b.
Proof. exact C116_floats_partial_lemma. Qed.
Print Assumptions C116_floats_partial.

(** C116.  Integers cannot be divided, not even into a new batch. *)
Theorem C116_ints_refuted : exists b, numeric b /\ bscale ODiv KInt (Q2Qc 2) b = Err TypeError.
Proof. exact C116_ints_refuted_lemma. Qed.
Print Assumptions C116_ints_refuted.

(** C113.  Values are paired by position: with the keys in another order unrelated values are added; a
    batch added to an empty one is ignored. *)
Theorem C113_order_refuted :   (exists b v r, numeric b /\ numeric v /\ badd b v = Ok r /\ b = Node [("x", int1 1); ("y", int1 2)] /\ v = Node [("y", int1 10); ("x", int1 20)] /\
     r = Node [("x", int1 11); ("y", int1 22)]) /\
  (exists r, badd (Node [("x", Node [])]) (Node [("x", Node [("z", int1 1)])]) = Ok r /\ r = Node [("x", Node [])]).
Proof. exact C113_order_refuted_lemma. Qed.
Print Assumptions C113_order_refuted.

(** C115.  Whether or not they raise, in-place operations keep the keys, kinds and shapes. *)
Theorem C115_layout_partial :   (forall (b v r : bval) (e : option exn), iadd b v = (r, e) -> same_layout b r) /\
  (forall (o : arith) (k' : akind) (q : Qc) (b r : bval) (e : option exn), iscale o k' q b = (r, e) -> same_layout b r).
Proof. exact C115_layout_partial_lemma. Qed.
Print Assumptions C115_layout_partial.

(** C115.  An in-place operation that raises has changed the values before: a missing key is noticed
    after all others were added; a None after the values before it. *)
Theorem C115_raises_refuted :   (exists b v r e, iadd b v = (r, Some e) /\ at_path ["x"] b = Some (int1 1) /\ at_path ["x"] r = Some (int1 11)) /\
  (exists b r e, iscale OMul KInt (Q2Qc 2) b = (r, Some e) /\ at_path ["x"] b = Some (int1 1) /\ at_path ["x"] r = Some (int1 2)).
Proof. exact C115_raises_refuted_lemma. Qed.
Print Assumptions C115_raises_refuted.

(** C117.  On a batch without None, emptying rows is assigning an empty batch to them. *)
Theorem C117_setitem : forall (l : list (string * bval)) (ix : index), distinct (Node l) -> no_none (Node l) -> empty_ (Some ix) (Node l) = bset (Node l) ix (Node []).
Proof. exact C117_setitem_lemma. Qed.
Print Assumptions C117_setitem.

(** C117.  empty_ turns the selected rows (without index: everything) into padding and changes nothing else. *)
Theorem C117_empty :   (forall (n : nat) (ix : index) (ps : list nat) (b : bval), selected n ix = Some ps -> distinct b -> aligned n b ->
     exists b', empty_ (Some ix) b = (b', None) /\ cleared ps b b') /\
  (forall b : bval, exists b', empty_ None b = (b', None) /\ wiped b b').
Proof. exact C117_empty_lemma. Qed.
Print Assumptions C117_empty.

(** C118.  With an index, an existing array gets the rows. *)
Theorem C118_existing : forall (k kd : akind) (arr : nd) (key : string) (ix : index) (ps rs : list nat) (rows : list nd) (d : cell) (l : list (string * bval)),
  assoc key l = Some (Leaf kd (Ar rs rows)) -> selected (length rows) ix = Some ps -> typed kd (value_shape ix rs (length ps)) arr ->
  exists l' rows', set_array_at_key k arr key (Some ix) d l = (l', None) /\ map fst l' = map fst l /\
    (forall k', k' <> key -> assoc k' l' = assoc k' l) /\ assoc key l' = Some (Leaf kd (Ar rs rows')) /\ length rows' = length rows /\
    forall r, r < length rows -> nth_error rows' r = match write_at ps (new_rows ix kd rs (length ps) (Some (Leaf kd arr))) r with Some x => Some x | None => nth_error rows r end.
Proof. exact C118_existing_lemma. Qed.
Print Assumptions C118_existing.

(** C118.  With an index, a missing key is created with the default value in the other rows. *)
Theorem C118_missing : forall (k : akind) (arr : nd) (key : string) (ix : index) (ps : list nat) (n : nat) (d c : cell) (l : list (string * bval)),
  assoc key l = None -> blen (Node l) = Ok n -> conv k d = Ok c -> selected n ix = Some ps -> typed k (value_shape ix [] (length ps)) arr ->
  exists l' rows', set_array_at_key k arr key (Some ix) d l = (l', None) /\ map fst l' = map fst l ++ [key] /\
    (forall k', k' <> key -> assoc k' l' = assoc k' l) /\ assoc key l' = Some (Leaf k (Ar [] rows')) /\ length rows' = n /\
    forall r, r < n -> nth_error rows' r = match write_at ps (new_rows ix k [] (length ps) (Some (Leaf k arr))) r with Some x => Some x | None => Some (Sc c) end.
Proof. exact C118_missing_lemma. Qed.
Print Assumptions C118_missing.

(** C118.  With an index, a key that holds a nested batch (or None) raises and nothing changes. *)
Theorem C118_nested : forall (k : akind) (arr : nd) (key : string) (ix : index) (d : cell) (l : list (string * bval)),
  ((exists sub, assoc key l = Some (Node sub)) -> set_array_at_key k arr key (Some ix) d l = (l, Some ValueError)) /\
  (assoc key l = Some NoneV -> set_array_at_key k arr key (Some ix) d l = (l, Some TypeError)) /\
  (forall kd a l' e, assoc key l = Some (Leaf kd a) -> set_array_at_key k arr key (Some ix) d l = (l', Some e) -> l' = l).
Proof. exact C118_nested_lemma. Qed.
Print Assumptions C118_nested.

(** C118.  Without an index the array becomes the value of the key exactly when it has the length of the batch. *)
Theorem C118_whole : forall (k : akind) (rs : list nat) (rows : list nd) (key : string) (d : cell) (l : list (string * bval)) (n : nat),
  blen (Node l) = Ok n ->
  (length rows = n -> exists l', set_array_at_key k (Ar rs rows) key None d l = (l', None) /\ assoc key l' = Some (Leaf k (Ar rs rows)) /\
     forall k', k' <> key -> assoc k' l' = assoc k' l) /\
  (length rows <> n -> set_array_at_key k (Ar rs rows) key None d l = (l, Some ValueError)).
Proof. exact C118_whole_lemma. Qed.
Print Assumptions C118_whole.

(** C118.  A two-dimensional array cannot be stored under a missing key with an index: the call raises,
    although one-dimensional ones are stored, and leaves the key in the batch. *)
Theorem C118_dimensions_refuted :   exists (l l' : list (string * bval)) (arr : nd), typed KInt [1; 2] arr /\ blen (Node l) = Ok 2 /\ assoc "x" l = None /\
    set_array_at_key KInt arr "x" (Some (IArr [0%Z])) (CN 0%Qc) l = (l', Some ValueError) /\ assoc "x" l' <> None.
Proof. exact C118_dimensions_refuted_lemma. Qed.
Print Assumptions C118_dimensions_refuted.

(** C119.  In a batch without None, empty batches and empty arrays the length is the first entry of
    the shape and the number of rows of the shortest array. *)
Theorem C119_shape : forall b : bval, solid b -> distinct b ->
  exists (n : nat) (s : list nat), 0 < n /\ bshape b = n :: s /\ blen b = Ok n /\ shortest b n.
Proof. exact C119_shape_lemma. Qed.
Print Assumptions C119_shape.

(** C119.  A None makes the shape empty and an array without rows in a nested batch makes it start with 0;
    the length ignores both. *)
Theorem C119_shape_refuted :   (exists b, distinct b /\ blen b = Ok 2 /\ bshape b = []) /\
  (exists b, distinct b /\ no_none b /\ blen b = Ok 2 /\ bshape b = [0]).
Proof. exact C119_shape_refuted_lemma. Qed.
Print Assumptions C119_shape_refuted.

(** C120.  Every empty batch below the root becomes None and everything else stays as it was. *)
Theorem C120_replace : forall b : bval, unemptied b (replace_empty b).
Proof. exact C120_replace_lemma. Qed.
Print Assumptions C120_replace.

Definition num (z : Z) : nd := Sc (CN (Q2Qc (inject_Z z))).
Definition row (z w : Z) : nd := Ar [] [num z; num w].
Definition ints (z w : Z) : bval := Leaf KInt (row z w).
Definition mat (a b c d : Z) : bval := Leaf KFloat (Ar [2] [row a b; row c d]).
Definition ex_a : bval := Node [("a", ints 1 2); ("b", Node [("c", mat 1 2 3 4); ("d", Node [])])].
Definition ex_b : bval := Node [("a", ints 5 6); ("b", Node [("c", mat 5 6 7 8); ("d", Node [])])].
(** The same with integers in place of the floats. *)
Definition ex_i : bval := Node [("a", ints 5 6); ("b", Node [("c", Leaf KInt (Ar [2] [row 5 6; row 7 8])); ("d", Node [])])].

Lemma row_int z w : typed KInt [2] (row z w).
Proof. cbn. split; [reflexivity|]. split; [reflexivity|]. repeat constructor; apply int_iff; eauto. Qed.
Lemma row_float z w : typed KFloat [2] (row z w).
Proof. cbn. repeat constructor. Qed.
Lemma mat_float a b c d : typed KFloat [2; 2] (Ar [2] [row a b; row c d]).
Proof. cbn. repeat constructor. Qed.
Lemma mat_int a b c d : typed KInt [2; 2] (Ar [2] [row a b; row c d]).
Proof. cbn [typed]. split; [reflexivity|]. split; [reflexivity|]. constructor; [apply row_int|]. constructor; [apply row_int|constructor]. Qed.
Example C113_alike_ex : alike ex_a ex_i.
Proof.
  constructor. constructor; [split; [reflexivity|apply (al_leaf KInt KInt [2]); [discriminate|auto|apply row_int..]]|].
  constructor; [|constructor]. split; [reflexivity|]. constructor.
  constructor; [split; [reflexivity|apply (al_leaf KFloat KInt [2; 2]); [discriminate|auto|apply mat_float|apply mat_int]]|].
  constructor; [split; [reflexivity|constructor; constructor]|constructor].
Qed.
Lemma twins_ex a b c d e f g h i j k l :
  twins (Node [("a", ints a b); ("b", Node [("c", mat c d e f); ("d", Node [])])]) (Node [("a", ints g h); ("b", Node [("c", mat i j k l); ("d", Node [])])]).
Proof.
  constructor. constructor; [split; [reflexivity|apply (tw_leaf KInt [2]); [discriminate|apply row_int..]]|].
  constructor; [|constructor]. split; [reflexivity|]. constructor.
  constructor; [split; [reflexivity|apply (tw_leaf KFloat [2; 2]); [discriminate|apply mat_float..]]|].
  constructor; [split; [reflexivity|constructor; constructor]|constructor].
Qed.
Example C113_number_ex : number_for KInt (Q2Qc 3) ex_a.
Proof. left. split; [reflexivity|]. split; [reflexivity|]. apply twins_ex. Qed.
Example C113_add_ex : exists r, badd ex_a ex_i = Ok r /\ number_at ["b"; "c"] [1; 0] r = Some (CN (Q2Qc (inject_Z 10))).
Proof. eexists. split; [vm_compute; reflexivity|]. vm_compute. reflexivity. Qed.
Example C114_ex : twins ex_a ex_b /\ numeric ex_a /\ number_for KInt (Q2Qc 3) ex_a.
Proof. split; [apply twins_ex|]. split; [apply twins_ex|exact C113_number_ex]. Qed.
Example C115_ex : exists b v r, iadd b v = (r, Some ValueError) /\ at_path ["a"] r = Some (ints 6 8).
Proof. exists ex_a, (Node [("a", ints 5 6)]). eexists. split; [vm_compute; reflexivity|]. vm_compute. reflexivity. Qed.
Example C116_ex : floats (Node [("c", mat 1 2 3 4)]) /\ cell_of KInt (CN (Q2Qc 2)) /\ Q2Qc 2 <> 0%Qc.
Proof.
  split; [constructor; constructor; [|constructor]; apply (fl_leaf [2; 2]); apply mat_float|]. split; [reflexivity|].
  intro H. apply (f_equal (fun q : Qc => Qnum q)) in H. vm_compute in H. discriminate.
Qed.
Definition ex_n : bval := Node [("a", ints 1 2); ("n", NoneV); ("b", Node [("c", mat 1 2 3 4)])].
Example C117_ex : selected 2 (IInt (-1)%Z) = Some [1] /\ distinct ex_n /\ aligned 2 ex_n /\
  exists r, empty_ (Some (IInt (-1)%Z)) ex_n = (r, None) /\ at_path ["a"] r = Some (ints 1 0) /\ at_path ["b"; "c"] r = Some (mat 1 2 0 0).
Proof.
  split; [reflexivity|]. split; [now apply distinctb_ok|]. split.
  - intros [|s [|s' [|? ?]]] k a; cbn; try discriminate;
      repeat (match goal with |- context [if ?c then _ else _] => destruct c end; cbn; try discriminate); intro H; injection H as <- <-; do 2 eexists; split; reflexivity.
  - eexists. split; [vm_compute; reflexivity|]. split; [vm_compute; reflexivity|]. vm_compute. reflexivity.
Qed.
Example C117_setitem_ex : distinct ex_a /\ no_none ex_a.
Proof.
  split; [now apply distinctb_ok|]. intros [|s [|s' [|s'' [|? ?]]]]; cbn; try discriminate;
    repeat (match goal with |- context [if ?c then _ else _] => destruct c end; cbn; try discriminate).
Qed.
(** Rows 1 and, through a negative number, 0 of a batch of length 2. *)
Example C118_ex : exists r,
  set_array_at_key KInt (row 7 8) "a" (Some (IArr [1; -2]%Z)) (CN 0%Qc) [("a", ints 1 2); ("n", NoneV)] = (r, None) /\ assoc "a" r = Some (ints 8 7) /\
  selected 2 (IArr [1; -2]%Z) = Some [1; 0] /\ typed KInt (value_shape (IArr [1; -2]%Z) [] 2) (row 7 8).
Proof. eexists. split; [vm_compute; reflexivity|]. split; [vm_compute; reflexivity|]. split; [reflexivity|apply row_int]. Qed.
Example C118_missing_ex : exists r,
  set_array_at_key KFloat (Ar [] [num 7]) "x" (Some (IArr [1]%Z)) (CO None) [("a", ints 1 2)] = (r, None) /\ assoc "x" r = Some (Leaf KFloat (Ar [] [Sc CNan; num 7])) /\
  conv KFloat (CO None) = Ok CNan /\ blen (Node [("a", ints 1 2)]) = Ok 2.
Proof. eexists. split; [vm_compute; reflexivity|]. split; [vm_compute; reflexivity|]. split; reflexivity. Qed.
Definition ex_s : bval := Node [("a", ints 1 2); ("b", Node [("c", Leaf KInt (Ar [2] [row 1 2; row 3 4; row 5 6]))])].
Example C119_ex : solid ex_s /\ distinct ex_s /\ bshape ex_s = [2] /\ blen ex_s = Ok 2.
Proof.
  split; [|split; [now apply distinctb_ok|split; reflexivity]].
  intros [|s [|s' [|? ?]]]; cbn; try discriminate; repeat (match goal with |- context [if ?c then _ else _] => destruct c end; cbn; try discriminate; try exact Logic.I).
Qed.
Example C120_ex : replace_empty (Node [("a", ints 1 2); ("e", Node []); ("b", Node [("e", Node [])])]) =
  Node [("a", ints 1 2); ("e", NoneV); ("b", Node [("e", NoneV)])].
Proof. reflexivity. Qed.
Example C118_ex_nested : let l := [("a", Leaf KInt (Ar [] [Sc (CN 0%Qc)])); ("n", Node [("b", Leaf KInt (Ar [] [Sc (CN 1%Qc)]))])] in
  assoc "n" l = Some (Node [("b", Leaf KInt (Ar [] [Sc (CN 1%Qc)]))])
  /\ set_array_at_key KInt (Ar [] [Sc (CN (1 + 1)%Qc)]) "n" (Some (IArr [0%Z])) (CN 0%Qc) l = (l, Some ValueError).
Proof. split; reflexivity. Qed.
