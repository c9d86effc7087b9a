(** * Properties C311-C315: laws of indexing, concatenation and assignment of batches *)
From Coq Require Import String Sorted.
From Verif Require Import Py PyLemmas BatchModel BatchSpec BatlawSpec BatchProofs BatchCatProofs BatlawProofs.
Open Scope nat_scope.

(** C311. Indexing twice is indexing once: picking rows of picked rows gives the rows picked by the
    composed index. *)
Theorem C311_compose : forall (b : bval) (n : nat) (ix jx : index) (ps qs : list nat),
  nonempty b -> distinct b -> aligned n b -> (forall i, ix <> IInt i) ->
  selected n ix = Some ps -> selected (length ps) jx = Some qs ->
  exists c, bgetitem b ix = Ok c /\ bgetitem c jx = bgetitem b (through ps qs jx).
Proof. exact C311_compose_lemma. Qed.
Print Assumptions C311_compose.

(** C312. Selecting all rows in order gives the batch itself. *)
Theorem C312_all_rows : forall (b : bval) (n : nat),
  nonempty b -> distinct b -> aligned n b ->
  bgetitem b (ISlice 0 n) = Ok b /\ bgetitem b (IArr (map Z.of_nat (seq 0 n))) = Ok b.
Proof. exact C312_all_rows_lemma. Qed.
Print Assumptions C312_all_rows.

(** C312. Shuffling the rows and then undoing the shuffle gives the batch back. *)
Theorem C312_unshuffle : forall (b : bval) (n : nat) (perm inv : list nat),
  nonempty b -> distinct b -> aligned n b ->
  Forall (fun i => i < n) perm -> length perm = n ->
  Forall (fun i => i < n) inv -> map (fun q => nth q perm 0) inv = seq 0 n ->
  exists c, bgetitem b (IArr (map Z.of_nat perm)) = Ok c /\ bgetitem c (IArr (map Z.of_nat inv)) = Ok b.
Proof. exact C312_unshuffle_lemma. Qed.
Print Assumptions C312_unshuffle.

(** C313. Concatenation is associative: concatenating two groups and then the results gives the
    same batch as concatenating everything at once. *)
Theorem C313_associative : forall (ty : list string -> akind * list nat) (xs ys : list (bval * nat)),
  xs <> [] -> ys <> [] ->
  (forall bn, In bn (xs ++ ys) -> well_typed ty (snd bn) (fst bn)) ->
  (forall bn bn', In bn (xs ++ ys) -> In bn' (xs ++ ys) -> same_structure (fst bn) (fst bn')) ->
  (forall bn, In bn (xs ++ ys) -> nonempty (fst bn)) ->
  exists r rx ry r', bcat (map fst (xs ++ ys)) = Ok r /\ bcat (map fst xs) = Ok rx /\ bcat (map fst ys) = Ok ry /\
    bcat [rx; ry] = Ok r' /\ same_batch r r'.
Proof. exact C313_associative_lemma. Qed.
Print Assumptions C313_associative.

(** C314. Cutting a batch into consecutive slices and concatenating them gives the batch back. *)
Theorem C314_cut_and_join : forall (ty : list string -> akind * list nat) (b : bval) (n : nat) (cuts : list nat),
  nonempty b -> well_typed ty n b -> cuts <> [] -> Sorted le cuts -> last cuts 0 = n ->
  exists ss r, mapM (fun ac => bgetitem b (ISlice (fst ac) (snd ac))) (pieces 0 cuts) = Ok ss /\
    bcat ss = Ok r /\ same_batch b r.
Proof. exact C314_cut_and_join_lemma. Qed.
Print Assumptions C314_cut_and_join.

(** C315. What was assigned to distinct rows is read back from them; rows left out of the value
    read as padding. *)
Theorem C315_read_back : forall (b v b' : bval) (n : nat) (ix : index) (ps : list nat),
  nonempty b -> distinct b -> selected n ix = Some ps -> NoDup ps -> assignable b v ix n (length ps) ->
  bset b ix v = (b', None) ->
  exists g, bgetitem b' ix = Ok g /\
    forall p k rs l, at_path p b = Some (Leaf k (Ar rs l)) ->
      at_path p g = Some (Leaf k (match at_path p v with Some (Leaf _ x) => x | _ => padding k (value_shape ix rs (length ps)) end)).
Proof. exact C315_read_back_lemma. Qed.
Print Assumptions C315_read_back.

(** C315. Assigning again to the same rows forgets the first assignment. *)
Theorem C315_overwrite : forall (b v w b1 b2 b3 : bval) (n : nat) (ix : index) (ps : list nat),
  distinct b -> selected n ix = Some ps ->
  assignable b v ix n (length ps) -> assignable b w ix n (length ps) ->
  bset b ix v = (b1, None) -> bset b1 ix w = (b2, None) -> bset b ix w = (b3, None) ->
  same_batch b2 b3.
Proof. exact C315_overwrite_lemma. Qed.
Print Assumptions C315_overwrite.

(** C315. Assignments to disjoint rows can be made in either order. *)
Theorem C315_commute : forall (b v w b1 b2 b3 b4 : bval) (n : nat) (ix jx : index) (ps qs : list nat),
  distinct b -> selected n ix = Some ps -> selected n jx = Some qs -> (forall i, In i ps -> ~ In i qs) ->
  assignable b v ix n (length ps) -> assignable b w jx n (length qs) ->
  bset b ix v = (b1, None) -> bset b1 jx w = (b2, None) -> bset b jx w = (b3, None) -> bset b3 ix v = (b4, None) ->
  same_batch b2 b4.
Proof. exact C315_commute_lemma. Qed.
Print Assumptions C315_commute.

(** C315. Rows that are not assigned to read as before. *)
Theorem C315_frame : forall (b v b' : bval) (n : nat) (ix jx : index) (ps qs : list nat),
  nonempty b -> distinct b -> selected n ix = Some ps -> selected n jx = Some qs -> (forall i, In i ps -> ~ In i qs) ->
  assignable b v ix n (length ps) -> bset b ix v = (b', None) ->
  exists g g', bgetitem b jx = Ok g /\ bgetitem b' jx = Ok g' /\ same_batch g g'.
Proof. exact C315_frame_lemma. Qed.
Print Assumptions C315_frame.

(** ** Non-vacuity: a nested batch of four rows with an empty nested batch. *)
Local Open Scope string_scope.
Local Open Scope list_scope.
Local Open Scope nat_scope.
Ltac walk p H :=
  destruct p as [|? p]; cbn in H;
  repeat match type of H with context [if ?c then _ else _] => destruct c; cbn in H end;
  try discriminate; try (progress walk p H).
Definition bn_ (z : Z) : nd := Sc (CN (Q2Qc (inject_Z z))).
Definition bl_4 : bval := Node [("a", Leaf KInt (Ar [] [bn_ 1; bn_ 2; bn_ 3; bn_ 4])); ("n", Node [("x", Leaf KInt (Ar [] [bn_ 5; bn_ 6; bn_ 7; bn_ 8])); ("r", Node [])])].
Definition bl_1 : bval := Node [("n", Node [("r", Node []); ("x", Node [])]); ("a", Leaf KInt (Ar [] [bn_ 9]))].
Definition bl_ty (p : list string) : akind * list nat := (KInt, []).
Lemma bl_4_distinct : distinct bl_4.
Proof. intros p l H; walk p H; injection H as <-; repeat constructor; cbn; intuition discriminate. Qed.
Lemma bl_4_typed : well_typed bl_ty 4 bl_4.
Proof.
  split; [|split; [intros p H; walk p H|split; [exact bl_4_distinct|intro H; exfalso; exact (H ["a"] _ _ eq_refl)]]].
  intros p k a H. walk p H; injection H as <- <-; cbn; repeat split; repeat constructor.
Qed.
Lemma bl_1_typed : well_typed bl_ty 1 bl_1.
Proof.
  assert (D : distinct bl_1) by (intros p l H; walk p H; injection H as <-; repeat constructor; cbn; intuition discriminate).
  split; [|split; [intros p H; walk p H|split; [exact D|intro H; exfalso; exact (H ["a"] _ _ eq_refl)]]].
  intros p k a H. walk p H; injection H as <- <-; cbn; repeat split; repeat constructor.
Qed.
(** b[[-1, 0, 2]][1:3] is b[[0, 2]], b[1:4][-1] is b[3]. *)
Example C311_ex : nonempty bl_4 /\ distinct bl_4 /\ aligned 4 bl_4 /\
  selected 4 (IArr [-1; 0; 2]%Z) = Some [3; 0; 2] /\ selected 3 (ISlice 1 3) = Some [1; 2] /\
  through [3; 0; 2] [1; 2] (ISlice 1 3) = IArr [0; 2]%Z /\
  (let* c := bgetitem bl_4 (IArr [-1; 0; 2]%Z) in bgetitem c (ISlice 1 3)) = bgetitem bl_4 (IArr [0; 2]%Z) /\
  (let* c := bgetitem bl_4 (ISlice 1 4) in bgetitem c (IInt (-1))) = bgetitem bl_4 (IInt 3).
Proof.
  repeat match goal with |- _ /\ _ => split end; try (vm_compute; reflexivity).
  - eexists. split; [reflexivity|discriminate].
  - exact bl_4_distinct.
  - exact (well_typed_aligned _ _ _ bl_4_typed).
Qed.
Example C312_ex : map (fun q => nth q [2; 0; 3; 1] 0) [1; 3; 0; 2] = seq 0 4 /\
  (let* c := bgetitem bl_4 (IArr [2; 0; 3; 1]%Z) in bgetitem c (IArr [1; 3; 0; 2]%Z)) = Ok bl_4 /\ bgetitem bl_4 (ISlice 0 4) = Ok bl_4.
Proof. vm_compute. auto. Qed.
(** The key [x] is padded where it is missing, in whatever order the batches are put together. *)
Example C313_ex : well_typed bl_ty 4 bl_4 /\ well_typed bl_ty 1 bl_1 /\ same_structure bl_4 bl_1 /\
  (let* r := bcat [bl_1; bl_1; bl_4] in Ok (at_path ["n"; "x"] r)) = Ok (Some (Leaf KInt (Ar [] (map bn_ [0; 0; 5; 6; 7; 8]%Z)))) /\
  (let* rx := bcat [bl_1; bl_1] in let* ry := bcat [bl_4] in let* r := bcat [rx; ry] in Ok (at_path ["n"; "x"] r))
    = Ok (Some (Leaf KInt (Ar [] (map bn_ [0; 0; 5; 6; 7; 8]%Z)))).
Proof.
  split; [exact bl_4_typed|]. split; [exact bl_1_typed|]. split; [|vm_compute; auto].
  apply same_skel_spec; [exact bl_4_distinct|apply bl_1_typed|vm_compute; reflexivity].
Qed.
Example C314_ex : pieces 0 [1; 1; 3; 4] = [(0, 1); (1, 1); (1, 3); (3, 4)] /\ Sorted le [1; 1; 3; 4] /\
  (let* ss := mapM (fun ac => bgetitem bl_4 (ISlice (fst ac) (snd ac))) (pieces 0 [1; 1; 3; 4]) in bcat ss) = Ok bl_4.
Proof. split; [reflexivity|]. split; [repeat constructor|vm_compute; reflexivity]. Qed.
(** Rows 3 and 1 get new values for [a] and padding for [x]. *)
Definition bl_v : bval := Node [("a", Leaf KInt (Ar [] [bn_ 30; bn_ 10]))].
Definition bl_w : bval := Node [("a", Leaf KInt (Ar [] [bn_ 31; bn_ 11])); ("n", Node [("x", Leaf KInt (Ar [] [bn_ 32; bn_ 12]))])].
Definition bl_set (b : bval) (ix : index) (v : bval) : bval := fst (bset b ix v).
Example C315_ex : NoDup [3; 1] /\ selected 4 (IArr [-1; 1]%Z) = Some [3; 1] /\ snd (bset bl_4 (IArr [-1; 1]%Z) bl_v) = None /\
  (let* g := bgetitem (bl_set bl_4 (IArr [-1; 1]%Z) bl_v) (IArr [-1; 1]%Z) in Ok (at_path ["a"] g, at_path ["n"; "x"] g))
    = Ok (Some (Leaf KInt (Ar [] [bn_ 30; bn_ 10])), Some (Leaf KInt (Ar [] [bn_ 0; bn_ 0]))) /\
  bl_set (bl_set bl_4 (IArr [-1; 1]%Z) bl_v) (IArr [-1; 1]%Z) bl_w = bl_set bl_4 (IArr [-1; 1]%Z) bl_w /\
  bl_set (bl_set bl_4 (IArr [-1; 1]%Z) bl_v) (IArr [0; 2]%Z) bl_w = bl_set (bl_set bl_4 (IArr [0; 2]%Z) bl_w) (IArr [-1; 1]%Z) bl_v /\
  bgetitem (bl_set bl_4 (IArr [-1; 1]%Z) bl_v) (IInt 2) = bgetitem bl_4 (IInt 2).
Proof. split; [repeat constructor; cbn; intuition discriminate|]. vm_compute. auto 10. Qed.
Example C315_ex_assignable : assignable bl_4 bl_v (IArr [-1; 1]%Z) 4 2.
Proof.
  intros [|s [|s' [|s'' p]]]; cbn.
  - intros k [<-|[]]. now left.
  - destruct (String.eqb s "a"); cbn; [do 2 eexists; repeat split; repeat constructor|].
    destruct (String.eqb s "n"); cbn; exact Logic.I.
  - destruct (String.eqb s "a"); cbn; [exact Logic.I|].
    destruct (String.eqb s "n"); cbn; [|exact Logic.I]. destruct (String.eqb s' "x"); cbn; [do 2 eexists; repeat split|].
    destruct (String.eqb s' "r"); cbn; exact Logic.I.
  - destruct (String.eqb s "a"); cbn; [exact Logic.I|].
    destruct (String.eqb s "n"); cbn; [|exact Logic.I]. destruct (String.eqb s' "x"); cbn; [exact Logic.I|].
    destruct (String.eqb s' "r"); cbn; exact Logic.I.
Qed.
