(** * Properties C272-C278: building a Batch from Python values *)
From Verif Require Import ParseModel ParseSpec BatchSpec ParseProofs.
From Coq Require Import String.
Import List BatchModel ParseModel.
Local Open Scope string_scope.
Local Open Scope list_scope.
Local Open Scope nat_scope.

(** C272. A nested list of numbers with the same number of elements everywhere becomes the array of
    those numbers, of ints if they all are (and there is one), of floats otherwise. *)
Theorem C272_numbers : forall (id_of : py -> nat) (strnum : akind -> cell -> nat) (sh : list nat) (x : py),
  sh <> [] -> rect sh x -> sane x -> (forall p y, elem_at p x = Some y -> is_num y) ->
  exists k a, parse id_of strnum x = Ok (Leaf k a) /\ has_shape sh a /\
    (forall p, cell_at p a = match elem_at p x with Some (PNum _ q) => Some (CN q) | _ => None end) /\
    (k = KInt \/ k = KFloat) /\
    (k = KInt <-> (exists p y, elem_at p x = Some y) /\ forall p y, elem_at p x = Some y -> is_int y).
Proof. exact C272_numbers_lemma. Qed.
Print Assumptions C272_numbers.

(** C273. In a list (of any regular nesting) that has None or some other object in it, or only
    strings, everything is kept as it is. *)
Theorem C273_objects : forall (id_of : py -> nat) (strnum : akind -> cell -> nat) (sh : list nat) (x : py) (p0 : list nat) (y0 : py),
  sh <> [] -> rect sh x -> elem_at p0 x = Some y0 ->
  ((exists p y, elem_at p x = Some y /\ ~ exists l, y = PDict l) /\ ~ is_num y0 /\ ~ is_str y0 \/ (forall p y, elem_at p x = Some y -> is_str y)) ->
  exists a, parse id_of strnum x = Ok (Leaf KObj a) /\ has_shape sh a /\
    forall p, cell_at p a = option_map (as_is id_of) (elem_at p x).
Proof. exact C273_objects_lemma. Qed.
Print Assumptions C273_objects.

(** C273. Not so when there are just numbers and strings: every number is replaced by a string. *)
Theorem C273_mixed_refuted : forall (id_of : py -> nat) (strnum : akind -> cell -> nat) (sh : list nat) (x : py) (p0 p1 : list nat) (s : nat) (k : akind) (q : Qc),
  sh <> [] -> rect sh x ->
  (forall p y, elem_at p x = Some y -> is_num y \/ is_str y) ->
  elem_at p0 x = Some (PStr s) -> elem_at p1 x = Some (PNum k q) ->
  exists a, parse id_of strnum x = Ok (Leaf KObj a) /\ has_shape sh a /\
    cell_at p1 a = Some (CO (Some (strnum k (CN q)))).
Proof. exact C273_mixed_refuted_lemma. Qed.
Print Assumptions C273_mixed_refuted.

(** C274. A list of lists or arrays of different lengths becomes the object array of those lists and arrays. *)
Theorem C274_ragged : forall (id_of : py -> nat) (strnum : akind -> cell -> nat) (l : list py) (x y : py) (n m : nat),
  (forall z, In z l -> ordinary z /\ exists n, sized n z) ->
  In x l -> In y l -> sized n x -> sized m y -> n <> m ->
  parse id_of strnum (PSeq l) = Ok (Leaf KObj (Ar [] (map (fun z => Sc (CO (Some (id_of z)))) l))).
Proof. exact C274_ragged_lemma. Qed.
Print Assumptions C274_ragged.

(** C274. Not so for arrays with the same number of rows (other than one) and different dimensions
    after that: TypeError. *)
Theorem C274_arrays_refuted : forall (id_of : py -> nat) (strnum : akind -> cell -> nat) (l : list py) (n : nat) (x y : py) (sx sy : list nat),
  n <> 1 -> (forall z, In z l -> exists sh, num_array (n :: sh) z) ->
  In x l -> In y l -> num_array (n :: sx) x -> num_array (n :: sy) y -> sx <> sy ->
  parse id_of strnum (PSeq l) = Err TypeError.
Proof. exact C274_arrays_refuted_lemma. Qed.
Print Assumptions C274_arrays_refuted.

(** C275. A list, tuple or object array of non-empty dicts of the same layout becomes a Batch that
    gives dict i back as row i. *)
Theorem C275_rows : forall (id_of : py -> nat) (strnum : akind -> cell -> nat) (ty : list string -> akind * list nat) (x : py) (ds : list py) (bs : list bval) (i : nat) (b : bval),
  x = PSeq ds \/ x = POArr ds -> (forall d, In d ds -> dict_or_batch d) ->
  Forall2 (fun d b => parse id_of strnum d = Ok b) ds bs ->
  stack_typed ty bs ->
  (forall b b' p, In b bs -> In b' bs -> layout (at_path p b) (at_path p b')) ->
  (forall b, In b bs -> exists l, b = Node l /\ l <> []) ->
  nth_error bs i = Some b ->
  exists r s, parse id_of strnum x = Ok r /\ bgetitem r (IInt (Z.of_nat i)) = Ok s /\
    forall p k a, at_path p b = Some (Leaf k a) -> at_path p s = Some (Leaf k a).
Proof. exact C275_rows_lemma. Qed.
Print Assumptions C275_rows.

(** C275. Not so with an empty dict among them: it gives no row, and the rows of all later dicts move up. *)
Theorem C275_empty_refuted : forall (id_of : py -> nat) (strnum : akind -> cell -> nat) (ds1 ds2 : list py),
  (forall d, In d (ds1 ++ ds2) -> dict_or_batch d) -> ds1 ++ ds2 <> [] ->
  parse id_of strnum (PSeq (ds1 ++ PDict [] :: ds2)) = parse id_of strnum (PSeq (ds1 ++ ds2)) /\
  parse id_of strnum (POArr (ds1 ++ PDict [] :: ds2)) = parse id_of strnum (POArr (ds1 ++ ds2)).
Proof. exact C275_empty_refuted_lemma. Qed.
Print Assumptions C275_empty_refuted.

(** C276. Batch(dict, key=value, ...): every value is stored, parsed, under its key; a keyword wins
    over the same key of the dict; nothing else is stored. *)
Theorem C276_fields : forall (id_of : py -> nat) (strnum : akind -> cell -> nat) (l : list (pkey * py)) (kwargs : list (string * py)) (vs kw : list (string * bval)),
  Forall2 (fun kv v => fst kv = SKey (fst v) /\ parse id_of strnum (snd kv) = Ok (snd v)) l vs ->
  Forall2 (fun kv v => fst kv = fst v /\ parse id_of strnum (snd kv) = Ok (snd v)) kwargs kw ->
  NoDup (map fst kw) ->
  exists r, init id_of strnum (Some (PDict l)) kwargs = Ok r /\
    forall s, field r s = match field kw s with Some v => Some v | None => field vs s end.
Proof. exact C276_fields_lemma. Qed.
Print Assumptions C276_fields.

(** C276. A dict with a key that is not a string is refused whatever the values. *)
Theorem C276_keys : forall (id_of : py -> nat) (strnum : akind -> cell -> nat) (l : list (pkey * py)) (kwargs : list (string * py)) (n : nat) (v : py),
  In (OKey n, v) l -> init id_of strnum (Some (PDict l)) kwargs = Err AssertionError.
Proof. exact C276_keys_lemma. Qed.
Print Assumptions C276_keys.

(** C276. Not every argument is stored or refused: a list with an element that is no dict, an
    array of numbers, a number, a string or any other object is dropped without notice. *)
Theorem C276_dropped_refuted : forall (id_of : py -> nat) (strnum : akind -> cell -> nat) (x : py) (kwargs : list (string * py)),
  (match x with
   | PSeq l => l = [] \/ exists d, In d l /\ ~ (exists m, d = PDict m) /\ ~ (exists b, d = PBatch b)
   | PArr k _ => k <> KObj
   | PDict _ | PBatch _ | POArr _ => False
   | _ => True
   end) ->
  init id_of strnum (Some x) kwargs = init id_of strnum None kwargs.
Proof. exact C276_dropped_refuted_lemma. Qed.
Print Assumptions C276_dropped_refuted.

(** C277. Assigning to a key the value it has changes nothing, and Batch(batch) has the values of
    the batch, as long as no value is an object array without rows. *)
Theorem C277_again_partial : forall (id_of : py -> nat) (strnum : akind -> cell -> nat) (l : list (string * bval)),
  (forall k v rs, In (k, v) l -> v <> Leaf KObj (Ar rs [])) ->
  init id_of strnum (Some (PBatch (Node l))) [] = Ok l /\
  forall k v, field l k = Some v -> set_key id_of strnum l k (lift v) = Ok l.
Proof. exact C277_again_partial_lemma. Qed.
Print Assumptions C277_again_partial.

(** C277. Not so for an object array without rows: it becomes an empty Batch. *)
Theorem C277_rows_refuted : forall (id_of : py -> nat) (strnum : akind -> cell -> nat) (l : list (string * bval)) (k : string) (rs : list nat),
  field l k = Some (Leaf KObj (Ar rs [])) ->
  set_key id_of strnum l k (lift (Leaf KObj (Ar rs []))) = Ok (put k (Node []) l) /\
  exists r, init id_of strnum (Some (PBatch (Node l))) [] = Ok r /\ field r k = Some (Node []).
Proof. exact C277_rows_refuted_lemma. Qed.
Print Assumptions C277_rows_refuted.

(** C278. The dicts made of a dict of arrays with the same number of rows are as many as there are
    rows, and a Batch made of them has the arrays that were given. *)
Theorem C278_transposed : forall (id_of : py -> nat) (strnum : akind -> cell -> nat) (ty : list string -> akind * list nat) (d : py) (l : list (string * bval)) (n : nat),
  init id_of strnum (Some d) [] = Ok l -> 0 < n -> well_typed ty n (Node l) ->
  (forall p k a, at_path p (Node l) = Some (Leaf k a) -> k = KObj -> hd_error (snd (ty p)) <> Some 0) ->
  exists ds r, dict_of_arr_to_arr_of_dicts id_of strnum d = Ok (POArr ds) /\ length ds = n /\
    (forall x, In x ds -> dict_or_batch x) /\
    parse id_of strnum (POArr ds) = Ok r /\
    forall p k a, at_path p (Node l) = Some (Leaf k a) -> at_path p r = Some (Leaf k a).
Proof. exact C278_transposed_lemma. Qed.
Print Assumptions C278_transposed.

(** C278. None of a dict of arrays becomes an object array of None. *)
Theorem C278_none_refuted : forall (id_of : py -> nat) (strnum : akind -> cell -> nat),
  exists d l ds r, init id_of strnum (Some d) [] = Ok l /\ field l "b"%string = Some NoneV /\
    dict_of_arr_to_arr_of_dicts id_of strnum d = Ok (POArr ds) /\ parse id_of strnum (POArr ds) = Ok r /\
    at_path ["b"%string] r = Some (Leaf KObj (Ar [] [Sc (CO None); Sc (CO None)])).
Proof. exact C278_none_refuted_lemma. Qed.
Print Assumptions C278_none_refuted.

(** ** Non-vacuity.  Strings are 100, 101, ..., the string of a number is 200, other objects 300. *)
Definition pid (x : py) : nat := match x with PStr s => 100 + s | _ => 300 end.
Definition pstr (k : akind) (c : cell) : nat := 200.
Definition pi (z : Z) : py := PNum KInt (Q2Qc (inject_Z z)).
Definition pf : py := PNum KFloat (Q2Qc (1 # 2)).
Ltac inlist H := repeat (destruct H as [<-|H]; [|]); [..|destruct H].
Ltac rects := repeat match goal with
  | |- rect (_ :: _) _ => eexists; split; [reflexivity|split; [reflexivity|split; [discriminate|]]]; intros ? ?; cbn [In] in *
  | H : _ \/ _ |- _ => destruct H as [<-|H]
  | H : False |- _ => destruct H
  end; try exact Logic.I.
Definition nest2 : py := PSeq [PSeq [pi 1; pf; pi 3]; PSeq [pi 4; pi 5; pi 6]].
Lemma nest2_elems : forall p y, elem_at p nest2 = Some y -> is_num y /\ forall k q, y = PNum k q -> k = KInt \/ k = KFloat.
Proof.
  intros p y H. destruct p as [|[|[|i]] [|[|[|[|j]]] [|m p]]]; cbn in H;
    try (destruct i; cbn in H); try (destruct j; cbn in H); try discriminate; injection H as <-; (split; [exact Logic.I|intros k q E; injection E as <- _; auto]).
Qed.
Example C272_ex : rect [2; 3] nest2 /\ sane nest2 /\ (forall p y, elem_at p nest2 = Some y -> is_num y)
  /\ exists a, parse pid pstr nest2 = Ok (Leaf KFloat a) /\ shape a = [2; 3]
    /\ option_map (fun c => match c with CN q => this q | _ => 0%Q end) (cell_at [0; 1] a) = Some (1 # 2)%Q
    /\ option_map (fun c => match c with CN q => this q | _ => 0%Q end) (cell_at [1; 2] a) = Some 6%Q.
Proof.
  split; [unfold nest2; rects|]. split; [intros p k q H; eapply nest2_elems; [exact H|reflexivity]|].
  split; [intros p y H; apply (nest2_elems p y H)|].
  eexists. split; [vm_compute; reflexivity|]. vm_compute. repeat split.
Qed.
(** [1, "a", None] is kept, [1, "a"] becomes two strings. *)
Example C273_ex : rect [3] (PSeq [pi 1; PStr 1; PNone]) /\ rect [2] (PSeq [pi 1; PStr 1])
  /\ parse pid pstr (PSeq [pi 1; PStr 1; PNone]) = Ok (Leaf KObj (Ar [] [Sc (CN (Q2Qc 1)); Sc (CO (Some 101)); Sc (CO None)]))
  /\ parse pid pstr (PSeq [pi 1; PStr 1]) = Ok (Leaf KObj (Ar [] [Sc (CO (Some 200)); Sc (CO (Some 101))]))
  /\ parse pid pstr (PSeq [PStr 2; PStr 1]) = Ok (Leaf KObj (Ar [] [Sc (CO (Some 102)); Sc (CO (Some 101))])).
Proof. split; [rects|]. split; [rects|]. vm_compute. repeat split. Qed.
Definition arr2 (n m : nat) : py := PArr KInt (nfull [n; m] (CN 1%Qc)).
Example C274_ex : sized 1 (PSeq [pi 1]) /\ sized 2 (PSeq [pi 2; pi 3]) /\ sized 3 (arr2 3 2)
  /\ parse pid pstr (PSeq [PSeq [pi 1]; PSeq [pi 2; pi 3]; arr2 3 2]) = Ok (Leaf KObj (Ar [] [Sc (CO (Some 300)); Sc (CO (Some 300)); Sc (CO (Some 300))]))
  /\ num_array [2; 3] (arr2 2 3) /\ num_array [2; 4] (arr2 2 4)
  /\ parse pid pstr (PSeq [arr2 2 3; arr2 2 4]) = Err TypeError
  /\ is_ok (parse pid pstr (PSeq [arr2 2 3; arr2 2 3])) = true.
Proof.
  do 3 (split; [reflexivity|]). split; [vm_compute; reflexivity|].
  split; [eexists _, _; split; [reflexivity|]; split; [discriminate|]; split; [vm_compute; repeat (constructor; try split)|discriminate]|].
  split; [eexists _, _; split; [reflexivity|]; split; [discriminate|]; split; [vm_compute; repeat (constructor; try split)|discriminate]|].
  split; vm_compute; reflexivity.
Qed.
(** Three dicts with a nested one; the same with an empty dict in the middle. *)
Definition dct (z : Z) : py := PDict [(SKey "a", pi z); (SKey "n", PDict [(SKey "x", PSeq [pi z; pf])])].
Definition arow (r : res bval) (i : Z) : res (option bval * option bval) :=
  let* r := r in let* s := bgetitem r (IInt i) in Ok (at_path ["a"] s, at_path ["n"; "x"] s).
Ltac walk p H :=
  destruct p as [|? p]; cbn in H;
  repeat match type of H with context [if ?c then _ else _] => destruct c; cbn in H end;
  try discriminate; try (progress walk p H).
Definition dct_ty (p : list string) : akind * list nat := match p with ["a"] => (KInt, []) | _ => (KFloat, [2]) end.
Definition dct_b (z : Z) : bval := Node [("a", Leaf KInt (Sc (CN (Q2Qc (inject_Z z))))); ("n", Node [("x", Leaf KFloat (Ar [] [Sc (CN (Q2Qc (inject_Z z))); Sc (CN (Q2Qc (1 # 2)))]))])].
Example C275_ex : (forall d, In d [dct 1; dct 2; dct 3] -> dict_or_batch d)
  /\ Forall2 (fun d b => parse pid pstr d = Ok b) [dct 1; dct 2; dct 3] [dct_b 1; dct_b 2; dct_b 3]
  /\ stack_typed dct_ty [dct_b 1; dct_b 2; dct_b 3]
  /\ (forall b b' p, In b [dct_b 1; dct_b 2; dct_b 3] -> In b' [dct_b 1; dct_b 2; dct_b 3] -> layout (at_path p b) (at_path p b'))
  /\ arow (parse pid pstr (PSeq [dct 1; dct 2; dct 3])) 1 = Ok (at_path ["a"] (dct_b 2), at_path ["n"; "x"] (dct_b 2))
  /\ arow (parse pid pstr (PSeq [dct 1; PDict []; dct 3])) 1 = Ok (at_path ["a"] (dct_b 3), at_path ["n"; "x"] (dct_b 3)).
Proof.
  split; [intros d [<-|[<-|[<-|[]]]]; exact Logic.I|].
  split; [repeat constructor|].
  split.
  { assert (A : forall z, z = 1%Z \/ z = 2%Z \/ z = 3%Z -> distinct (dct_b z) /\ (forall p, at_path p (dct_b z) <> Some NoneV) /\
      (forall p k a, at_path p (dct_b z) = Some (Leaf k a) -> k = fst (dct_ty p) /\ typed k (snd (dct_ty p)) a)).
    { intros z Hz. split; [intros p l H; walk p H; injection H as <-; repeat constructor; cbn; intuition discriminate|].
      split; [intros p H; walk p H|].
      intros p k a H. destruct p as [|s p]; [discriminate|]. cbn in H.
      destruct (String.eqb s "a") eqn:E; cbn in H.
      - apply String.eqb_eq in E. subst s. destruct p; [|discriminate]. injection H as <- <-. split; [reflexivity|].
        destruct Hz as [->|[->| ->]]; reflexivity.
      - destruct (String.eqb s "n") eqn:E'; cbn in H; [|discriminate]. apply String.eqb_eq in E'. subst s.
        destruct p as [|s p]; [discriminate|]. cbn in H. destruct (String.eqb s "x") eqn:E''; cbn in H; [|discriminate].
        destruct p; [|discriminate]. injection H as <- <-. split; [reflexivity|]. cbn. repeat split; repeat constructor. }
    assert (B : forall b, In b [dct_b 1; dct_b 2; dct_b 3] -> exists z, b = dct_b z /\ (z = 1%Z \/ z = 2%Z \/ z = 3%Z)).
    { intros b [<-|[<-|[<-|[]]]]; eexists; (split; [reflexivity|auto]). }
    intros b Hb. destruct (B b Hb) as (z & -> & Hz). destruct (A z Hz) as (A1 & A2 & A3).
    split; [exact A1|]. split; [exact A2|]. split; [exact A3|].
    intros p k a b' l Hb' H H'. destruct (B b' Hb') as (z' & -> & _). clear - H H'. revert H H'.
    destruct p as [|s p]; cbn; [discriminate|].
    destruct (String.eqb s "a"); cbn; [destruct p; discriminate|].
    destruct (String.eqb s "n"); cbn; [|discriminate].
    destruct p as [|s' p]; cbn; [discriminate|].
    destruct (String.eqb s' "x"); cbn; [destruct p; discriminate|discriminate]. }
  split.
  { intros b b' p Hb Hb'.
    assert (B : forall b, In b [dct_b 1; dct_b 2; dct_b 3] -> exists z, b = dct_b z) by (intros c [<-|[<-|[<-|[]]]]; eauto).
    destruct (B b Hb) as (z & ->). destruct (B b' Hb') as (z' & ->). clear.
    destruct p as [|s p]; cbn; [intros k; reflexivity|].
    destruct (String.eqb s "a"); cbn; [destruct p; exact Logic.I|].
    destruct (String.eqb s "n"); cbn; [|exact Logic.I].
    destruct p as [|s' p]; cbn; [intros k; reflexivity|].
    destruct (String.eqb s' "x"); cbn; [destruct p; exact Logic.I|exact Logic.I]. }
  vm_compute. repeat split.
Qed.
(** Batch({"a": 1, "b": "s"}, a=2, c=None); Batch([1, 2, 3]) is empty. *)
Definition arg1 : py := PDict [(SKey "a", pi 1); (SKey "b", PStr 1)].
Example C276_ex : (let* r := init pid pstr (Some arg1) [("a", pi 2); ("c", PNone)] in Ok (map (field r) ["a"; "b"; "c"; "d"]))
    = Ok [Some (Leaf KInt (Sc (CN (Q2Qc 2)))); Some (Leaf KObj (Sc (CO (Some 101)))); Some NoneV; None]
  /\ init pid pstr (Some (PDict [(SKey "a", pi 1); (OKey 0, pi 2)])) [] = Err AssertionError
  /\ init pid pstr (Some (PSeq [pi 1; pi 2; pi 3])) [] = Ok []
  /\ init pid pstr (Some (PSeq [dct 1; PNone])) [] = Ok [].
Proof. vm_compute. repeat split. Qed.
(** An object array next to an array of numbers; the same without rows. *)
Definition two_objs : list (string * bval) := [("o", Leaf KObj (Ar [] [Sc (CO (Some 5)); Sc (CO (Some 6))])); ("x", Leaf KInt (Ar [] [Sc (CN 1%Qc); Sc (CN 1%Qc)]))].
Example C277_ex : (forall k v rs, In (k, v) two_objs -> v <> Leaf KObj (Ar rs []))
  /\ init pid pstr (Some (PBatch (Node two_objs))) [] = Ok two_objs
  /\ (let* s := bgetitem (Node two_objs) (ISlice 0 0) in Ok (at_path ["o"] s, blen s)) = Ok (Some (Leaf KObj (Ar [] [])), Ok 0)
  /\ (let* s := bgetitem (Node two_objs) (ISlice 0 0) in let* r := init pid pstr (Some (PBatch s)) [] in Ok (field r "o")) = Ok (Some (Node [])).
Proof.
  split; [intros k v rs [E|[E|[]]]; injection E as <- <-; discriminate|]. vm_compute. repeat split.
Qed.
(** {"a": [1, 2], "n": {"x": [3, 4]}} as two dicts and back. *)
Definition ia (z z' : Z) : nd := Ar [] [Sc (CN (Q2Qc (inject_Z z))); Sc (CN (Q2Qc (inject_Z z')))].
Definition tr_d : py := PDict [(SKey "a", PArr KInt (ia 1 2)); (SKey "n", PDict [(SKey "x", PArr KInt (ia 3 4))])].
Definition tr_l : list (string * bval) := [("a", Leaf KInt (ia 1 2)); ("n", Node [("x", Leaf KInt (ia 3 4))])].
Example C278_ex : init pid pstr (Some tr_d) [] = Ok tr_l /\ well_typed (fun _ => (KInt, [])) 2 (Node tr_l)
  /\ dict_of_arr_to_arr_of_dicts pid pstr tr_d = Ok (POArr
       [PDict [(SKey "a", PArr KInt (Sc (CN (Q2Qc 1)))); (SKey "n", PDict [(SKey "x", PArr KInt (Sc (CN (Q2Qc 3))))])];
        PDict [(SKey "a", PArr KInt (Sc (CN (Q2Qc 2)))); (SKey "n", PDict [(SKey "x", PArr KInt (Sc (CN (Q2Qc 4))))])]])
  /\ (let* ds := dict_of_arr_to_arr_of_dicts pid pstr tr_d in parse pid pstr ds) = Ok (Node tr_l).
Proof.
  split; [vm_compute; reflexivity|]. split; [|split; vm_compute; reflexivity].
  split; [intros p k a H; walk p H; injection H as <- <-; (split; [reflexivity|]); cbn; repeat split; repeat constructor|].
  split; [intros p H; walk p H|].
  split; [intros p l H; walk p H; injection H as <-; repeat constructor; cbn; intuition discriminate|].
  intros H. exfalso. exact (H ["a"] KInt (ia 1 2) eq_refl).
Qed.
