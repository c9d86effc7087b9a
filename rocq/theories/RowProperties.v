(** * Properties C355: arithmetic of batches row by row *)
From Verif Require Import Py PyLemmas BatchModel BatchSpec BatchOpsModel BatchOpsSpec RowProofs.
From Coq Require Import String.
Import List BatchModel.
Open Scope string_scope.
Open Scope list_scope.
Open Scope nat_scope.

(** C355.  The rows of a sum of batches are the sums of their rows, for every kind of index, and a row can be read exactly
    if the row of the first batch can. *)
Theorem C355_add : forall (b v : bval) (ix : index), alike b v ->
  exists c, badd b v = Ok c /\ bget c ix = (let* b1 := bget b ix in let* v1 := bget v ix in badd b1 v1).
Proof. exact C355_add_lemma. Qed.
Print Assumptions C355_add.

(** C355.  Likewise for a number added to or multiplied with a batch, *)
Theorem C355_scale : forall (o : arith) (k' : akind) (q : Qc) (b : bval) (ix : index), o <> ODiv -> number_for k' q b ->
  exists c, bscale o k' q b = Ok c /\ bget c ix = (let* b1 := bget b ix in bscale o k' q b1).
Proof. exact C355_scale_lemma. Qed.
Print Assumptions C355_scale.

(** C355.  and for the division of floats by a number. *)
Theorem C355_divide : forall (k' : akind) (q : Qc) (b : bval) (ix : index), k' <> KObj -> cell_of k' (CN q) -> floats b ->
  exists c, bscale ODiv k' q b = Ok c /\ bget c ix = (let* b1 := bget b ix in bscale ODiv k' q b1).
Proof. exact C355_divide_lemma. Qed.
Print Assumptions C355_divide.

(** ** Non-vacuity *)
Definition wz (z : Z) : nd := Sc (CN (Q2Qc (inject_Z z))).
Definition wb (a b c d e f : Z) : bval :=
  Node [("x", Leaf KFloat (Ar [2] [Ar [] [wz a; wz b]; Ar [] [wz c; wz d]])); ("n", Node [("y", Leaf KInt (Ar [] [wz e; wz f]))])].
Example C355_ex_alike : alike (wb 1 2 3 4 5 6) (wb 10 20 30 40 50 60).
Proof.
  unfold wb. constructor. constructor; [split; [reflexivity|]|constructor; [split; [reflexivity|]|constructor]]; cbn [snd].
  - apply (al_leaf KFloat KFloat [2; 2]); [discriminate|left; reflexivity| |]; cbn; repeat split; repeat constructor.
  - constructor. constructor; [split; [reflexivity|]|constructor]. cbn [snd].
    apply (al_leaf KInt KInt [2]); [discriminate|left; reflexivity| |]; cbn; repeat split; repeat constructor.
Qed.
Example C355_ex_number : number_for KInt (Q2Qc 2) (wb 1 2 3 4 5 6).
Proof.
  left. repeat split. unfold numeric, wb. constructor. constructor; [split; [reflexivity|]|constructor; [split; [reflexivity|]|constructor]]; cbn [snd].
  - apply (tw_leaf KFloat [2; 2]); [discriminate| |]; cbn; repeat split; repeat constructor.
  - constructor. constructor; [split; [reflexivity|]|constructor]. cbn [snd]. apply (tw_leaf KInt [2]); [discriminate| |]; cbn; repeat split; repeat constructor.
Qed.
Definition wcells (r : res bval) : option (list Q) :=
  match r with
  | Ok (Node [(_, Leaf _ (Ar _ [Sc (CN x); Sc (CN y)])); (_, Node [(_, Leaf _ (Sc (CN z)))])]) => Some [this x; this y; this z]
  | _ => None end.
Example C355_ex : wcells (let* c := badd (wb 1 2 3 4 5 6) (wb 10 20 30 40 50 60) in bget c (IInt (- 1))) = Some [33; 44; 66]%Q
  /\ wcells (let* a := bget (wb 1 2 3 4 5 6) (IInt (- 1)) in let* b := bget (wb 10 20 30 40 50 60) (IInt (- 1)) in badd a b) = Some [33; 44; 66]%Q
  /\ wcells (let* c := bscale OMul KInt (Q2Qc 2) (wb 1 2 3 4 5 6) in bget c (IInt 0)) = Some [2; 4; 10]%Q
  /\ (let* a := bget (wb 1 2 3 4 5 6) (IInt 2) in badd a a) = Err IndexError.
Proof. vm_compute. repeat split. Qed.
Example C355_ex_floats : floats (Leaf KFloat (Ar [] [wz 1; wz 5])).
Proof. apply (fl_leaf [2]). cbn. repeat split; repeat constructor. Qed.
