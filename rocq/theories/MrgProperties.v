(** * Property C332: moving buffers into buffers *)
From Verif Require Import Py PyLemmas BufferModel BufferSpec BufferProofs BufferMainProofs MrgSpec MrgProofs.
Open Scope nat_scope.

(** C332.  Moving [x] and then [y] into [b] is moving [y] into [x] and the result into [b], if [x]
    has room for both: the same buffer in every detail (rows, insertion index, episode in
    progress) and the same positions reported. *)
Theorem C332_assoc : forall (Ob A Inf R : Type) (r0 : R) radd (last_frame : Ob -> Ob) o n n2 n3 (b x y : buf Ob A Inf R) q qx qy,
  0 < n -> 0 < n2 -> 0 < n3 -> reach r0 radd last_frame o n b q -> reach r0 radd last_frame o n2 x qx -> reach r0 radd last_frame o n3 y qy ->
  length qx + length qy <= n2 ->
  exists xy lxy b1 l1 b2 l2, update x y = Ok (xy, lxy) /\ update b x = Ok (b1, l1) /\ update b1 y = Ok (b2, l2)
    /\ update b xy = Ok (b2, l1 ++ l2) /\ length l1 = length qx /\ length l2 = length qy.
Proof. exact C332_assoc_lemma. Qed.
Print Assumptions C332_assoc.

(** C332.  If [x] is too small for both but at least as large as [b], the same transitions are
    stored in the same order (their positions may differ). *)
Theorem C332_stored : forall (Ob A Inf R : Type) (r0 : R) radd (last_frame : Ob -> Ob) o n n2 n3 (b x y : buf Ob A Inf R) q qx qy xy lxy b1 l1 b2 l2 b' l',
  0 < n -> 0 < n3 -> n <= n2 -> reach r0 radd last_frame o n b q -> reach r0 radd last_frame o n2 x qx -> reach r0 radd last_frame o n3 y qy ->
  update x y = Ok (xy, lxy) -> update b x = Ok (b1, l1) -> update b1 y = Ok (b2, l2) -> update b xy = Ok (b', l') ->
  stored b' = stored b2.
Proof. exact C332_stored_lemma. Qed.
Print Assumptions C332_stored.

(** C332.  Moving a buffer into a new one that is large enough copies it: the new buffer stores
    the same transitions in the same order, at positions 0, 1, ... *)
Theorem C332_copy : forall (Ob A Inf R : Type) (r0 : R) radd (last_frame : Ob -> Ob) o n n2 (x : buf Ob A Inf R) qx,
  0 < n -> 0 < n2 -> reach r0 radd last_frame o n2 x qx -> qx <> [] -> length qx <= n ->
  exists b', update (buf_init r0 n) x = Ok (b', seq 0 (length qx)) /\ stored b' = stored x /\ size (b_st b') = size (b_st x).
Proof. exact C332_copy_lemma. Qed.
Print Assumptions C332_copy.

(** ** Non-vacuity: a full target of capacity 3, sources of capacities 4 and 5. *)
Definition mk (n : nat) (ts : list (trans nat nat unit Z)) : zbuf := match zrun plain (buf_init 0%Z n) (map OpAdd ts) with Ok (b, _) => b | Err _ => buf_init 0%Z n end.
Lemma mk_reach n ts : is_ok (zrun plain (buf_init 0%Z n) (map OpAdd ts)) = true -> exists q, zreach plain n (mk n ts) q.
Proof.
  unfold mk. destruct (zrun plain (buf_init 0%Z n) (map OpAdd ts)) as [[b rs]|e] eqn:E; [|discriminate]. intros _. eexists. apply (run_reach plain n ts _ _ b rs (reach_init _ _ _ _ _) E).
Qed.
Definition ex_b : zbuf := mk 3 [zt 1 false; zt 2 true; zt 3 false; zt 4 false].
Definition ex_x : zbuf := mk 4 [zt 11 false; zt 12 true].
Definition ex_y : zbuf := mk 5 [zt 21 true; zt 22 false].
Definition ex_long : zbuf := mk 4 [zt 11 false; zt 12 true; zt 13 true].
Definition acts (r : res (list (option (slot nat nat unit Z)))) : list nat := match r with Ok l => flat_map (fun o => match o with Some s => [s_act s] | None => [] end) l | Err _ => [] end.
Example C332_reach_ex : (exists q, zreach plain 3 ex_b q) /\ (exists q, zreach plain 4 ex_x q) /\ (exists q, zreach plain 5 ex_y q) /\ (exists q, zreach plain 4 ex_long q).
Proof. split; [|split; [|split]]; apply mk_reach; reflexivity. Qed.
Example C332_ex : (let* x := update ex_x ex_y in let* b := update ex_b (fst x) in Ok b) = (let* b1 := update ex_b ex_x in let* b2 := update (fst b1) ex_y in Ok (fst b2, snd b1 ++ snd b2))
  /\ match update ex_b ex_x with Ok (b1, l) => l = [1; 2] /\ acts (stored b1) = [4; 11; 12] | Err _ => False end.
Proof. split; vm_compute; [reflexivity|split; reflexivity]. Qed.
(** Too small a source for both: stored are the same transitions, at different positions. *)
Example C332_stored_ex : exists b' b2, (let* x := update ex_long ex_y in let* b := update ex_b (fst x) in Ok (fst b)) = Ok b'
  /\ (let* b1 := update ex_b ex_long in let* b2 := update (fst b1) ex_y in Ok (fst b2)) = Ok b2
  /\ acts (stored b') = [13; 21; 22] /\ stored b' = stored b2 /\ ins (b_st b') <> ins (b_st b2).
Proof. do 2 eexists. split; [vm_compute; reflexivity|]. split; [vm_compute; reflexivity|]. split; [vm_compute; reflexivity|]. split; [vm_compute; reflexivity|]. vm_compute. discriminate. Qed.
Example C332_copy_ex : match update (buf_init 0%Z 4) ex_b with Ok (b', l) => l = [0; 1; 2] /\ acts (stored b') = [2; 3; 4] | Err _ => False end.
Proof. vm_compute. split; reflexivity. Qed.
