(** * Property C374: spare capacity *)
From Verif Require Import Py BufferModel BufferSpec BufferMainProofs ManagerModel ManagerSpec SpareSpec SpareProofs.
Open Scope nat_scope.
Open Scope list_scope.

(** C374. As long as no row is overwritten the capacity of a replay buffer makes no difference: the additions report the same, and the same indices hold, show and precede the same rows. *)
Theorem C374_capacity : forall (Ob A Inf R : Type) (r0 : R) radd (last_frame : Ob -> Ob) o n n' (ops : list (aop Ob A Inf R)),
  0 < n -> 0 < n' -> 0 < stack_num o -> roomy n 0 ops -> roomy n' 0 ops ->
  exists b b' outs, buf_run r0 radd last_frame o (buf_init r0 n) ops = Ok (b, outs) /\ buf_run r0 radd last_frame o (buf_init r0 n') ops = Ok (b', outs)
  /\ size (b_st b) = size (b_st b') /\ size (b_st b) = count_from 0 ops
  /\ (0 < size (b_st b) ->
      (forall rnd bs, sample_indices o b rnd bs = sample_indices o b' rnd bs)
      /\ forall index, (forall i, In i index -> (0 <= i < Z.of_nat (size (b_st b)))%Z) ->
           rows_at b index = rows_at b' index /\ getitem o b index = getitem o b' index /\ prev b index = prev b' index /\ next b index = next b' index
           /\ is_ok (getitem o b index) = true /\ is_ok (prev b index) = true /\ is_ok (next b index) = true).
Proof. exact C374_capacity_lemma. Qed.
Print Assumptions C374_capacity.

(** C374. The same for the parts of vector buffers. *)
Theorem C374_vector : forall (Ob A Inf R : Type) (r0 : R) radd (last_frame : Ob -> Ob) o ns ns' (ops : list (mop Ob A Inf R)) m m' outs outs' ps,
  (forall n, In n ns -> 0 < n) -> (forall n, In n ns' -> 0 < n) -> 0 < stack_num o -> length ns' = length ns ->
  (forall k n, nth_error ns k = Some n -> roomy n 0 (proj (length ns) k ops)) -> (forall k n, nth_error ns' k = Some n -> roomy n 0 (proj (length ns) k ops)) ->
  m_run r0 radd last_frame o (m_init r0 ns) ops = Ok (m, outs) -> m_run r0 radd last_frame o (m_init r0 ns') ops = Ok (m', outs') ->
  ps <> [] -> (forall x, In x ps -> snd x < length (mqueue last_frame o ns ops (fst x))) ->
  let addr x := Z.of_nat (off ns (fst x) + snd x) in let addr' x := Z.of_nat (off ns' (fst x) + snd x) in
  m_lens m = m_lens m'
  /\ m_rows_at m (map addr ps) = m_rows_at m' (map addr' ps)
  /\ m_getitem o m (map addr ps) = m_getitem o m' (map addr' ps)
  /\ (exists pp, m_prev m (map addr ps) = Ok (map addr pp) /\ m_prev m' (map addr' ps) = Ok (map addr' pp))
  /\ (exists pp, m_next m (map addr ps) = Ok (map addr pp) /\ m_next m' (map addr' ps) = Ok (map addr' pp)).
Proof. exact C374_vector_lemma. Qed.
Print Assumptions C374_vector.

(** ** Non-vacuity *)
Definition sp_t (x : nat) (d : bool) : trans nat nat unit nat := mkTrans x 0 x d false (S x) tt.
Definition sp_ops : list (aop nat nat unit nat) := [OpAdd (sp_t 9 false); OpReset false; OpAdd (sp_t 1 false); OpAdd (sp_t 2 true); OpAdd (sp_t 3 false)].
Definition sp_o : opts := mkOpts 2 false false false.
(** Capacity 3 is just enough and the next insertion index has wrapped around; 7 is more than enough. *)
Example C374_ex : roomy 3 0 sp_ops /\ roomy 7 0 sp_ops /\ exists b b' outs, buf_run 0 Nat.add (fun x => x) sp_o (buf_init 0 3) sp_ops = Ok (b, outs)
  /\ buf_run 0 Nat.add (fun x => x) sp_o (buf_init 0 7) sp_ops = Ok (b', outs) /\ ins (b_st b) = 0 /\ ins (b_st b') = 3
  /\ map (fun r => fst (fst (fst r))) outs = [0; 0; 1; 2] /\ prev b [0; 1; 2]%Z = Ok [0; 0; 2]%Z /\ prev b' [0; 1; 2]%Z = Ok [0; 0; 2]%Z.
Proof. split; [cbn; lia|]. split; [cbn; lia|]. do 3 eexists. split; [vm_compute; reflexivity|]. split; [vm_compute; reflexivity|]. vm_compute. repeat split. Qed.
(** Where rows are overwritten the capacity matters. *)
Example C374_ex_overwritten : exists b b' outs outs', buf_run 0 Nat.add (fun x => x) sp_o (buf_init 0 2) sp_ops = Ok (b, outs)
  /\ buf_run 0 Nat.add (fun x => x) sp_o (buf_init 0 7) sp_ops = Ok (b', outs') /\ outs <> outs' /\ ~ roomy 2 0 sp_ops.
Proof. do 4 eexists. split; [vm_compute; reflexivity|]. split; [vm_compute; reflexivity|]. split; [vm_compute; discriminate|cbn; lia]. Qed.
Definition sp_mops : list (mop nat nat unit nat) := [MAdd None [sp_t 1 false; sp_t 10 false]; MAdd (Some [1]%Z) [sp_t 11 true]].
Example C374_ex_vector : exists m m' outs outs', m_run 0 Nat.add (fun x => x) sp_o (m_init 0 [2; 2]) sp_mops = Ok (m, outs) /\ m_run 0 Nat.add (fun x => x) sp_o (m_init 0 [4; 3]) sp_mops = Ok (m', outs')
  /\ (forall k n, nth_error [2; 2] k = Some n -> roomy n 0 (proj 2 k sp_mops)) /\ (forall k n, nth_error [4; 3] k = Some n -> roomy n 0 (proj 2 k sp_mops))
  /\ length (mqueue (fun x => x) sp_o [2; 2] sp_mops 1) = 2 /\ off [2; 2] 1 = 2 /\ off [4; 3] 1 = 4
  /\ m_prev m [0; 3]%Z = Ok [0; 2]%Z /\ m_prev m' [0; 5]%Z = Ok [0; 4]%Z.
Proof.
  do 4 eexists. split; [vm_compute; reflexivity|]. split; [vm_compute; reflexivity|].
  split; [intros [|[|[|k]]] n Hn; try discriminate; injection Hn as <-; vm_compute; repeat split; lia|].
  split; [intros [|[|[|k]]] n Hn; try discriminate; injection Hn as <-; vm_compute; repeat split; lia|]. vm_compute. repeat split.
Qed.
