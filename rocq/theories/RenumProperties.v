(** * Property C370: renumbering the parts of a vector buffer *)
From Verif Require Import Py BufferModel BufferSpec ManagerModel ManagerSpec RenumSpec RenumProofs.
Open Scope nat_scope.
Open Scope list_scope.

(** C370. What a part of a vector buffer holds and reports depends only on the calls meant for it and its capacity: not on the numbers, capacities and calls of the others. *)
Theorem C370_local : forall (Ob A Inf R : Type) (r0 : R) radd (last_frame : Ob -> Ob) o ns ns' (ops ops' : list (mop Ob A Inf R)) m m' outs outs' k k' n,
  (forall n, In n ns -> 0 < n) -> (forall n, In n ns' -> 0 < n) ->
  m_run r0 radd last_frame o (m_init r0 ns) ops = Ok (m, outs) -> m_run r0 radd last_frame o (m_init r0 ns') ops' = Ok (m', outs') ->
  nth_error ns k = Some n -> nth_error ns' k' = Some n -> proj (length ns) k ops = proj (length ns') k' ops' ->
  nth_error (m_bufs m) k = nth_error (m_bufs m') k' /\ nth_error (m_lens m) k = nth_error (m_lens m') k'
  /\ slice (off ns k) n (meta_rows (list_sum ns) (m_meta m)) = slice (off ns' k') n (meta_rows (list_sum ns') (m_meta m'))
  /\ map (unshift (off ns k)) (select (length ns) k outs) = map (unshift (off ns' k')) (select (length ns') k' outs').
Proof. exact C370_local_lemma. Qed.
Print Assumptions C370_local.

(** C370. So do the rows, frame stacks, predecessors and successors read from it. *)
Theorem C370_reads : forall (Ob A Inf R : Type) (r0 : R) radd (last_frame : Ob -> Ob) o ns ns' (ops ops' : list (mop Ob A Inf R)) m m' outs outs' k k' n ps,
  (forall n, In n ns -> 0 < n) -> (forall n, In n ns' -> 0 < n) -> 0 < stack_num o ->
  m_run r0 radd last_frame o (m_init r0 ns) ops = Ok (m, outs) -> m_run r0 radd last_frame o (m_init r0 ns') ops' = Ok (m', outs') ->
  nth_error ns k = Some n -> nth_error ns' k' = Some n -> proj (length ns) k ops = proj (length ns') k' ops' ->
  ps <> [] -> (forall p, In p ps -> p < length (mqueue last_frame o ns ops k)) ->
  let addr p := Z.of_nat (maddress ns ops (k, p)) in let addr' p := Z.of_nat (maddress ns' ops' (k', p)) in
  m_rows_at m (map addr ps) = m_rows_at m' (map addr' ps)
  /\ m_getitem o m (map addr ps) = m_getitem o m' (map addr' ps)
  /\ (exists pp, m_prev m (map addr ps) = Ok (map addr pp) /\ m_prev m' (map addr' ps) = Ok (map addr' pp))
  /\ (exists pp, m_next m (map addr ps) = Ok (map addr pp) /\ m_next m' (map addr' ps) = Ok (map addr' pp)).
Proof. exact C370_reads_lemma. Qed.
Print Assumptions C370_reads.

(** C370. Renumbered calls to parts in another order run when the calls run, and part [s k] then holds what part [k] held. *)
Theorem C370_renumber : forall (Ob A Inf R : Type) (r0 : R) radd (last_frame : Ob -> Ob) o ns ns' (ops : list (mop Ob A Inf R)) s m outs,
  (forall n, In n ns -> 0 < n) -> length ns' = length ns -> renumbers (length ns) s -> (forall k, k < length ns -> nth_error ns' (s k) = nth_error ns k) ->
  m_run r0 radd last_frame o (m_init r0 ns) ops = Ok (m, outs) ->
  exists m' outs', m_run r0 radd last_frame o (m_init r0 ns') (map (renum (length ns) s) ops) = Ok (m', outs')
  /\ forall k n, nth_error ns k = Some n ->
     nth_error (m_bufs m') (s k) = nth_error (m_bufs m) k
     /\ slice (off ns' (s k)) n (meta_rows (list_sum ns') (m_meta m')) = slice (off ns k) n (meta_rows (list_sum ns) (m_meta m))
     /\ map (unshift (off ns' (s k))) (select (length ns') (s k) outs') = map (unshift (off ns k)) (select (length ns) k outs).
Proof. exact C370_renumber_lemma. Qed.
Print Assumptions C370_renumber.

(** ** Non-vacuity *)
(** Three parts in a circle: 0 becomes 1, 1 becomes 2, 2 becomes 0. *)
Definition rn_s (k : nat) : nat := match k with 0 => 1 | 1 => 2 | _ => 0 end.
Definition rn_t (x : nat) (d : bool) : trans nat nat unit nat := mkTrans x 0 x d false (S x) tt.
Definition rn_ops : list (mop nat nat unit nat) :=
  [MAdd None [rn_t 1 false; rn_t 10 false; rn_t 20 false]; MAdd (Some [0; -1]%Z) [rn_t 2 true; rn_t 21 true]; MAdd (Some [0%Z]) [rn_t 3 false]].
Definition rn_o : opts := mkOpts 2 false false false.
Definition rn_run (ns : list nat) (ops : list (mop nat nat unit nat)) := m_run 0 Nat.add (fun x => x) rn_o (m_init 0 ns) ops.
Example C370_ex_renumbers : renumbers 3 rn_s /\ (forall k, k < 3 -> nth_error [3; 2; 4] (rn_s k) = nth_error [2; 4; 3] k)
  /\ map (renum 3 rn_s) rn_ops = [MAdd (Some [1; 2; 0]%Z) [rn_t 1 false; rn_t 10 false; rn_t 20 false];
                                  MAdd (Some [1; 0]%Z) [rn_t 2 true; rn_t 21 true]; MAdd (Some [1%Z]) [rn_t 3 false]].
Proof.
  split; [split|split; [|reflexivity]].
  - intros [|[|[|k]]] H; cbn; lia.
  - intros [|[|[|j]]] [|[|[|k]]] H1 H2; cbn; lia.
  - intros [|[|[|k]]] H; try reflexivity. lia.
Qed.
Example C370_ex : exists m outs m' outs', rn_run [2; 4; 3] rn_ops = Ok (m, outs) /\ rn_run [3; 2; 4] (map (renum 3 rn_s) rn_ops) = Ok (m', outs')
  /\ map snd (select 3 0 outs) = [0; 0; 0] /\ select 3 0 outs = [(0, 0, 0, 0); (1, 3, 2, 0); (0, 0, 0, 0)] /\ select 3 1 outs' = [(3, 0, 0, 3); (4, 3, 2, 3); (3, 0, 0, 3)].
Proof. do 4 eexists. split; [vm_compute; reflexivity|]. split; [vm_compute; reflexivity|]. vm_compute. repeat split. Qed.
(** A part of another manager that received the same calls. *)
Example C370_ex_local : proj 3 1 rn_ops = proj 1 0 [MAdd None [rn_t 10 false]] /\ nth_error [2; 4; 3] 1 = nth_error [4] 0
  /\ is_ok (rn_run [4] [MAdd None [rn_t 10 false]]) = true /\ length (mqueue (fun x => x) rn_o [2; 4; 3] rn_ops 1) = 1.
Proof. repeat split. Qed.
