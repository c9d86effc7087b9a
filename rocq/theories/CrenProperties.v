(** * Property C373: renumbered environments of a cached buffer *)
From Verif Require Import Py BufferModel BufferSpec ManagerModel CachedModel CachedSpec CrenSpec CrenProofs.
Open Scope nat_scope.
Open Scope list_scope.

(** C373. The environments of a cached buffer can be given other numbers, in a buffer of as many or more: the main buffer and its indices are the same, the cache of [k] is
    now that of [s k], and reports, rows, predecessors and successors are the same at the corresponding indices. *)
Theorem C373_renumber : forall (Ob A Inf R : Type) (r0 : R) radd (last_frame : Ob -> Ob) o n0 num num' c s (ops : list (cop Ob A Inf R)),
  0 < n0 -> 0 < num -> 0 < c -> placed num num' s -> Forall (cop_ok num) ops ->
  exists m0 m reports m0' m' reports', c_init r0 n0 num c = Ok m0 /\ c_run r0 radd last_frame o m0 ops = Ok (m, reports)
  /\ c_init r0 n0 num' c = Ok m0' /\ c_run r0 radd last_frame o m0' (map (cren num s) ops) = Ok (m', reports')
  /\ reports' = map (report_to n0 c s) reports
  /\ (forall k, k <= num -> nth_error (m_lens m') (part_to s k) = nth_error (m_lens m) k)
  /\ let st := fst (c_spec r0 radd last_frame o n0 num c (c_start num) ops) in
     forall ps, ps <> [] -> (forall x, In x ps -> fst x <= num /\ snd x < length (c_queue n0 c st (fst x))) ->
     let index := map (fun x => Z.of_nat (c_address n0 c st x)) ps in
     m_rows_at m' (map (moved_to n0 c s) index) = m_rows_at m index
     /\ m_prev m' (map (moved_to n0 c s) index) = (let* x := m_prev m index in Ok (map (moved_to n0 c s) x))
     /\ m_next m' (map (moved_to n0 c s) index) = (let* x := m_next m index in Ok (map (moved_to n0 c s) x))
     /\ is_ok (m_rows_at m index) = true /\ is_ok (m_prev m index) = true /\ is_ok (m_next m index) = true.
Proof. exact C373_renumber_lemma. Qed.
Print Assumptions C373_renumber.

(** ** Non-vacuity *)
(** Two environments that become the environments 2 and 0 of three. *)
Definition cr_s (k : nat) : nat := match k with 0 => 2 | _ => 0 end.
Definition cr_t (x : nat) (d : bool) : trans nat nat unit nat := mkTrans x 0 x d false (S x) tt.
Definition cr_ops : list (cop nat nat unit nat) := [CAdd None [cr_t 1 false; cr_t 10 false]; CAdd (Some [1; 0]%Z) [cr_t 11 true; cr_t 2 true]; CAdd (Some [0]%Z) [cr_t 3 false]].
Definition cr_o : opts := mkOpts 1 false false false.
Example C373_ex_hyps : placed 2 3 cr_s /\ Forall (cop_ok 2) cr_ops
  /\ map (cren 2 cr_s) cr_ops = [CAdd (Some [2; 0]%Z) [cr_t 1 false; cr_t 10 false]; CAdd (Some [0; 2]%Z) [cr_t 11 true; cr_t 2 true]; CAdd (Some [2]%Z) [cr_t 3 false]].
Proof.
  split; [split|split; [|reflexivity]].
  - intros [|[|k]] H; cbn; lia.
  - intros [|[|j]] [|[|k]] H1 H2; cbn; lia.
  - constructor; [reflexivity|]. constructor; [|constructor; [|constructor]]; (split; [reflexivity|]; split; [discriminate|]; split; [repeat constructor; cbn; lia|]; cbn; intros i Hi; lia).
Qed.
Example C373_ex : exists m0 m reports m0' m' reports', c_init 0 6 2 3 = Ok m0 /\ c_run 0 Nat.add (fun x => x) cr_o m0 cr_ops = Ok (m, reports)
  /\ c_init 0 6 3 3 = Ok m0' /\ c_run 0 Nat.add (fun x => x) cr_o m0' (map (cren 2 cr_s) cr_ops) = Ok (m', reports')
  /\ m_lens m = [4; 1; 0] /\ m_lens m' = [4; 0; 0; 1]
  /\ map (fun r => fst (fst (fst r))) reports = [6; 9; 1; 3; 6]%Z /\ map (fun r => fst (fst (fst r))) reports' = [12; 6; 1; 3; 12]%Z
  /\ m_prev m [1; 3; 6]%Z = Ok [0; 2; 6]%Z /\ m_prev m' [1; 3; 12]%Z = Ok [0; 2; 12]%Z.
Proof.
  do 6 eexists. split; [vm_compute; reflexivity|]. split; [vm_compute; reflexivity|]. split; [vm_compute; reflexivity|]. split; [vm_compute; reflexivity|]. vm_compute. repeat split.
Qed.
