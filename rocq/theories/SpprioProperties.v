(** * Property C378: spare capacity of a prioritized buffer *)
From Verif Require Import Py PyLemmas Num SegTreeSpec PrioModel PrioSpec BufferMainProofs SpprioProofs.
Open Scope nat_scope.

(** C378.  While no more rows are added or moved in than fit, the capacity of a prioritized buffer
    makes no difference: the same calls are legal and leave the same weights, largest and smallest
    priority; equal draws give equal indices, with equal weights in the batch. *)
Theorem C378_capacity : forall (pw ipw : Qc -> Qc) (eps : Qc) (Ob A Inf R : Type) (r0 : R) radd (last_frame : Ob -> Ob) o n n' (ops : list (pop Ob A Inf R)),
  (forall x, (0 < x)%Qc -> (0 < pw x)%Qc) -> (forall x, (0 < x)%Qc -> (0 < ipw x)%Qc) -> (0 < eps)%Qc -> 0 < n -> 0 < n' ->
  pops_ok pw eps r0 radd last_frame o n (ps_init n) ops ->
  let cnt := ps_cnt (ps_run pw eps n ops) in
  cnt <= n -> cnt <= n' ->
  exists b b', p_run pw eps r0 radd last_frame o (pb_init r0 n) ops = Ok b /\ p_run pw eps r0 radd last_frame o (pb_init r0 n') ops = Ok b'
    /\ size (b_st (pb_buf b)) = cnt /\ size (b_st (pb_buf b')) = cnt
    /\ p_max (pb_prio b) = p_max (pb_prio b') /\ p_min (pb_prio b) = p_min (pb_prio b')
    /\ (forall i, i < n -> i < n' -> st_getitem (p_tree (pb_prio b)) (Z.of_nat i) = st_getitem (p_tree (pb_prio b')) (Z.of_nat i))
    /\ (0 < cnt -> forall rnd draw z, (0 < z)%Z -> (forall j, (0 <= draw j)%Qc /\ (draw j < 1)%Qc) ->
          exists l, pb_sample_indices o b rnd draw (Some z) = Ok l /\ pb_sample_indices o b' rnd draw (Some z) = Ok l
            /\ forall norm, batch_weight ipw norm (pb_prio b) (map Z.of_nat l) = batch_weight ipw norm (pb_prio b') (map Z.of_nat l)
                 /\ is_ok (batch_weight ipw norm (pb_prio b) (map Z.of_nat l)) = true).
Proof. exact C378_capacity_lemma. Qed.
Print Assumptions C378_capacity.

(** ** Non-vacuity: two rows and new weights for both in buffers of 3 and 5 rows. *)
Definition sp_q (n : Z) (d : positive) : Qc := Q2Qc (n # d).
Definition sp_pw (x : Qc) : Qc := (x * x)%Qc.
Definition sp_t (k : nat) : trans nat nat nat Z := mkTrans k k 1%Z false false (S k) k.
Definition sp_ops : list (pop nat nat nat Z) := [PAdd (sp_t 1); PAdd (sp_t 2); PWeights [0; 1]%Z [sp_q 3 8; sp_q (-15) 8]].
Example C378_ex_ok : pops_ok sp_pw (sp_q 1 8) 0%Z Z.add (fun x => x) plain 3 (ps_init 3) sp_ops
  /\ ps_cnt (ps_run sp_pw (sp_q 1 8) 3 sp_ops) = 2 /\ (0 < sp_q 1 8)%Qc.
Proof.
  split; [|split; reflexivity]. cbn [pops_ok sp_ops pop_ok]. split; [exact Logic.I|]. split; [exact Logic.I|]. split; [|exact Logic.I].
  split; [discriminate|]. split; [reflexivity|]. intros i [<-|[<-|[]]]; vm_compute; split; (discriminate || reflexivity).
Qed.
Example C378_ex : forall n, n = 3 \/ n = 5 ->
  match p_run sp_pw (sp_q 1 8) 0%Z Z.add (fun x => x) plain (pb_init 0%Z n) sp_ops with
  | Ok b => pb_sample_indices plain b (fun _ => 0) (fun j => sp_q (Z.of_nat j) 40) (Some 4%Z) = Ok [0; 0; 0; 1]
  | Err _ => False end.
Proof. intros n [->| ->]; vm_compute; reflexivity. Qed.
