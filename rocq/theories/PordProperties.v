(** * Property C372: order and grouping of priority updates *)
From Coq Require Import Permutation.
From Verif Require Import Py Num SegTreeModel BufferModel ManagerModel PrioModel PrioSpec PordSpec PordProofs.
Open Scope nat_scope.
Open Scope list_scope.

(** C372. Updating two sets of indices in one call is updating them one after the other. *)
Theorem C372_join : forall pw eps n p i w j v, reached pw eps n p -> fit n i w -> fit n j v ->
  update_weight pw eps p (i ++ j) (w ++ v) = (let* p1 := update_weight pw eps p i w in update_weight pw eps p1 j v)
  /\ is_ok (update_weight pw eps p (i ++ j) (w ++ v)) = true.
Proof. exact C372_join_lemma. Qed.
Print Assumptions C372_join.

(** C372. The order in which distinct indices are listed in a call makes no difference. *)
Theorem C372_order : forall pw eps n p i w j v, reached pw eps n p -> fit n i w -> length v = length j -> NoDup i -> Permutation (combine i w) (combine j v) ->
  update_weight pw eps p i w = update_weight pw eps p j v /\ is_ok (update_weight pw eps p i w) = true.
Proof. exact C372_order_lemma. Qed.
Print Assumptions C372_order.

(** C372. Updates of sets of indices that have none in common commute. *)
Theorem C372_commute : forall pw eps n p i w j v, reached pw eps n p -> fit n i w -> fit n j v -> (forall z, In z i -> ~ In z j) ->
  (let* p1 := update_weight pw eps p i w in update_weight pw eps p1 j v) = (let* p1 := update_weight pw eps p j v in update_weight pw eps p1 i w)
  /\ is_ok (let* p1 := update_weight pw eps p i w in update_weight pw eps p1 j v) = true.
Proof. exact C372_commute_lemma. Qed.
Print Assumptions C372_commute.

(** C372. Of two updates of the same indices the second one decides the weights. *)
Theorem C372_last : forall pw eps n p i w v, reached pw eps n p -> fit n i w -> fit n i v ->
  exists p1 p2 p3, update_weight pw eps p i w = Ok p1 /\ update_weight pw eps p1 i v = Ok p2 /\ update_weight pw eps p i v = Ok p3 /\ p_tree p2 = p_tree p3.
Proof. exact C372_last_lemma. Qed.
Print Assumptions C372_last.

(** C372. The weights of every prioritized buffer and every prioritized vector buffer are such weights. *)
Theorem C372_buffers : forall pw eps (Ob A Inf R : Type) (r0 : R) radd (last_frame : Ob -> Ob) o n ns,
  (forall ops (b : pbuf Ob A Inf R), p_run pw eps r0 radd last_frame o (pb_init r0 n) ops = Ok b -> reached pw eps n (pb_prio b))
  /\ (forall ops (m : pmgr Ob A Inf R), pm_run pw eps r0 radd last_frame o (pm_init r0 ns) ops = Ok m -> reached pw eps (list_sum ns) (pm_prio m)).
Proof. exact C372_buffers_lemma. Qed.
Print Assumptions C372_buffers.

(** ** Non-vacuity *)
Definition po_q (n : Z) (d : positive) : Qc := Q2Qc (n # d).
Definition po_pw (x : Qc) : Qc := (x * x)%Qc.
Definition po_eps : Qc := po_q 1 8.
Definition po_p : res prio := init_weight po_pw (prio_init 5) [0; 1; 2; 3; 4]%Z.
Example C372_ex : exists p p1 p2 x y, po_p = Ok p /\ reached po_pw po_eps 5 p
  /\ fit 5 [3; 0]%Z [po_q (-2) 1; po_q 1 2] /\ fit 5 [1; 1]%Z [po_q 3 1; po_q 1 1] /\ (forall z, In z [3; 0]%Z -> ~ In z [1; 1]%Z)
  /\ update_weight po_pw po_eps p [3; 0]%Z [po_q (-2) 1; po_q 1 2] = Ok p1 /\ update_weight po_pw po_eps p1 [1; 1]%Z [po_q 3 1; po_q 1 1] = Ok p2
  /\ p_max p2 = po_q 25 8 /\ p_min p2 = po_q 5 8 /\ st_getitem (p_tree p2) 1 = Ok x /\ st_getitem (p_tree p2) 3 = Ok y /\ x = po_q 81 64 /\ y = po_q 289 64.
Proof.
  do 5 eexists. split; [vm_compute; reflexivity|]. split; [eapply reached_add with (index := [0; 1; 2; 3; 4]%Z); [apply reached_init|vm_compute; reflexivity]|].
  split; [repeat split; try discriminate; destruct H as [<-|[<-|[]]]; cbn; lia|]. split; [repeat split; try discriminate; destruct H as [<-|[<-|[]]]; cbn; lia|].
  split; [cbn; lia|]. split; [vm_compute; reflexivity|]. split; [vm_compute; reflexivity|].
  split; [apply Qc_is_canon; vm_compute; reflexivity|]. split; [apply Qc_is_canon; vm_compute; reflexivity|].
  split; [vm_compute; reflexivity|]. split; [vm_compute; reflexivity|]. split; apply Qc_is_canon; vm_compute; reflexivity.
Qed.
(** A list of pairs in another order. *)
Example C372_ex_order : NoDup [3; 0]%Z /\ Permutation (combine [3; 0]%Z [po_q (-2) 1; po_q 1 2]) (combine [0; 3]%Z [po_q 1 2; po_q (-2) 1]).
Proof. split; [repeat constructor; cbn; lia|]. apply perm_swap. Qed.
(** With a repeated index the order matters: the weight written last stays. *)
Example C372_ex_repeated : exists p1 p2, update_weight po_pw po_eps (prio_init 5) [1; 1]%Z [po_q 3 1; po_q 1 1] = Ok p1
  /\ update_weight po_pw po_eps (prio_init 5) [1; 1]%Z [po_q 1 1; po_q 3 1] = Ok p2 /\ st_getitem (p_tree p1) 1 <> st_getitem (p_tree p2) 1.
Proof. do 2 eexists. split; [vm_compute; reflexivity|]. split; [vm_compute; reflexivity|]. vm_compute. discriminate. Qed.
(** An addition and an update of another index do not commute: the new row gets the largest priority seen so far. *)
Example C372_ex_add : exists p1 p2, bind (init_weight po_pw (prio_init 5) [0]%Z) (fun p => update_weight po_pw po_eps p [1]%Z [po_q 3 1]) = Ok p1
  /\ bind (update_weight po_pw po_eps (prio_init 5) [1]%Z [po_q 3 1]) (fun p => init_weight po_pw p [0]%Z) = Ok p2 /\ st_getitem (p_tree p1) 0 <> st_getitem (p_tree p2) 0.
Proof. do 2 eexists. split; [vm_compute; reflexivity|]. split; [vm_compute; reflexivity|]. vm_compute. discriminate. Qed.
