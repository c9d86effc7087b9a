(** * Property C330: what PSRL learns does not depend on how the data arrive *)
From Verif Require Import Py PyLemmas Num PsrlModel DqnProofs PsrlProofs PsrlawProofs.
From Coq Require Import Permutation Qround.
Open Scope nat_scope.

(** C330.  Two ways of cutting the same transitions into batches, in any order within and across
    the batches, lead to the same posterior: the same transition counts, reward counts, means,
    sums of squares and variances, and the same arrays in the store. *)
Theorem C330_order : forall (fe : Qc) (loop : bool) (h : store) (addr ns na : nat) (mean0 var0 : table2) (eps : Qc) (batches batches' : list (list row)),
  (0 < eps)%Qc -> batches <> [] -> batches' <> [] -> Permutation (concat batches) (concat batches') ->
  (forall w, In w (concat batches) -> w_obs w < ns /\ w_act w < na /\ w_next w < ns) ->
  exists h1 m1 h2 m2,
    foldM (learn fe loop) batches (h, psrl_init addr ns na mean0 var0 eps) = Ok (h1, m1)
    /\ foldM (learn fe loop) batches' (h, psrl_init addr ns na mean0 var0 eps) = Ok (h2, m2)
    /\ (forall x s a s', h1 x s a s' = h2 x s a s') /\ ps_trans m1 = ps_trans m2 /\ ps_ns m1 = ps_ns m2 /\ ps_na m1 = ps_na m2
    /\ (forall s a, ps_count m1 s a = ps_count m2 s a) /\ (forall s a, ps_mean m1 s a = ps_mean m2 s a)
    /\ (forall s a, ps_sq m1 s a = ps_sq m2 s a) /\ (forall s a, ps_var m1 s a = ps_var m2 s a) /\ ps_updated m1 = ps_updated m2.
Proof. exact C330_order_lemma. Qed.
Print Assumptions C330_order.

(** ** Non-vacuity: three transitions (one finishing an episode) as two batches and as one. *)
Definition ex_w1 : row := mkRow 0 0 1 1%Qc false.
Definition ex_w2 : row := mkRow 1 1 0 (Q2Qc 3) true.
Definition ex_w3 : row := mkRow 0 0 0 (Q2Qc 2) false.
Example C330_ex : Permutation (concat [[ex_w1; ex_w2]; [ex_w3]]) (concat [[ex_w3; ex_w2; ex_w1]])
  /\ (forall w, In w (concat [[ex_w1; ex_w2]; [ex_w3]]) -> w_obs w < 2 /\ w_act w < 2 /\ w_next w < 2)
  /\ (let f bs := match foldM (learn (Q2Qc (1 # 100)) true) bs (fun _ _ _ _ => 1%Qc, psrl_init 0 2 2 (fun _ _ => 0%Qc) (fun _ _ => 1%Qc) 1%Qc) with
                  | Ok (h, m) => map this [ps_count m 0 0; ps_mean m 0 0; ps_sq m 0 0; ps_var m 0 0; h 0 0 0 0] | Err _ => [] end in
      f [[ex_w1; ex_w2]; [ex_w3]] = f [[ex_w3; ex_w2; ex_w1]]
      /\ firstn 3 (f [[ex_w3; ex_w2; ex_w1]]) = [4; 3 # 4; 5]%Q).
Proof.
  split; [|split; [|split; vm_compute; reflexivity]].
  - change (Permutation [ex_w1; ex_w2; ex_w3] (rev [ex_w1; ex_w2; ex_w3])). apply Permutation_rev.
  - intros w [<-|[<-|[<-|[]]]]; cbn; lia.
Qed.
