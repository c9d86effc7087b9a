(** * Property C371: a cached buffer of one environment *)
From Verif Require Import Py BufferModel BufferSpec ManagerModel CachedModel CachedSpec OnecSpec OnecProofs.
Open Scope nat_scope.
Open Scope list_scope.

(** C371. After whole episodes, none longer than the cache, a cached buffer of one environment holds in its main buffer, at the same indices, what a replay buffer of that
    size holds; its cache is empty, neighbours agree, and so do the reports of the additions that end an episode. *)
Theorem C371_one_environment : forall (Ob A Inf R : Type) (r0 : R) radd (last_frame : Ob -> Ob) o n c ids (ts : list (trans Ob A Inf R)),
  0 < n -> 0 < c -> ids = None \/ ids = Some [0%Z] -> whole c 0 ts ->
  exists m0 m reports b outs, c_init r0 n 1 c = Ok m0
  /\ c_run r0 radd last_frame o m0 (map (fun t => CAdd ids [t]) ts) = Ok (m, reports)
  /\ buf_run r0 radd last_frame o (buf_init r0 n) (map OpAdd ts) = Ok (b, outs)
  /\ m_lens m = [size (b_st b); 0]
  /\ at_ends ts reports = map zreport (at_ends ts outs)
  /\ forall index, index <> [] -> (forall i, In i index -> (0 <= i < Z.of_nat (size (b_st b)))%Z) ->
       m_rows_at m index = rows_at b index /\ m_prev m index = prev b index /\ m_next m index = next b index.
Proof. exact C371_one_environment_lemma. Qed.
Print Assumptions C371_one_environment.

(** ** Non-vacuity *)
(** Two episodes of two and three transitions; a main buffer of four rows, so the oldest row is overwritten, and a cache of three. *)
Definition oc_t (x : nat) (d : bool) : trans nat nat unit nat := mkTrans x 0 x d false (S x) tt.
Definition oc_ts : list (trans nat nat unit nat) := [oc_t 1 false; oc_t 2 true; oc_t 3 false; oc_t 4 false; oc_t 5 true].
Definition oc_o : opts := mkOpts 1 false false false.
Example C371_ex_whole : whole 3 0 oc_ts.
Proof. apply whole_go; [reflexivity|]. apply whole_end; [reflexivity|lia|]. apply whole_go; [reflexivity|]. apply whole_go; [reflexivity|]. apply whole_end; [reflexivity|lia|]. apply whole_nil. Qed.
Example C371_ex : exists m0 m reports b outs, c_init 0 4 1 3 = Ok m0
  /\ c_run 0 Nat.add (fun x => x) oc_o m0 (map (fun t => CAdd None [t]) oc_ts) = Ok (m, reports)
  /\ buf_run 0 Nat.add (fun x => x) oc_o (buf_init 0 4) (map OpAdd oc_ts) = Ok (b, outs)
  /\ at_ends oc_ts outs = [(1, 3, 2, 0); (0, 12, 3, 2)] /\ at_ends oc_ts reports = [(1%Z, 3, 2, 0%Z); (0%Z, 12, 3, 2%Z)]
  /\ size (b_st b) = 4 /\ prev b [0; 1; 2; 3]%Z = Ok [3; 1; 2; 2]%Z /\ m_prev m [0; 1; 2; 3]%Z = Ok [3; 1; 2; 2]%Z.
Proof.
  do 5 eexists. split; [vm_compute; reflexivity|]. split; [vm_compute; reflexivity|]. split; [vm_compute; reflexivity|]. vm_compute. repeat split.
Qed.
(** Between the ends of episodes the reports differ: the cache has its own indices. *)
Example C371_ex_between : exists m0 m reports b outs, c_init 0 4 1 3 = Ok m0
  /\ c_run 0 Nat.add (fun x => x) oc_o m0 (map (fun t => CAdd None [t]) oc_ts) = Ok (m, reports)
  /\ buf_run 0 Nat.add (fun x => x) oc_o (buf_init 0 4) (map OpAdd oc_ts) = Ok (b, outs)
  /\ reports <> map zreport outs.
Proof.
  do 5 eexists. split; [vm_compute; reflexivity|]. split; [vm_compute; reflexivity|]. split; [vm_compute; reflexivity|]. vm_compute. discriminate.
Qed.
