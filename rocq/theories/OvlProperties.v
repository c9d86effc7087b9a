(** * Property C369: overlapping frame stacks *)
From Verif Require Import Py BufferModel ManagerModel OvlProofs.
Open Scope nat_scope.
Open Scope list_scope.

(** C369. A stack of k + 1 frames without its oldest frame is the stack of k frames, its newest frame is the row itself, and without it the stack is that of the
    predecessor: for any buffer in any state. *)
Theorem C369_buffer : forall (Ob A Inf R : Type) (b : buf Ob A Inf R) k index st,
  0 < k -> get_rows b (S k) index = Ok st ->
  get_rows b k index = Ok (map (@tl _) st) /\ rows_at b index = Ok (map (fun s => last s None) st)
  /\ (forall pi, prev b index = Ok pi -> get_rows b k pi = Ok (map (@removelast _) st))
  /\ length st = length index /\ (forall s, In s st -> length s = S k).
Proof. exact C369_buffer_lemma. Qed.
Print Assumptions C369_buffer.

(** C369. The same for buffers that consist of several. *)
Theorem C369_manager : forall (Ob A Inf R : Type) (m : mgr Ob A Inf R) k index st,
  0 < k -> m_get_rows m (S k) index = Ok st ->
  m_get_rows m k index = Ok (map (@tl _) st) /\ m_rows_at m index = Ok (map (fun s => last s None) st)
  /\ (forall pi, m_prev m index = Ok pi -> m_get_rows m k pi = Ok (map (@removelast _) st))
  /\ length st = length index /\ (forall s, In s st -> length s = S k).
Proof. exact C369_manager_lemma. Qed.
Print Assumptions C369_manager.

(** C369. The stacks of several indices are those of each. *)
Theorem C369_join : forall (Ob A Inf R : Type) (b : buf Ob A Inf R) (m : mgr Ob A Inf R) k l1 l2 st,
  (get_rows b k (l1 ++ l2) = Ok st <-> exists s1 s2, get_rows b k l1 = Ok s1 /\ get_rows b k l2 = Ok s2 /\ st = s1 ++ s2)
  /\ (m_get_rows m k (l1 ++ l2) = Ok st <-> exists s1 s2, m_get_rows m k l1 = Ok s1 /\ m_get_rows m k l2 = Ok s2 /\ st = s1 ++ s2).
Proof. exact C369_join_lemma. Qed.
Print Assumptions C369_join.

(** ** Non-vacuity *)
(** Five transitions in two episodes, in a buffer with four places. *)
Definition ov_o : opts := mkOpts 1 false false false.
Definition ov_t (x : nat) (d : bool) : trans nat nat unit nat := mkTrans x 0 1 d false (S x) tt.
Definition ov_b : res (buf nat nat unit nat) :=
  foldM (fun b t => let* x := add 0 Nat.add (fun x => x) ov_o b t in Ok (fst x)) [ov_t 1 false; ov_t 2 true; ov_t 10 false; ov_t 11 false; ov_t 12 false] (buf_init 0 4).
Definition ov_read (k : nat) (i : list Z) : res (list (list (option nat))) :=
  let* b := ov_b in let* st := get_rows b k i in Ok (map (map (option_map s_obs)) st).
Example C369_ex : ov_read 3 [0; 3; 1]%Z = Ok [[Some 10; Some 11; Some 12]; [Some 10; Some 10; Some 11]; [Some 2; Some 2; Some 2]]
  /\ ov_read 2 [0; 3; 1]%Z = Ok [[Some 11; Some 12]; [Some 10; Some 11]; [Some 2; Some 2]]
  /\ (let* b := ov_b in prev b [0; 3; 1]%Z) = Ok [3; 2; 1]%Z
  /\ ov_read 2 [3; 2; 1]%Z = Ok [[Some 10; Some 11]; [Some 10; Some 10]; [Some 2; Some 2]].
Proof. repeat split; vm_compute; reflexivity. Qed.
Definition ov_m : res (mgr nat nat unit nat) :=
  foldM (fun m x => let* y := m_add 0 Nat.add (fun x => x) ov_o m (Some (fst x)) (snd x) in Ok (fst y))
    [([0; 1]%Z, [ov_t 1 false; ov_t 20 false]); ([0; 1]%Z, [ov_t 2 true; ov_t 21 false])] (m_init 0 [2; 3]).
Example C369_ex_manager : (let* m := ov_m in let* st := m_get_rows m 3 [1; 3; 2]%Z in Ok (map (map (option_map s_obs)) st))
    = Ok [[Some 1; Some 1; Some 2]; [Some 20; Some 20; Some 21]; [Some 20; Some 20; Some 20]]
  /\ (let* m := ov_m in let* st := m_get_rows m 2 [1; 3; 2]%Z in Ok (map (map (option_map s_obs)) st)) = Ok [[Some 1; Some 2]; [Some 20; Some 21]; [Some 20; Some 20]].
Proof. repeat split; vm_compute; reflexivity. Qed.
