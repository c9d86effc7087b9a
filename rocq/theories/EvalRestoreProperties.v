(** * Writing and restoring logs: properties *)
From Verif Require Import Py PyLemmas Num StatModel EvalModel EvalSpec EvalRestoreProofs.
Open Scope nat_scope.
Open Scope list_scope.

(** C220. Tags of which none leads through another: every tag's values are found under its path, and nothing else. *)
Theorem C220_restore : forall ev, NoDup (map fst ev) -> prefix_free (map fst ev) ->
  exists d, restore_logged_data ev = Ok d /\
    forall path vs, array_at path d = Some vs <-> exists k evs, In (k, evs) ev /\ split_key k = path /\ vs = map snd evs.
Proof. exact C220_restore_lemma. Qed.
Print Assumptions C220_restore.

(** C220. A tag whose path leads through an earlier tag ("a", then "a/b") makes the whole restoration fail. *)
Theorem C220_conflict_refuted : forall ev1 k1 v1 ev2 k2 v2 ev3, strict_prefix (split_key k1) (split_key k2) ->
  is_ok (restore_logged_data (ev1 ++ (k1, v1) :: ev2 ++ (k2, v2) :: ev3)) = false.
Proof. exact C220_conflict_refuted_lemma. Qed.
Print Assumptions C220_conflict_refuted.

(** C221. Whatever is written: a tag has its values in the order of the writes, with the steps; and if no tag
    leads through another, restoring gives exactly these values under its path. *)
Theorem C221_round_trip : forall ws, (forall w, In w ws -> no_slash (w_scope w) /\ no_slash (w_name w)) ->
  exists ev, write_all ws = Ok ev /\
    (forall tag, get tag ev = match history tag ws with [] => None | h => Some h end) /\
    (prefix_free (tags_of ws) -> exists d, restore_logged_data ev = Ok d /\
       forall path vs, array_at path d = Some vs <-> exists tag, In tag (tags_of ws) /\ split_key tag = path /\ vs = map snd (history tag ws)).
Proof. exact C221_round_trip_lemma. Qed.
Print Assumptions C221_round_trip.

(** C221. A step type that is not "scope/name" is refused and nothing is written. *)
Theorem C221_step_type : forall st step data ev, length (split_key st) <> 2 -> write st step data ev = Err ValueError.
Proof. exact C221_step_type_lemma. Qed.
Print Assumptions C221_step_type.

(** ** Examples *)
(** "t/s" at steps 5 and 7, with "r/m" both times and "l" once. *)
Definition ex_w1 : wr := mkWr [Ch 0] [Ch 1] 5 [([Ch 2; Slash; Ch 3], 1%Qc)].
Definition ex_w2 : wr := mkWr [Ch 0] [Ch 1] 7 [([Ch 2; Slash; Ch 3], 0%Qc); ([Ch 4], 1%Qc)].
Definition ex_log : list (list char * list (Z * Qc)) :=
  [([Ch 0; Slash; Ch 1], [(5%Z, qzz 5); (7%Z, qzz 7)]); ([Ch 0; Slash; Ch 2; Slash; Ch 3], [(5%Z, 1%Qc); (7%Z, 0%Qc)]); ([Ch 0; Slash; Ch 4], [(7%Z, 1%Qc)])].
Example C221_ex : write_all [ex_w1; ex_w2] = Ok ex_log /\
  restore_logged_data ex_log = Ok (RDict [([Ch 0], RDict [([Ch 1], RArr [qzz 5; qzz 7]); ([Ch 2], RDict [([Ch 3], RArr [1%Qc; 0%Qc])]); ([Ch 4], RArr [1%Qc])])]) /\
  history [Ch 0; Slash; Ch 4] [ex_w1; ex_w2] = [(7%Z, 1%Qc)].
Proof. repeat split. Qed.
Example C220_ex : NoDup (map fst ex_log) /\ prefix_free (map fst ex_log).
Proof.
  split; [repeat constructor; cbn; intuition discriminate|].
  intros k k' Hk Hk' (r & Hr & E). destruct Hk as [<-|[<-|[<-|[]]]]; destruct Hk' as [<-|[<-|[<-|[]]]]; cbn in E; (destruct r; [contradiction|discriminate E]) || discriminate E || idtac.
  all: injection E; intros; subst; try contradiction; discriminate.
Qed.
Example C220_conflict_ex : strict_prefix (split_key [Ch 0]) (split_key [Ch 0; Slash; Ch 1]) /\
  restore_logged_data [([Ch 0], [(1%Z, 1%Qc)]); ([Ch 0; Slash; Ch 1], [(1%Z, 1%Qc)])] = Err IndexError /\
  restore_logged_data [([Ch 0; Slash; Ch 1], [(1%Z, 1%Qc)]); ([Ch 0], [(1%Z, 1%Qc)])] = Ok (RDict [([Ch 0], RArr [1%Qc])]).
Proof. split; [exists [[Ch 1]]; split; [discriminate|reflexivity]|]. split; reflexivity. Qed.
Example C221_step_type_ex : write [Ch 0] 3 [] [] = Err ValueError /\ write [Ch 0; Slash; Ch 1; Slash; Ch 1] 3 [] [] = Err ValueError.
Proof. split; reflexivity. Qed.
