(** * Properties C48, C96: HDF5 conversion and pickling of batches *)
From Verif Require Import Py HdfModel HdfSpec HdfProofs.
From Coq Require Import String.
Import List HdfModel.
Local Open Scope string_scope.
Local Open Scope list_scope.

(** C48: a nested structure of dicts and batches whose keys contain no "/" (and which avoids the
    names the format uses itself) is restored with the same structure and the same values. *)
Theorem C48_roundtrip_partial : forall x, storable false (HDict x) ->
  exists y, save_load x = Ok y /\ same (HDict y) (HDict x).
Proof. exact C48_roundtrip_partial_lemma. Qed.
Print Assumptions C48_roundtrip_partial.

(** C48 fails for a key with "/": the value is moved into a nested dict. *)
Theorem C48_slash_refuted : exists x y, (forall k v, In (k, v) x -> storable false v) /\ NoDup (map fst x) /\
  save_load x = Ok y /\ ~ same (HDict y) (HDict x).
Proof. exact C48_slash_refuted_lemma. Qed.
Print Assumptions C48_slash_refuted.

(** ... and two keys may not coexist at all: {"a": array, "a/b": array} cannot be written. *)
Theorem C48_slash_error_refuted : exists x, (forall k v, In (k, v) x -> storable false v) /\ NoDup (map fst x) /\ save_load x = Err ValueError.
Proof. exact C48_slash_error_refuted_lemma. Qed.
Print Assumptions C48_slash_error_refuted.

(** ... and a number is lost if another key begins with its name and "/": {"a": 3, "a/b": array} comes
    back as {"a": {"b": array}}. *)
Theorem C48_slash_lost_refuted : exists x y, (forall k v, In (k, v) x -> storable false v) /\ NoDup (map fst x) /\ save_load x = Ok y /\
  entry_at [["a"]%string] (HDict x) = Some (IsLeaf (HNum 3)) /\ entry_at [["a"]%string] (HDict y) = Some IsDict /\
  entry_at [["a"]%string; ["b"]%string] (HDict y) = Some (IsLeaf (HArr (Plain 7))).
Proof. exact C48_slash_lost_refuted_lemma. Qed.
Print Assumptions C48_slash_lost_refuted.

(** ... for a number under "__data_type__", which is dropped ... *)
Theorem C48_data_type_refuted : exists x y, (forall k v, In (k, v) x -> (exists s, k = [s]) /\ storable false v) /\ NoDup (map fst x) /\
  save_load x = Ok y /\ ~ same (HDict y) (HDict x).
Proof. exact C48_data_type_refuted_lemma. Qed.
Print Assumptions C48_data_type_refuted.

(** ... and for an object of a class that happens to be called Tensor, which comes back as a tensor
    holding the bytes of its pickle. *)
Theorem C48_class_name_refuted : exists x y, (forall k v, In (k, v) x -> exists s, k = [s]) /\ NoDup (map fst x) /\
  save_load x = Ok y /\ entry_at [["a"]%string] (HDict x) = Some (IsLeaf (HObj Lit.tensor 3)) /\
  entry_at [["a"]%string] (HDict y) = Some (IsLeaf (HTensor (PickleObj Lit.tensor 3))).
Proof. exact C48_class_name_refuted_lemma. Qed.
Print Assumptions C48_class_name_refuted.

(** C96: unpickling a pickled Batch gives the Batch back, if no key is a parameter name of
    Batch.__init__. *)
Theorem C96_pickle_partial : forall truth l, batch_value (HBatch l) ->
  ~ In [Lit.kw_self] (map fst l) -> ~ In [Lit.kw_copy] (map fst l) -> ~ In [Lit.kw_dict] (map fst l) ->
  pickle_loads truth l = Ok l.
Proof. exact C96_pickle_partial_lemma. Qed.
Print Assumptions C96_pickle_partial.

(** C96 fails for a Batch with a key called copy: the key is gone after unpickling. *)
Theorem C96_pickle_refuted : exists truth l y, batch_value (HBatch l) /\ pickle_loads truth l = Ok y /\
  entry_at [[Lit.kw_copy]] (HBatch l) <> None /\ entry_at [[Lit.kw_copy]] (HBatch y) = None.
Proof. exact C96_pickle_refuted_lemma. Qed.
Print Assumptions C96_pickle_refuted.

(** C96: a Batch with a key called self cannot be unpickled. *)
Theorem C96_pickle_self_refuted : exists l, batch_value (HBatch l) /\ forall truth, pickle_loads truth l = Err TypeError.
Proof. exact C96_pickle_self_refuted_lemma. Qed.
Print Assumptions C96_pickle_self_refuted.

Definition ex_x : list (key * hv) :=
  [(["n"], HNum 3); (["_meta"], HBatch [(["obs"], HBatch [(["x"], HArr (Plain 1)); (["y"], HTensor (Plain 2))]); (["info"], HObjArr 4)]);
   (["options"], HDict [(["stack_num"], HNum 1); (["fn"], HObj "function" 9)]); (["m"], HNum 5)].
Example C48_ex : storable false (HDict ex_x).
Proof.
  repeat match goal with
  | |- storable _ (HDict _) => apply st_dict
  | |- storable _ _ => constructor
  | |- NoDup (map fst _) => cbn
  | |- NoDup _ => constructor
  | |- ~ In _ _ => cbn; intuition discriminate
  | |- forall k v, In (k, v) _ -> _ => let H := fresh in intros k v H; cbn in H; repeat (destruct H as [H|H]; [injection H as <- <-|]); try contradiction
  | |- (exists s, _ = [s]) /\ _ => split; [eexists; reflexivity|]
  | |- forall n, ~ In _ _ => intro
  | |- _ <> _ => discriminate
  | |- _ = _ => reflexivity
  end.
Qed.
Example C48_ex_result : match save_load ex_x with Ok y => map fst y | Err _ => [] end = [["n"]; ["m"]; ["_meta"]; ["options"]].
Proof. vm_compute. reflexivity. Qed.
Example C96_ex : batch_value (HBatch [(["a"], HBatch [(["copy"], HArr (Plain 1))]); (["b"], HObj "str" 2)]) /\
  pickle_loads (fun _ => Ok true) [(["a"], HBatch [(["copy"], HArr (Plain 1))]); (["b"], HObj "str" 2)] = Ok [(["a"], HBatch [(["copy"], HArr (Plain 1))]); (["b"], HObj "str" 2)].
Proof.
  split; [|vm_compute; reflexivity].
  repeat match goal with
  | |- batch_value _ => constructor
  | |- NoDup (map fst _) => cbn
  | |- NoDup _ => constructor
  | |- ~ In _ _ => cbn; intuition discriminate
  | |- forall k v, In (k, v) _ -> _ => let H := fresh in intros k v H; cbn in H; repeat (destruct H as [H|H]; [injection H as <- <-|]); try contradiction
  end.
Qed.
