(** * Model of [tianshou/env/gym_wrappers.py]: the two action wrappers. *)
From Verif Require Export Py Num.
Open Scope nat_scope.

(** ** MultiDiscreteToDiscrete (gym_wrappers.py:37-58) *)

(** gym_wrappers.py:48-50; [nvec[-i]] is entry [length nvec - i]. *)
Definition md_bases (nvec : list nat) : list nat :=
  fold_left (fun b i => upd b i (nth (i - 1) b 0 * nth (length nvec - i) nvec 0))
            (seq 1 (length nvec - 1)) (repeat 1 (length nvec)).
Definition md_size (nvec : list nat) : nat := fold_right Nat.mul 1 nvec.
(** gym_wrappers.py:53-58, for one action. *)
Definition md_action (nvec : list nat) (act : nat) : list nat :=
  fst (fold_left (fun st b => (fst st ++ [snd st / b], snd st mod b)) (rev (md_bases nvec)) ([], act)).

(** ** ContinuousToDiscrete (gym_wrappers.py:8-34) *)
Definition nq (n : nat) : Qc := Q2Qc (inject_Z (Z.of_nat n)).
(** [np.linspace(lo, hi, a)]. *)
Definition linspace (lo hi : Qc) (a : nat) : list Qc :=
  map (fun i => if a =? 1 then lo else (lo + nq i * ((hi - lo) / nq (a - 1)))%Qc) (seq 0 a).

Record cd : Type := mkCD { cd_space : list nat; cd_mesh : list (list Qc) }.
Inductive per_dim : Type := PInt (a : nat) | PList (l : list nat).
(** gym_wrappers.py:16-27. *)
Definition cd_init (low high : list Qc) (p : per_dim) : res cd :=
  let l := match p with PInt a => repeat a (length low) | PList l => l end in
  if negb (length l =? length low) then Err AssertionError
  else Ok (mkCD l (map (fun x => linspace (fst (fst x)) (snd (fst x)) (snd x)) (combine (combine low high) l))).

(** gym_wrappers.py:32-34, one row (the two-dimensional case maps this over the rows).
    [self.mesh[i]] beyond the last dimension: IndexError. *)
Fixpoint cd_row (mesh : list (list Qc)) (act : list Z) : res (list Qc) :=
  match act, mesh with
  | [], _ => Ok []
  | a :: act, m :: mesh => let* x := zget m a in let* r := cd_row mesh act in Ok (x :: r)
  | _ :: _, [] => Err IndexError
  end.
Inductive act_arr : Type := A1 (l : list Z) | A2 (l : list (list Z)) | AOther.
Definition cd_action (c : cd) (act : act_arr) : res (list (list Qc)) :=
  match act with
  | A1 l => let* r := cd_row (cd_mesh c) l in Ok [r]
  | A2 l => mapM (cd_row (cd_mesh c)) l
  | AOther => Err AssertionError
  end.
