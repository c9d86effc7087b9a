(** * What the small functions are to do *)
From Verif Require Export SmlModel.
Open Scope nat_scope.
Open Scope list_scope.

(** The actions of a discrete space. *)
Definition in_discrete (n : nat) (start z : Z) : Prop := (start <= z < start + Z.of_nat n)%Z.
(** A row of actions is within a bounded box. *)
Definition in_box (low high row : list Qc) : Prop :=
  length row = length low /\ length row = length high /\
  forall i l h x, nth_error low i = Some l -> nth_error high i = Some h -> nth_error row i = Some x -> (l <= x)%Qc /\ (x <= h)%Qc.
(** A sample of a batch of uniform rows for the random numbers [us]. *)
Definition sample_rows (low high : list (list (option Qc))) (us : list (list Qc)) : list (list (option Qc)) :=
  map (fun x => map (fun y => uniform_sample (fst (fst y)) (snd (fst y)) (snd y)) (combine (combine (fst (fst x)) (snd (fst x))) (snd x)))
      (combine (combine low high) us).
(** gymnasium's Box.sample of a bounded box for the same random numbers. *)
Definition space_row (low high us : list Qc) : list Qc :=
  map (fun y => (fst (fst y) + snd y * (snd (fst y) - fst (fst y)))%Qc) (combine (combine low high) us).
