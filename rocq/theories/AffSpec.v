(** * Strictly increasing functions; the variance with divisor n - 1 (specification only). *)
From Verif Require Export Py Num StatModel.
Definition increasing (f : Qc -> Qc) : Prop := forall x y, (x < y)%Qc -> (f x < f y)%Qc.
Definition sample_var (l : list Qc) : Qc := (qsum (map (fun x => (x - np_mean l) * (x - np_mean l)) l) / sq (length l - 1))%Qc.
