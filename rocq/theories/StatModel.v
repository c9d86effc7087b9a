(** * Model of [tianshou/utils/statistics.py]; floats are exact rationals. *)
From Verif Require Export Py Num.
Open Scope nat_scope.

Definition sq (n : nat) : Qc := Q2Qc (inject_Z (Z.of_nat n)).

(** ** MovAvg (statistics.py:7-66)

    A number is finite, an infinity, or NaN; [VNan true] is the object [np.nan] itself, [VNan
    false] any other NaN object (a result of [float('nan')], an array element, ...).  Membership
    in [self.banned] compares by identity or [==], and a NaN equals nothing. *)
Inductive num : Type := VFin (x : Qc) | VInf | VNegInf | VNan (is_np_nan : bool).
Definition banned (v : num) : bool :=
  match v with VFin _ => false | VInf | VNegInf => true | VNan same => same end.

Record movavg : Type := mkMA { ma_size : Z; ma_cache : list num }.
Definition ma_init (size : Z) : movavg := mkMA size [].
Definition ma_add (m : movavg) (data : list num) : movavg :=
  let cache := ma_cache m ++ filter (fun v => negb (banned v)) data in
  if (0 <? ma_size m)%Z && (ma_size m <? Z.of_nat (length cache))%Z
  then mkMA (ma_size m) (skipn (length cache - Z.to_nat (ma_size m)) cache)
  else mkMA (ma_size m) cache.
(** The mean of a list with a NaN is NaN ([None]); infinities cannot get in. *)
Fixpoint finites (l : list num) : option (list Qc) :=
  match l with
  | [] => Some []
  | VFin x :: l => option_map (cons x) (finites l)
  | _ :: _ => None
  end.
Definition ma_get (m : movavg) : option Qc :=
  match ma_cache m with
  | [] => Some 0%Qc
  | l => option_map (fun xs => qsum xs / sq (length xs))%Qc (finites l)
  end.

(** ** RunningMeanStd (statistics.py:69-114), for scalar data *)
Record rms : Type := mkR { r_mean : Qc; r_var : Qc; r_count : nat }.
Definition rms_init (mean std : Qc) : rms := mkR mean std 0.
Definition np_mean (l : list Qc) : Qc := (qsum l / sq (length l))%Qc.
Definition np_var (l : list Qc) : Qc :=
  (qsum (map (fun x => (x - np_mean l) * (x - np_mean l))%Qc l) / sq (length l))%Qc.
(** An empty array gives NaN in numpy: outside the model (ValueError). *)
Definition rms_update (r : rms) (data : list Qc) : res rms :=
  if length data =? 0 then Err ValueError
  else
    let batch_mean := np_mean data in
    let batch_var := np_var data in
    let bc := sq (length data) in
    let c := sq (r_count r) in
    let delta := (batch_mean - r_mean r)%Qc in
    let total := sq (r_count r + length data) in
    let new_mean := (r_mean r + delta * bc / total)%Qc in
    let m_a := (r_var r * c)%Qc in
    let m_b := (batch_var * bc)%Qc in
    let m_2 := (m_a + m_b + delta * delta * c * bc / total)%Qc in
    Ok (mkR new_mean (m_2 / total)%Qc (r_count r + length data)).
(** statistics.py:91-95; [sqrt] is a parameter.  [clip_max] None or 0: no clipping. *)
Definition rms_norm (sqrt : Qc -> Qc) (eps : Qc) (clip_max : option Qc) (r : rms) (x : Qc) : Qc :=
  let y := ((x - r_mean r) / sqrt (r_var r + eps))%Qc in
  match clip_max with
  | None => y
  | Some c => if Qceqb c 0 then y else Qcminb (Qcmaxb y (- c)) c
  end.
