(** * Vocabulary for statements about trainers: reading a trace of events *)
From Verif Require Export TrainModel.
Open Scope Z_scope.

(** Sum of [f] over the [n] numbers from [a] on. *)
Definition sumz (f : nat -> Z) (a n : nat) : Z := fold_right Z.add 0 (map f (seq a n)).
(** The number of policy updates in a trace. *)
Definition upds (l : list event) : Z := Z.of_nat (length (filter (fun e => match e with EUpdate => true | _ => false end) l)).
(** The number of times the collectors were reset. *)
Definition resets (l : list event) : nat := length (filter (fun e => match e with EResetCollectors => true | _ => false end) l).
(** Test [k], made at epoch [e], is the first of the tests at the start and at the ends of epochs
    that has the highest score; with [save], save_best_fn was called right after it and never
    since. *)
Definition is_best (score : nat -> Qc) (save : bool) (l : list event) (e : Z) (k : nat) : Prop :=
  exists a w b, l = a ++ ETest w e k :: b /\ w <> TTrain /\
    (forall w' e' k', In (ETest w' e' k') a -> w' <> TTrain -> (score k' < score k)%Qc) /\
    (forall w' e' k', In (ETest w' e' k') b -> w' <> TTrain -> (score k' <= score k)%Qc) /\
    (save = true -> exists b', b = ESaveBest :: b' /\ ~ In ESaveBest b').
(** A test made during training made the stop function stop it. *)
Definition train_stopped (c : config) (test : nat -> tstat) (l : list event) : Prop :=
  exists f e k, c_stop c = Some f /\ In (ETest TTrain e k) l /\ f (ts_raw_mean (test k)) = true.
(** [n] is q rounded to the nearest integer, ties to the even one. *)
Definition rounds_to (q : Q) (n : Z) : Prop :=
  (- (1 # 2) <= q - inject_Z n <= 1 # 2)%Q /\
  ((q - inject_Z n == 1 # 2)%Q \/ (q - inject_Z n == - (1 # 2))%Q -> Z.even n = true).
