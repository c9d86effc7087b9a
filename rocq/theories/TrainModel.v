(** * Model of the trainers ([tianshou/trainer/base.py], [tianshou/trainer/utils.py])

    Collectors, the policy and the callbacks are oracles: the k-th training collection, the k-th
    test and the buffer length after the k-th collection are arbitrary.  Timing, logging of
    scalars and the progress bar are left out. *)
From Verif Require Export Py Num.
From Coq Require Import Qround.
Open Scope Z_scope.

(** CollectStats of a training collection: steps, episodes, mean return (after reward_metric). *)
Record cstat := mkC { cs_steps : Z; cs_eps : Z; cs_mean : Qc }.
(** CollectStats of a test: mean return and compute_score_fn, with reward_metric applied to the
    returns and without. *)
Record tstat := mkT { ts_mean : Qc; ts_score : Qc; ts_raw_mean : Qc; ts_raw_score : Qc }.
Inductive kind := Offline | Offpolicy | Onpolicy.
Record config := mkCfg {
  c_kind : kind;
  c_max_epoch : Z;
  c_step_per_epoch : Z;
  c_batch : option Z;
  c_update_per_step : Q;
  c_train : bool;            (* train_collector is given *)
  c_test : bool;             (* test_collector is given *)
  c_same_policy : bool;      (* train_collector.policy == policy *)
  c_episode_per_test : option Z;
  c_stop : option (Qc -> bool);
  c_save_best : bool;        (* save_best_fn is given *)
  c_buffer : option Z;       (* length of the offline buffer *)
  c_resume : option (Z * Z * Z)  (* resume_from_log: what logger.restore_data returns *) }.

Inductive tkind := TInit | TStep | TTrain.
Inductive event :=
| EResetCollectors
| ETrainFn (epoch env_step : Z)
| ECollect (k : nat)
| ETest (w : tkind) (epoch : Z) (k : nat)
| ESaveBest
| ESaveData (epoch env_step gradient_step : Z)
| EUpdate.

Record st := mkS {
  s_start : Z; s_epoch : Z; s_iter : Z; s_env : Z; s_ep : Z; s_grad : Z;
  s_best_epoch : Z; s_best_score : Qc; s_best_reward : Qc;
  s_stop : bool; s_test_in_train : bool;
  s_nc : nat; s_nt : nat;     (* collections and tests so far *)
  s_ev : list event }.
Definition set_start s x := mkS x (s_epoch s) (s_iter s) (s_env s) (s_ep s) (s_grad s) (s_best_epoch s) (s_best_score s) (s_best_reward s) (s_stop s) (s_test_in_train s) (s_nc s) (s_nt s) (s_ev s).
Definition set_epoch s x i := mkS (s_start s) x i (s_env s) (s_ep s) (s_grad s) (s_best_epoch s) (s_best_score s) (s_best_reward s) (s_stop s) (s_test_in_train s) (s_nc s) (s_nt s) (s_ev s).
Definition set_env s x := mkS (s_start s) (s_epoch s) (s_iter s) x (s_ep s) (s_grad s) (s_best_epoch s) (s_best_score s) (s_best_reward s) (s_stop s) (s_test_in_train s) (s_nc s) (s_nt s) (s_ev s).
Definition set_ep s x := mkS (s_start s) (s_epoch s) (s_iter s) (s_env s) x (s_grad s) (s_best_epoch s) (s_best_score s) (s_best_reward s) (s_stop s) (s_test_in_train s) (s_nc s) (s_nt s) (s_ev s).
Definition set_grad s x := mkS (s_start s) (s_epoch s) (s_iter s) (s_env s) (s_ep s) x (s_best_epoch s) (s_best_score s) (s_best_reward s) (s_stop s) (s_test_in_train s) (s_nc s) (s_nt s) (s_ev s).
Definition set_best s e sc r := mkS (s_start s) (s_epoch s) (s_iter s) (s_env s) (s_ep s) (s_grad s) e sc r (s_stop s) (s_test_in_train s) (s_nc s) (s_nt s) (s_ev s).
Definition set_stop s x := mkS (s_start s) (s_epoch s) (s_iter s) (s_env s) (s_ep s) (s_grad s) (s_best_epoch s) (s_best_score s) (s_best_reward s) x (s_test_in_train s) (s_nc s) (s_nt s) (s_ev s).
Definition set_tit s x := mkS (s_start s) (s_epoch s) (s_iter s) (s_env s) (s_ep s) (s_grad s) (s_best_epoch s) (s_best_score s) (s_best_reward s) (s_stop s) x (s_nc s) (s_nt s) (s_ev s).
Definition set_calls s c t := mkS (s_start s) (s_epoch s) (s_iter s) (s_env s) (s_ep s) (s_grad s) (s_best_epoch s) (s_best_score s) (s_best_reward s) (s_stop s) (s_test_in_train s) c t (s_ev s).
Definition emit s e := mkS (s_start s) (s_epoch s) (s_iter s) (s_env s) (s_ep s) (s_grad s) (s_best_epoch s) (s_best_score s) (s_best_reward s) (s_stop s) (s_test_in_train s) (s_nc s) (s_nt s) (s_ev s ++ [e]).

(** __init__ (base.py:190-245). *)
Definition new_trainer (test_in_train : bool) : st := mkS 0 0 0 0 0 0 0 0%Qc 0%Qc false test_in_train 0 0 [].

(** Python's round(x): to nearest, ties to even. *)
Definition pyround (q : Q) : Z :=
  let f := Qfloor q in
  let d := (q - inject_Z f)%Q in
  match Qcompare d (1 # 2) with
  | Lt => f
  | Gt => f + 1
  | Eq => if Z.even f then f else f + 1
  end.

Section Trainer.
Variable c : config.
Variable collect : nat -> cstat.
Variable test : nat -> tstat.
Variable buflen : nat -> Z.

(** test_episode (utils.py:17-41): one test collection; the caller reads the returns with or
    without reward_metric. *)
Definition test_episode (s : st) (w : tkind) (epoch : Z) : st * tstat :=
  let k := s_nt s in
  (emit (set_calls s (s_nc s) (S k)) (ETest w epoch k), test k).

(** reset (base.py:263-309). *)
Definition reset (s : st) : st * res unit :=
  let s := set_env s 0 in
  let s := match c_resume c with
           | Some (e, n, g) => set_grad (set_env (set_start s e) n) g
           | None => s
           end in
  let s := emit s EResetCollectors in
  let s := if c_train c && (negb (c_same_policy c) || negb (c_test c)) then set_tit s false else s in
  match (if c_test c then
           match c_episode_per_test c with
           | None => (s, Err AssertionError)
           | Some _ => let '(s, r) := test_episode s TInit (s_start s) in
                       (set_best s (s_start s) (ts_score r) (ts_mean r), Ok tt)
           end
         else (s, Ok tt)) with
  | (s, Err e) => (s, Err e)
  | (s, Ok _) =>
      let s := if c_save_best c then emit s ESaveBest else s in
      (set_stop (set_epoch s (s_start s) 0) false, Ok tt)
  end.

(** _collect_training_data (489-529); the NaN check of the buffer is left out. *)
Definition collect_training_data (s : st) : st * res cstat :=
  match c_episode_per_test c with
  | None => (s, Err AssertionError)
  | Some _ =>
      let s := emit s (ETrainFn (s_epoch s) (s_env s)) in
      let k := s_nc s in
      let r := collect k in
      let s := emit (set_calls s (S k) (s_nt s)) (ECollect k) in
      (set_ep (set_env s (s_env s + cs_steps r)) (s_ep s + cs_eps r), Ok r)
  end.
(** _update_best_reward_and_return_should_stop_training (532-574); test_episode is called without
    reward_metric. *)
Definition train_stop (s : st) (r : cstat) : st * res bool :=
  match c_stop c with
  | Some stop =>
      if (0 <? cs_eps r) && s_test_in_train s && stop (cs_mean r) then
        if negb (c_test c) then (s, Err AssertionError)
        else match c_episode_per_test c with
             | None => (s, Err AssertionError)
             | Some n =>
                 if negb (0 <? n) then (s, Err AssertionError)
                 else
                   let '(s, t) := test_episode s TTrain (s_epoch s) in
                   if stop (ts_raw_mean t) then (set_best s (s_best_epoch s) (ts_raw_score t) (ts_raw_mean t), Ok true)
                   else (s, Ok false)
             end
      else (s, Ok false)
  | None => (s, Ok false)
  end.

(** _sample_and_update (645-653): one gradient step. *)
Definition sample_and_update (s : st) : st := emit (set_grad s (s_grad s + 1)) EUpdate.
Fixpoint updates (n : nat) (s : st) : st := match n with O => s | S n => updates n (sample_and_update s) end.
(** policy_update_fn: offline (666-677), off-policy (693-722), on-policy (738-790). *)
Definition policy_update (s : st) (steps : Z) : st * res unit :=
  match c_kind c with
  | Offline =>
      match c_buffer c with
      | None => (s, Err AssertionError)
      | Some n => if n <=? 0 then (s, Err AssertionError) else (sample_and_update s, Ok tt)
      end
  | Offpolicy =>
      if negb (c_train c) then (s, Err AssertionError)
      else
        let n := pyround (c_update_per_step c * inject_Z steps) in
        if n =? 0 then (s, Err ValueError) else (updates (Z.to_nat n) s, Ok tt)
  | Onpolicy =>
      if negb (c_train c) then (s, Err AssertionError)
      else
        let s := emit s EUpdate in
        let s := set_grad s (s_grad s + 1) in
        let s := match c_batch c with
                 | None => set_grad s (s_grad s + 1)
                 | Some b => if 0 <? b then set_grad s (s_grad s + Qfloor ((inject_Z (buflen (s_nc s)) - (1 # 10)) / inject_Z b)) else s
                 end in
        (s, Ok tt)
  end.

(** training_step (458-487): the number of steps to count and whether to stop. *)
Definition training_step (s : st) : st * res (Z * bool) :=
  if c_train c then
    match collect_training_data s with
    | (s, Err e) => (s, Err e)
    | (s, Ok r) =>
        match train_stop s r with
        | (s, Err e) => (s, Err e)
        | (s, Ok true) => (s, Ok (cs_steps r, true))
        | (s, Ok false) =>
            match policy_update s (cs_steps r) with
            | (s, Err e) => (s, Err e)
            | (s, Ok _) => (s, Ok (cs_steps r, false))
            end
        end
    end
  else
    match c_buffer c with
    | None => (s, Err AssertionError)
    | Some _ =>
        match policy_update s 0 with
        | (s, Err e) => (s, Err e)
        | (s, Ok _) => (s, Ok (1, false))
        end
    end.

(** The loop of __next__ (334-376). *)
Fixpoint epoch_loop (fuel : nat) (done : Z) (s : st) : st * res unit :=
  if (done <? c_step_per_epoch c) && negb (s_stop s) then
    match fuel with
    | O => (s, Err OutOfFuel)
    | S fuel =>
        match training_step s with
        | (s, Err e) => (s, Err e)
        | (s, Ok (n, stop)) => epoch_loop fuel (done + n) (set_stop s stop)
        end
    end
  else (s, Ok tt).

(** test_step (417-456). *)
Definition test_step (s : st) : st * res bool :=
  match c_episode_per_test c with
  | None => (s, Err AssertionError)
  | Some _ =>
      let '(s, t) := test_episode s TStep (s_epoch s) in
      let s := if (s_best_epoch s <? 0) || Qcltb (s_best_score s) (ts_score t) then
                 let s := set_best s (s_epoch s) (ts_score t) (ts_mean t) in
                 if c_save_best c then emit s ESaveBest else s
               else s in
      (s, Ok (match c_stop c with Some stop => stop (s_best_reward s) | None => false end))
  end.

(** __next__ (315-415).  With step_per_epoch <= 0 the names train_stat and update_stat are unbound
    (UnboundLocalError, here RuntimeError). *)
Definition next (fuel : nat) (s : st) : st * res Z :=
  let s := set_epoch s (s_epoch s + 1) (s_iter s + 1) in
  if (1 <? s_iter s) && (c_max_epoch c <? s_epoch s) then (s, Err StopIteration)
  else if (1 <? s_iter s) && s_stop s then (s, Err StopIteration)
  else
    match epoch_loop fuel 0 s with
    | (s, Err e) => (s, Err e)
    | (s, Ok _) =>
        match (if c_train c then Ok s
               else match c_buffer c with
                    | None => Err AssertionError
                    | Some n => Ok (set_env s (s_grad s * match c_batch c with Some b => if b =? 0 then n else b | None => n end))
                    end) with
        | Err e => (s, Err e)
        | Ok s =>
            match (if s_stop s then (s, Ok tt)
                   else
                     let s := emit s (ESaveData (s_epoch s) (s_env s) (s_grad s)) in
                     if c_test c then
                       match test_step s with
                       | (s, Err e) => (s, Err e)
                       | (s, Ok stop) => (set_stop s stop, Ok tt)
                       end
                     else (s, Ok tt)) with
            | (s, Err e) => (s, Err e)
            | (s, Ok _) => if c_step_per_epoch c <=? 0 then (s, Err RuntimeError) else (s, Ok (s_epoch s))
            end
        end
    end.

(** [deque(self)] after __iter__ (reset): the epochs performed.  [fuel] bounds the collections per
    epoch, [n] the epochs. *)
Fixpoint run_loop (fuel n : nat) (s : st) : st * res (list Z) :=
  match n with
  | O => (s, Err OutOfFuel)
  | S n =>
      match next fuel s with
      | (s, Err StopIteration) => (s, Ok [])
      | (s, Err e) => (s, Err e)
      | (s, Ok e) =>
          match run_loop fuel n s with
          | (s, Ok l) => (s, Ok (e :: l))
          | (s, Err x) => (s, Err x)
          end
      end
  end.
(** run (614-643). *)
Definition run (fuel n : nat) (reset_prior : bool) (s : st) : st * res (list Z) :=
  match (if reset_prior then reset s else (s, Ok tt)) with
  | (s, Err e) => (s, Err e)
  | (s, Ok _) =>
      match reset s with
      | (s, Err e) => (s, Err e)
      | (s, Ok _) => run_loop fuel n s
      end
  end.
End Trainer.
