(** * Model of PSRL ([tianshou/policy/modelbased/psrl.py]); floats are exact rationals. *)
From Verif Require Export Py Num.
From Verif Require Export DqnModel.
Open Scope nat_scope.

(** Arrays of shape (n_state, n_action[, n_state]) as functions; indices are checked where the
    code indexes. *)
Definition table2 := nat -> nat -> Qc.
Definition table3 := nat -> nat -> nat -> Qc.
(** A row of the batch: obs, act, obs_next, rew, done. *)
Record row : Type := mkRow { w_obs : nat; w_act : nat; w_next : nat; w_rew : Qc; w_done : bool }.

(** ** PSRLModel (psrl.py:40-60): [trans_count] is the very array passed as prior, so the model
    holds its address in a store of arrays; the other fields are rebound or newly allocated. *)
Definition store := nat -> table3.
Record psrl : Type := mkPs {
  ps_trans : nat; ps_ns : nat; ps_na : nat;
  ps_mean : table2; ps_var : table2; ps_sq : table2; ps_count : table2; ps_eps : Qc; ps_var_prior : table2;
  ps_updated : bool }.
(** The reward standard deviation enters only through its square: [ps_var] is [rew_std**2]. *)
Definition psrl_init (addr ns na : nat) (mean_prior var_prior : table2) (eps : Qc) : psrl :=
  mkPs addr ns na mean_prior var_prior (fun _ _ => 0%Qc) (fun _ _ => eps) eps var_prior false.

(** psrl.py:86-94; [fe] is np.finfo(np.float32).eps.  [ps_var] is what the code takes the square
    root of. *)
Definition observe (fe : Qc) (h : store) (m : psrl) (tc : table3) (rs rq rc : table2) : store * psrl :=
  let h := fun x => if x =? ps_trans m then (fun s a t => h x s a t + tc s a t)%Qc else h x in
  let sum_count := fun s a => (ps_count m s a + rc s a)%Qc in
  let mean := fun s a => ((ps_mean m s a * ps_count m s a + rs s a) / sum_count s a)%Qc in
  let sq := fun s a => (ps_sq m s a + rq s a)%Qc in
  let raw := fun s a => (sq s a / sum_count s a - mean s a * mean s a)%Qc in
  let var := fun s a => (1 / (sum_count s a / (raw s a + fe) + 1 / ps_var_prior m s a))%Qc in
  (h, mkPs (ps_trans m) (ps_ns m) (ps_na m) mean var sq sum_count (ps_eps m) (ps_var_prior m) false).

(** psrl.py:230-253: the loop over batch.split(size=1), in the (shuffled) order given. *)
Record stats : Type := mkStats { t_tc : table3; t_rs : table2; t_rq : table2; t_rc : table2 }.
Definition zero_stats : stats := mkStats (fun _ _ _ => 0%Qc) (fun _ _ => 0%Qc) (fun _ _ => 0%Qc) (fun _ _ => 0%Qc).
Definition inc2 (t : table2) (i j : nat) (x : Qc) : table2 := fun a b => if (a =? i) && (b =? j) then (t a b + x)%Qc else t a b.
Definition inc3 (t : table3) (i j k : nat) (x : Qc) : table3 := fun a b c => if (a =? i) && (b =? j) && (c =? k) then (t a b c + x)%Qc else t a b c.
Definition learn_row (ns na : nat) (add_done_loop : bool) (t : stats) (w : row) : res stats :=
  if (w_obs w <? ns) && (w_act w <? na) && (w_next w <? ns) then
    let t := mkStats (inc3 (t_tc t) (w_obs w) (w_act w) (w_next w) 1) (inc2 (t_rs t) (w_obs w) (w_act w) (w_rew w))
                     (inc2 (t_rq t) (w_obs w) (w_act w) (w_rew w * w_rew w)%Qc) (inc2 (t_rc t) (w_obs w) (w_act w) 1) in
    if add_done_loop && w_done w
    then Ok (mkStats (fun a b c => if (a =? w_next w) && (c =? w_next w) then (t_tc t a b c + 1)%Qc else t_tc t a b c) (t_rs t) (t_rq t)
                     (fun a b => if a =? w_next w then (t_rc t a b + 1)%Qc else t_rc t a b))
    else Ok t
  else Err IndexError.
Definition learn (fe : Qc) (add_done_loop : bool) (hm : store * psrl) (rows : list row) : res (store * psrl) :=
  let m := snd hm in
  let* t := foldM (learn_row (ps_ns m) (ps_na m) add_done_loop) rows zero_stats in
  Ok (observe fe (fst hm) m (t_tc t) (t_rs t) (t_rq t) (t_rc t)).

(** ** Value iteration (psrl.py:112-140)

    trans_prob : (n_state, n_action, n_state), rew : (n_state, n_action), value : (n_state,). *)
Definition qabs (x : Qc) : Qc := if Qcleb 0 x then x else (- x)%Qc.
Fixpoint vdot (p v : list Qc) : Qc :=
  match p, v with a :: p, b :: v => (a * b + vdot p v)%Qc | _, _ => 0%Qc end.
Definition q_table (P : list (list (list Qc))) (rew : list (list Qc)) (g : Qc) (v : list Qc) : list (list Qc) :=
  map (fun sr => map (fun ar => (snd ar + g * vdot (fst ar) v)%Qc) (combine (fst sr) (snd sr))) (combine P rew).
(** Q.max(axis=1); of no actions: ValueError. *)
Definition row_max (l : list Qc) : res Qc := match l with [] => Err ValueError | x :: l => Ok (fold_left Qcmaxb l x) end.
(** np.allclose(a, b, rtol) with the default atol. *)
Definition allclose (atol rtol : Qc) (a b : list Qc) : bool :=
  forallb (fun ab => Qcleb (qabs (fst ab - snd ab)) (atol + rtol * qabs (snd ab))) (combine a b).
Fixpoint vi_loop (fuel : nat) P rew (g atol eps : Qc) (value new_value : list Qc) (Q : list (list Qc)) : res (list (list Qc) * list Qc) :=
  if allclose atol eps new_value value then Ok (Q, new_value)
  else match fuel with
       | O => Err OutOfFuel
       | S fuel =>
           let value := new_value in
           let Q := q_table P rew g value in
           let* new_value := mapM row_max Q in
           vi_loop fuel P rew g atol eps value new_value Q
       end.
(** [noise] is np.random.randn of Q's shape. *)
Definition value_iteration (fuel : nat) P rew (g atol eps : Qc) (value : list Qc) (noise : list (list Qc)) : res (list nat * list Qc) :=
  let Q := q_table P rew g value in
  let* new_value := mapM row_max Q in
  let* x := vi_loop fuel P rew g atol eps value new_value Q in
  let Q := map (fun qn => map (fun xy => (fst xy + eps * snd xy)%Qc) (combine (fst qn) (snd qn))) (combine (fst x) noise) in
  Ok (map argmax Q, snd x).
