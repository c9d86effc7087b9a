(** * What resuming a training is meant to do *)
From Verif Require Export TrainModel CompSpec.
Open Scope Z_scope.

(** The same configuration with what the logger restores. *)
Definition with_resume (c : config) (r : option (Z * Z * Z)) : config :=
  mkCfg (c_kind c) (c_max_epoch c) (c_step_per_epoch c) (c_batch c) (c_update_per_step c) (c_train c) (c_test c) (c_same_policy c)
    (c_episode_per_test c) (c_stop c) (c_save_best c) (c_buffer c) r.
(** What was saved last. *)
Definition last_saved (l : list event) : option (Z * Z * Z) :=
  fold_left (fun r e => match e with ESaveData a b c => Some (a, b, c) | _ => r end) l None.
(** The calls of train_fn, the updates and what is saved. *)
Definition of_training (e : event) : bool :=
  match e with ETrainFn _ _ | EUpdate | ESaveData _ _ _ => true | _ => false end.
Definition training (l : list event) : list event := filter of_training l.
