(** * Specification of runs that are composed of parts *)
From Verif Require Export Py BufferModel ManagerModel ManagerSpec CollectModel TrainModel.
Open Scope nat_scope.

(** The record of two collections, one after the other. *)
Definition both_stats {R} (a b : stats R) : stats R :=
  mkStats (st_episodes a + st_episodes b) (st_steps a + st_steps b) (st_returns a ++ st_returns b) (st_lens a ++ st_lens b).
Definition both {Ob A B Inf R H ES PS} (a b : loop Ob A B Inf R H ES PS) : loop Ob A B Inf R H ES PS :=
  mkLoop (l_envs b) (l_mgr b) (l_pol b) (l_ready b) (l_obs b) (l_inf b) (l_hid b)
    (l_steps a + l_steps b) (l_eps a + l_eps b) (both_stats (l_stats a) (l_stats b)) (l_hook a ++ l_hook b) (l_calls a ++ l_calls b).

(** The same configuration with another number of epochs. *)
Definition with_epochs (c : config) (E : Z) : config :=
  mkCfg (c_kind c) E (c_step_per_epoch c) (c_batch c) (c_update_per_step c) (c_train c) (c_test c) (c_same_policy c)
    (c_episode_per_test c) (c_stop c) (c_save_best c) (c_buffer c) (c_resume c).
