(** * Model of [TruncatedAsTerminated] ([tianshou/env/gym_wrappers.py]) around an environment of the
    collector model. *)
From Verif Require Export Py BufferModel CollectModel.

(** gym_wrappers.py:77-80 [step]; everything else is passed on by [gym.Wrapper].  The test of the
    gymnasium version (69-75) is left out. *)
Definition tat_step {Ob B Inf R ES : Type} (estep : nat -> ES -> B -> ES * sres Ob Inf R) (e : nat) (s : ES) (b : B) : ES * sres Ob Inf R :=
  let '(s', r) := estep e s b in
  (s', mkSres (r_obs r) (r_rew r) (r_term r || r_trunc r) (r_trunc r) (r_info r)).
