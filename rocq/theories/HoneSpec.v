(** * A HERVectorReplayBuffer with one sub-buffer *)
From Verif Require Import Py BufferModel ManagerModel SpcSpec HerModel HerSpec HmgrModel HmgrSpec.
Open Scope nat_scope.

Section Hone.
Context {Ob0 G A Inf R : Type}.
(** A HER buffer seen as the only sub-buffer of a manager. *)
Definition as_hmanager (h : her Ob0 G A Inf R) : hmgr Ob0 G A Inf R := mkHM (as_manager (h_buf h)) [h_alt h].
(** The calls both have: one transition at a time, and samples of a given size. *)
Definition shared_call (op : hop Ob0 G A Inf R) : Prop :=
  match op with HAdd _ | HReset _ => True | HSample _ (Some z) _ _ _ => (0 <= z)%Z | _ => False end.
(** The same call on the manager; [rb] distributes the sample over the sub-buffers. *)
Definition manager_call (ids : option (list Z)) (rb : nat -> nat) (op : hop Ob0 G A Inf R) : hmop Ob0 G A Inf R :=
  match op with
  | HAdd t => GAdd ids [t]
  | HReset keep => GReset keep
  | HUpdate _ => GReset true
  | HSample rnd bs hz offs hsel => GSample rb (fun _ => rnd) bs hz (fun _ => offs) (fun _ => hsel)
  end.
Definition manager_out (x : hout R) : hmout R :=
  match x with RAdd r => QAdd [r] | RNone => QNone | RIdx l => QIdx l end.
End Hone.
