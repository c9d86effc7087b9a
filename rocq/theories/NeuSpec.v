(** * Specification of options that make no difference *)
From Verif Require Export Py Num BufferModel ManagerModel PrioModel PrioSpec TatSpec SpcSpec DqnModel ActorModel OfflineModel IcmModel.
Open Scope nat_scope.

(** The distribution that always takes action [i] of [n]. *)
Definition one_hot (n i : nat) : list Qc := map (fun k => if k =? i then 1%Qc else 0%Qc) (seq 0 n).
(** A mask that allows everything. *)
Definition all_true (rows : list (list Qc)) : list (list bool) := map (map (fun _ => true)) rows.

Section PrioOne.
Variables (pw : Qc -> Qc) (eps : Qc).
Context {Ob A Inf R : Type}.
Variable r0 : R.
Variable radd : R -> R -> R.
Variable last_frame : Ob -> Ob.
Variable o : opts.
(** Adding one transition, and new weights, with what [add] returns. *)
Inductive wop : Type := WAdd (t : trans Ob A Inf R) | WSet (index : list Z) (ws : list Qc).
Definition as_pmgr (b : pbuf Ob A Inf R) : pmgr Ob A Inf R := mkPM (as_manager (pb_buf b)) (pb_prio b).
Definition pbuf_op (x : pbuf Ob A Inf R * list (nat * R * nat * nat)) (op : wop) : res (pbuf Ob A Inf R * list (nat * R * nat * nat)) :=
  match op with
  | WAdd t => let* y := pb_add pw r0 radd last_frame o (fst x) t in Ok (fst y, snd x ++ [snd y])
  | WSet i w => let* p := update_weight pw eps (pb_prio (fst x)) i w in Ok (mkPB (pb_buf (fst x)) p, snd x)
  end.
Definition pmgr_op (ids : option (list Z)) (x : pmgr Ob A Inf R * list (nat * R * nat * nat)) (op : wop) : res (pmgr Ob A Inf R * list (nat * R * nat * nat)) :=
  match op with
  | WAdd t => let* y := pm_add pw r0 radd last_frame o (fst x) ids [t] in Ok (fst y, snd x ++ snd y)
  | WSet i w => let* p := update_weight pw eps (pm_prio (fst x)) i w in Ok (mkPM (pm_mgr (fst x)) p, snd x)
  end.
End PrioOne.
Arguments wop : clear implicits.
