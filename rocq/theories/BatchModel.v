(** * Model of [Batch] ([tianshou/data/batch.py]): indexing, item assignment, cat, stack

    Values are numpy arrays (numeric or object), nested batches and None.  Torch tensors and
    distributions are left out.  A batch is its dict, an association list with distinct keys;
    where the code iterates over a set of keys the order is arbitrary and the model takes the
    order of first appearance. *)
From Verif Require Export Py Num.
From Coq Require String.
Notation string := String.string.
Open Scope nat_scope.
Open Scope list_scope.

(** ** Arrays

    [CO] is an object, [CO None] being None. *)
Inductive cell := CN (q : Qc) | CNan | CO (o : option nat).
Inductive akind := KInt | KFloat | KObj.
(** An array with its row shape and rows; [Sc] is zero-dimensional. *)
Inductive nd := Sc (c : cell) | Ar (rs : list nat) (l : list nd).
Definition shape (a : nd) : list nat := match a with Sc _ => [] | Ar rs l => length l :: rs end.
Definition akind_eqb (a b : akind) : bool := match a, b with KInt, KInt | KFloat, KFloat | KObj, KObj => true | _, _ => false end.
(** np.result_type *)
Definition kjoin (a b : akind) : akind :=
  match a, b with KObj, _ | _, KObj => KObj | KFloat, _ | _, KFloat => KFloat | _, _ => KInt end.
Definition zero (k : akind) : cell := match k with KObj => CO None | _ => CN 0%Qc end.
(** Storing a value into an array of kind [k]. *)
Definition conv (k : akind) (c : cell) : res cell :=
  match k, c with
  | KObj, _ => Ok c
  | KFloat, CO None => Ok CNan
  | KFloat, CO (Some _) => Err TypeError
  | KFloat, _ => Ok c
  | KInt, CN q => Ok (CN (Q2Qc (inject_Z (Z.quot (Qnum q) (Zpos (Qden q))))))
  | KInt, CNan => Err ValueError
  | KInt, CO _ => Err TypeError
  end.
Fixpoint nmap (f : cell -> res cell) (a : nd) : res nd :=
  match a with
  | Sc c => let* c := f c in Ok (Sc c)
  | Ar rs l => let* l := (fix go l := match l with [] => Ok [] | x :: l => let* x := nmap f x in let* l := go l in Ok (x :: l) end) l in Ok (Ar rs l)
  end.
(** np.full *)
Fixpoint nfull (sh : list nat) (c : cell) : nd :=
  match sh with [] => Sc c | n :: sh => Ar sh (repeat (nfull sh c) n) end.
(** Broadcasting of an assigned value: superfluous leading dimensions of length one are dropped,
    missing ones added, and dimensions of length one repeated. *)
Fixpoint strip (d : nat) (a : nd) : res nd :=
  if length (shape a) <=? d then Ok a
  else match a with Ar _ [x] => strip d x | _ => Err ValueError end.
Fixpoint bcast (sh : list nat) (a : nd) : res nd :=
  match sh with
  | [] => match a with Sc _ => Ok a | _ => Err ValueError end
  | n :: sh =>
      if length (shape a) <=? length sh then let* x := bcast sh a in Ok (Ar sh (repeat x n))
      else match a with
           | Sc _ => Err ValueError
           | Ar _ l =>
               if length l =? n then let* l := mapM (bcast sh) l in Ok (Ar sh l)
               else match l with [x] => let* x := bcast sh x in Ok (Ar sh (repeat x n)) | _ => Err ValueError end
           end
  end.
Definition broadcast (sh : list nat) (a : nd) : res nd := let* a := strip (length sh) a in bcast sh a.

(** ** Indexing along the first axis: an integer, an integer array, a slice a:b (a, b >= 0). *)
Inductive index := IInt (i : Z) | IArr (l : list Z) | ISlice (a b : nat).
Definition rows {X} (l : list X) (ps : list nat) : res (list X) :=
  mapM (fun i => match nth_error l i with Some x => Ok x | None => Err IndexError end) ps.
Definition positions (n : nat) (ix : index) : res (list nat) :=
  match ix with
  | IInt i => let* k := norm_index n i in Ok [k]
  | IArr l => mapM (norm_index n) l
  | ISlice a b => Ok (seq (Nat.min a n) (Nat.min b n - Nat.min a n))
  end.
Definition nget (a : nd) (ix : index) : res nd :=
  match a with
  | Sc _ => Err IndexError
  | Ar rs l =>
      let* ps := positions (length l) ix in
      let* r := rows l ps in
      match ix, r with
      | IInt _, [x] => Ok x
      | _, _ => Ok (Ar rs r)
      end
  end.
(** [a[ix] = v]: all rows are converted before any is written (numpy may have written some). *)
Definition nset (k : akind) (a : nd) (ix : index) (v : nd) : res nd :=
  match a with
  | Sc _ => Err IndexError
  | Ar rs l =>
      let* ps := positions (length l) ix in
      let* v := broadcast (match ix with IInt _ => rs | _ => length ps :: rs end) v in
      let* v := nmap (conv k) v in
      let vs := match ix, v with IInt _, x => [x] | _, Ar _ xs => xs | _, Sc _ => [] end in
      Ok (Ar rs (fold_left (fun l px => upd l (fst px) (snd px)) (combine ps vs) l))
  end.
(** np.concatenate; np.stack(axis=0) (different shapes: ValueError). *)
Fixpoint nconcat (l : list nd) : res (list nat * list nd) :=
  match l with
  | [] => Err ValueError
  | [Ar rs x] => Ok (rs, x)
  | Ar rs x :: l =>
      let* r := nconcat l in
      if list_eq_dec Nat.eq_dec (fst r) rs then Ok (rs, x ++ snd r) else Err ValueError
  | Sc _ :: _ => Err ValueError
  end.
Definition nstack (l : list nd) : res nd :=
  match l with
  | [] => Err ValueError
  | x :: _ => if forallb (fun y => if list_eq_dec Nat.eq_dec (shape y) (shape x) then true else false) l then Ok (Ar (shape x) l) else Err ValueError
  end.

(** ** Batches *)
Inductive bval := Leaf (k : akind) (a : nd) | Node (l : list (string * bval)) | NoneV.
Fixpoint assoc {X} (k : string) (l : list (string * X)) : option X :=
  match l with [] => None | (k', x) :: l => if String.eqb k k' then Some x else assoc k l end.
Definition keys {X} (l : list (string * X)) : list string := map fst l.
Definition has_key {X} (k : string) (l : list (string * X)) : bool := existsb (String.eqb k) (keys l).
Definition is_reserved (b : bval) : bool := match b with Node [] => true | _ => false end.

(** __getitem__ (batch.py:722-746). *)
Fixpoint bget (b : bval) (ix : index) : res bval :=
  match b with
  | NoneV => Ok NoneV
  | Leaf k a => let* a := nget a ix in Ok (Leaf k a)
  | Node [] => Ok (Node [])
  | Node l => let* l := (fix go l := match l with [] => Ok [] | (k, x) :: l => let* x := bget x ix in let* l := go l in Ok ((k, x) :: l) end) l in Ok (Node l)
  end.
Definition bgetitem (b : bval) (ix : index) : res bval := match b with Node [] => Err IndexError | _ => bget b ix end.

(** __len__ (1171-1191). *)
Fixpoint blen (b : bval) : res nat :=
  match b with
  | Leaf _ (Ar _ l) => Ok (length l)
  | Leaf _ (Sc _) => Err TypeError
  | NoneV => Ok 0
  | Node l =>
      let* ls := (fix go l := match l with
        | [] => Ok []
        | (_, x) :: l =>
            match x with
            | NoneV => go l
            | Node _ => let* n := blen x in let* ns := go l in Ok (if n =? 0 then ns else n :: ns)
            | Leaf _ _ => let* n := blen x in let* ns := go l in Ok (n :: ns)
            end
        end) l in
      Ok (match ls with [] => 0 | n :: ns => fold_left Nat.min ns n end)
  end.

(** __setitem__ (777-801) with a parsed value: the new state, and the exception if one was raised
    (keys written before stay written).  An array assigned a Batch: TypeError (numpy's conversion
    of a Batch is not modelled). *)
Fixpoint bset (b : bval) (ix : index) (v : bval) {struct b} : bval * option exn :=
  match b with
  | NoneV => (b, Some TypeError)
  | Leaf k a =>
      match v with
      | Leaf _ x => match nset k a ix x with Ok a => (Leaf k a, None) | Err e => (b, Some e) end
      | NoneV => match nset k a ix (Sc (CO None)) with Ok a => (Leaf k a, None) | Err e => (b, Some e) end
      | Node _ => (b, Some TypeError)
      end
  | Node l =>
      match v with
      | Node lv =>
          if negb (forallb (fun k => has_key k l) (keys lv)) then (b, Some ValueError)
          else
            let '(l, e) := (fix go l := match l with
              | [] => ([], None)
              | (k, x) :: l =>
                  let '(x, e) := match assoc k lv with
                                 | Some w => bset x ix w
                                 | None => match x with
                                           | Node _ => bset x ix (Node [])
                                           | Leaf kd a => match nset kd a ix (Sc (zero kd)) with Ok a => (Leaf kd a, None) | Err e => (x, Some e) end
                                           | NoneV => (x, Some TypeError)
                                           end
                                 end in
                  match e with
                  | Some e => ((k, x) :: l, Some e)
                  | None => let '(l, e) := go l in ((k, x) :: l, e)
                  end
              end) l in
            (Node l, e)
      | _ => (b, Some ValueError)
      end
  end.

(** create_value (148-183). *)
Fixpoint create_value (v : bval) (size : nat) (stack : bool) : res bval :=
  match v with
  | Leaf k a =>
      if stack then Ok (Leaf k (nfull (size :: shape a) (zero k)))
      else match a with Sc _ => Err TypeError | Ar rs _ => Ok (Leaf k (nfull (size :: rs) (zero k))) end
  | NoneV => Ok (Leaf KObj (nfull [size] (CO None)))
  | Node l => let* l := (fix go l := match l with [] => Ok [] | (k, x) :: l => let* x := create_value x size stack in let* l := go l in Ok ((k, x) :: l) end) l in Ok (Node l)
  end.

(** Keys of a list of dicts, in order of first appearance. *)
Fixpoint dedup (l : list string) : list string :=
  match l with [] => [] | x :: l => x :: filter (fun y => negb (String.eqb x y)) (dedup l) end.
Definition items (b : bval) : list (string * bval) := match b with Node l => l | _ => [] end.
Definition all_keys (bs : list bval) : list string := dedup (flat_map (fun b => keys (items b)) bs).
(** The value at a key unless it is missing or an empty Batch. *)
Definition present (k : string) (b : bval) : option bval :=
  match assoc k (items b) with Some x => if is_reserved x then None else Some x | None => None end.
Fixpoint all_some {X} (l : list (option X)) : option (list X) :=
  match l with [] => Some [] | Some x :: l => option_map (cons x) (all_some l) | None :: _ => None end.
Definition is_node (b : bval) : bool := match b with Node _ => true | _ => false end.
Definition leaves (l : list bval) : option (list (akind * nd)) :=
  all_some (map (fun b => match b with Leaf k a => Some (k, a) | NoneV => Some (KObj, Sc (CO None)) | Node _ => None end) l).
Definition kjoins (l : list (akind * nd)) : akind := match l with [] => KObj | x :: l => fold_left (fun k y => kjoin k (fst y)) l (fst x) end.
Definition nmaps (k : akind) (l : list nd) : res (list nd) := mapM (nmap (conv k)) l.

(** A partial key (977-983, 1117-1125): [targets] gives for every batch the index range of its rows. *)
Fixpoint fill_partial (stack : bool) (total : nat) (cur : option bval) (l : list (index * option bval)) : res (option bval) :=
  match l with
  | [] => Ok cur
  | (_, None) :: l => fill_partial stack total cur l
  | (ix, Some v) :: l =>
      let* c := match cur with Some c => Ok c | None => create_value v total stack end in
      match bset c ix v with
      | (c, None) => fill_partial stack total (Some c) l
      | (_, Some e) => Err e
      end
  end.

(** __cat (916-983) into a dict [self] that holds [self0]. *)
Fixpoint slices (off : nat) (lens : list nat) : list index :=
  match lens with [] => [] | n :: lens => ISlice off (off + n) :: slices (off + n) lens end.
Fixpoint cat_keys (fuel : nat) (self0 : list (string * bval)) (bs : list bval) (lens : list nat) {struct fuel} : res (list (string * bval)) :=
  match fuel with
  | O => Err OutOfFuel
  | S fuel =>
      mapM (fun k =>
        let vals := map (present k) bs in
        match all_some vals with
        | Some vs =>
            if forallb is_node vs then let* l := cat_keys fuel [] vs lens in Ok (k, Node l)
            else match leaves vs with
                 | None => Err ValueError
                 | Some ls =>
                     let* r := nconcat (map snd ls) in
                     let* xs := nmaps (kjoins ls) (snd r) in
                     Ok (k, Leaf (kjoins ls) (Ar (fst r) xs))
                 end
        | None =>
            if forallb (fun v => match v with None => true | Some _ => false end) vals then Ok (k, Node [])
            else
              let* c := fill_partial false (fold_right Nat.add 0 lens) (assoc k self0) (combine (slices 0 lens) vals) in
              match c with Some c => Ok (k, c) | None => Err KeyError end
        end) (all_keys bs)
  end.
(** Keys of [self0] are all among those of the batches whenever self0 is used. *)

(** cat_ (985-1042). *)
Inductive skel := SNone | SNode (l : list (string * skel)).
Fixpoint skeleton (b : bval) : skel :=
  match b with
  | Node [] => SNone
  | Node l => SNode (map (fun kx => (fst kx, skeleton (snd kx))) l)
  | _ => SNone
  end.
Fixpoint same_skel (a b : skel) {struct a} : bool :=
  match a, b with
  | SNone, SNone => true
  | SNode l, SNode l' =>
      (length l =? length l') &&
      (fix go l := match l with
                   | [] => true
                   | (k, s) :: l => match assoc k l' with Some s' => same_skel s s' && go l | None => false end
                   end) l
  | _, _ => false
  end.
Fixpoint depth (b : bval) : nat :=
  match b with Node l => S (fold_right (fun kx m => Nat.max (depth (snd kx)) m) 0 l) | _ => 0 end.
Definition depths (bs : list bval) : nat := fold_right (fun b m => Nat.max (depth b) m) 0 bs.
Definition bcat_ (self : bval) (batches : list bval) : res bval :=
  let* n := blen self in
  let schema0 := if 0 <? n then Some (skeleton self) else None in
  let bl := filter (fun b => negb (is_reserved b)) batches in
  let schema := match schema0 with Some s => Some s | None => match bl with b :: _ => Some (skeleton b) | [] => None end end in
  if negb (forallb is_node batches) then Err ValueError
  else match schema with
  | None => Ok self
  | Some s =>
      if negb (forallb (fun b => same_skel s (skeleton b)) bl) then Err ValueError
      else match bl with
           | [] => Ok self
           | _ =>
               let* lens := match mapM blen bl with Err TypeError => Err ValueError | r => r end in
               let bs := if is_reserved self then bl else self :: bl in
               let lens := if is_reserved self then lens else n :: lens in
               let* l := cat_keys (depths bs) (items self) bs lens in
               Ok (Node l)
           end
  end.
Definition bcat (batches : list bval) : res bval := bcat_ (Node []) batches.

(** stack_ (1050-1125) with axis 0.  Arrays of different shapes become an object array of the
    arrays, which is not modelled (NotImplementedError), likewise a mix of arrays and batches. *)
Fixpoint stack_keys (fuel : nat) (self0 : list (string * bval)) (bs : list bval) {struct fuel} : res (list (string * bval)) :=
  match fuel with
  | O => Err OutOfFuel
  | S fuel =>
      mapM (fun k =>
        let vals := map (present k) bs in
        match all_some vals with
        | Some vs =>
            if forallb is_node vs then let* l := stack_keys fuel [] vs in Ok (k, Node l)
            else match leaves vs with
                 | None => Err NotImplementedError
                 | Some ls =>
                     match nstack (map snd ls) with
                     | Err _ => Err NotImplementedError
                     | Ok a => let* a := nmap (conv (kjoins ls)) a in Ok (k, Leaf (kjoins ls) a)
                     end
                 end
        | None =>
            if forallb (fun v => match v with None => true | Some _ => false end) vals then Ok (k, Node [])
            else
              let* c := fill_partial true (length bs) (assoc k self0) (combine (map (fun i => IInt (Z.of_nat i)) (seq 0 (length bs))) vals) in
              match c with Some c => Ok (k, c) | None => Err KeyError end
        end) (all_keys bs)
  end.
Definition bstack_ (self : bval) (batches : list bval) : res bval :=
  if negb (forallb is_node batches) then Err ValueError
  else
    let bl := filter (fun b => negb (is_reserved b)) batches in
    match bl with
    | [] => Ok self
    | _ =>
        let bs := if is_reserved self then bl else self :: bl in
        let* l := stack_keys (depths bs) (items self) bs in
        Ok (Node l)
    end.
Definition bstack (batches : list bval) : res bval := bstack_ (Node []) batches.

(** hasnull / dropnull (1309-1337): rows with a null anywhere (pd.isnull: nan or None, and a value
    that is None) are left out, the others concatenated after np.atleast_1d on every value. *)
Definition null_cell (c : cell) : bool := match c with CNan | CO None => true | _ => false end.
Fixpoint null_nd (a : nd) : bool := match a with Sc c => null_cell c | Ar _ l => existsb null_nd l end.
Fixpoint has_null (b : bval) : bool :=
  match b with Leaf _ a => null_nd a | NoneV => true | Node l => existsb (fun kx => has_null (snd kx)) l end.
Fixpoint atleast_1d (b : bval) : bval :=
  match b with
  | Leaf k (Sc c) => Leaf k (Ar [] [Sc c])
  | Leaf k a => Leaf k a
  | NoneV => Leaf KObj (Ar [] [Sc (CO None)])
  | Node l => Node (map (fun kx => (fst kx, atleast_1d (snd kx))) l)
  end.
Definition dropnull (b : bval) : res bval :=
  let* rs := match b with
             | Node [] => Ok []
             | _ => let* n := blen b in mapM (fun i => bgetitem b (IInt (Z.of_nat i))) (seq 0 n)
             end in
  bcat (map atleast_1d (filter (fun r => negb (has_null r)) rs)).
