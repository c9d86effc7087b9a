(** * Properties C41, C42: action wrappers *)
From Verif Require Import Py Num WrapModel WrapProofs.
Open Scope nat_scope.

(** C41.  Every discrete action below prod(nvec) gives a point of the product space, the one
    whose mixed-radix value is the action. *)
Theorem C41_decode : forall nvec act, (forall n, In n nvec -> 0 < n) -> act < md_size nvec ->
  length (md_action nvec act) = length nvec
  /\ (forall i n d, nth_error nvec i = Some n -> nth_error (md_action nvec act) i = Some d -> d < n)
  /\ radix_value nvec (md_action nvec act) = act.
Proof. exact C41_decode_lemma. Qed.
Print Assumptions C41_decode.

(** C41.  Every point of the product space is reached, by the action that is its mixed-radix
    value; with C41_decode: the map is a bijection. *)
Theorem C41_encode : forall nvec digits, length digits = length nvec ->
  (forall i n d, nth_error nvec i = Some n -> nth_error digits i = Some d -> d < n) ->
  radix_value nvec digits < md_size nvec /\ md_action nvec (radix_value nvec digits) = digits.
Proof. exact C41_encode_lemma. Qed.
Print Assumptions C41_encode.

(** C42.  Actions that are neither a vector nor a matrix are refused. *)
Theorem C42_dimensions : forall low high p c, cd_init low high p = Ok c -> cd_action c AOther = Err AssertionError.
Proof. exact C42_dimensions_lemma. Qed.
Print Assumptions C42_dimensions.

(** C42.  Every action of the MultiDiscrete space is mapped to a point of the Box; index 0 is
    low, the last index high (if the dimension has at least two points), and the points are
    equally spaced in between (so strictly increasing when low < high). *)
Theorem C42_mesh : forall low high p c acts, length high = length low -> cd_init low high p = Ok c ->
  (forall j lo hi, nth_error low j = Some lo -> nth_error high j = Some hi -> (lo <= hi)%Qc) ->
  (forall act, In act acts -> length act = length (cd_space c)
     /\ forall j a n, nth_error act j = Some a -> nth_error (cd_space c) j = Some n -> a < n) ->
  length (cd_space c) = length low
  /\ exists r, cd_action c (A2 (map (map Z.of_nat) acts)) = Ok r /\ length r = length acts
     /\ (forall act, acts = [act] -> cd_action c (A1 (map Z.of_nat act)) = Ok r)
     /\ forall i act row, nth_error acts i = Some act -> nth_error r i = Some row -> length row = length low
        /\ forall j a n lo hi, nth_error act j = Some a -> nth_error (cd_space c) j = Some n ->
             nth_error low j = Some lo -> nth_error high j = Some hi ->
             exists x, nth_error row j = Some x /\ (lo <= x)%Qc /\ (x <= hi)%Qc
               /\ (a = 0 -> x = lo) /\ (1 < n -> S a = n -> x = hi)
               /\ (x = lo + (hi - lo) * (nq a / nq (n - 1)))%Qc.
Proof. exact C42_mesh_lemma. Qed.
Print Assumptions C42_mesh.

(** C42.  Strict monotonicity of the points. *)
Theorem C42_increasing : forall lo hi n a b x y, (lo < hi)%Qc -> a < b ->
  nth_error (linspace lo hi n) a = Some x -> nth_error (linspace lo hi n) b = Some y -> (x < y)%Qc.
Proof. exact C42_increasing_lemma. Qed.
Print Assumptions C42_increasing.

Example C41_ex : md_bases [2; 3; 4] = [1; 4; 12] /\ md_size [2; 3; 4] = 24 /\ map (md_action [2; 3; 4]) [0; 5; 23] = [[0; 0; 0]; [0; 1; 1]; [1; 2; 3]].
Proof. repeat split. Qed.
Example C41_ex_encode : radix_value [2; 3; 4] [1; 2; 3] = 23.
Proof. reflexivity. Qed.
Example C42_ex : exists c a b d e, cd_init [Q2Qc (-1); 0%Qc] [1%Qc; Q2Qc 8] (PList [3; 5]) = Ok c /\ cd_space c = [3; 5]
  /\ cd_action c (A2 [[0; 1]; [2; 4]]%Z) = Ok [[a; b]; [d; e]] /\ map this [a; b; d; e] = [-1 # 1; 2 # 1; 1 # 1; 8 # 1]%Q.
Proof. do 5 eexists. split; [reflexivity|]. split; [reflexivity|]. split; [reflexivity|]. vm_compute. reflexivity. Qed.
Example C42_ex_one : cd_init [0%Qc] [1%Qc] (PInt 1) = Ok (mkCD [1] [[0%Qc]]).
Proof. reflexivity. Qed.
