(** Property C95: the circuit parameters are not bound to the computation
    (draft-irtf-cfrg-vdaf.md:6279-6285). *)
From Verif Require Import ConfuseSpec ConfuseFacts ConfuseInst Prio3Inst FlpSpec FlpInstances Circuits CircuitSpec CircuitInstances.
Open Scope nat_scope.

(** C95.  The Clients run Prio3SumVec with one length and maximum, the
    Aggregators with others for which encoded measurements have the same size:
    no report is rejected, and the result is that of the misread measurements. *)
Theorem C95_sumvec : forall (P : NttFieldClass), NttOk P -> wf_field P ->
  forall (ID : Z) (ts : TurboShake) (bound shares proofs : nat), (0 <= ID < 2 ^ 32)%Z ->
  2 <= shares < 256 -> (Z.of_nat shares < MODULUS P)%Z -> proofs < 256 ->
  forall (key ctx : bytes), ctx_ok ctx -> length key = 32 ->
  forall len max len' max' chunk, 1 <= len -> 1 <= len' -> 1 <= chunk -> (0 < max)%Z -> (0 < max')%Z ->
  (2 ^ Z.of_nat (bit_length max) < MODULUS P)%Z -> (2 ^ Z.of_nat (bit_length max') < MODULUS P)%Z ->
  len * bit_length max = len' * bit_length max' ->
  fits P (ParallelSum Mul chunk) (SumVec_calls len' (bit_length max') chunk) ->
  let client := prio3_obj P ID (SumVec P len max chunk) ts bound shares proofs in
  let aggregators := prio3_obj P ID (SumVec P len' max' chunk) ts bound shares proofs in
  forall reports : list (list Z * bytes * bytes), sizes_ok aggregators reports ->
  Forall (fun m => length m = len /\ Forall (fun x => 0 <= x <= max)%Z m) (map meas_of reports) ->
  outcome aggregators (test_points_ok (SumVec P len' max' chunk)) (p3_shard client) key ctx reports
    (Ok (map (fun x => x mod MODULUS P)%Z (col_totals len' (map (misread (SumVec P len max chunk) len' max') (map meas_of reports))))).
Proof.
  intros P HP HW ID ts bound shares proofs HID Hs HsM Hpr key ctx Hc Hk len max len' max' chunk H1 H2 H3 H4 H5 H6 H7 H8 H9 client aggregators reports.
  exact (confused_sumvec P HP HW ID HID ts bound shares proofs Hs HsM Hpr key ctx Hc Hk len max len' max' chunk reports H1 H2 H3 H4 H5 H6 H7 H8 H9).
Qed.
Print Assumptions C95_sumvec.

(** C95.  What they read: integers in their own range; when both maxima are one
    less than a power of two, the digits in the other base of the same number. *)
Theorem C95_misread : forall (P : NttFieldClass), NttOk P ->
  forall len max len' max' chunk, 1 <= len -> 1 <= len' -> 1 <= chunk -> (0 < max)%Z -> (0 < max')%Z ->
  (2 ^ Z.of_nat (bit_length max) < MODULUS P)%Z -> (2 ^ Z.of_nat (bit_length max') < MODULUS P)%Z ->
  len * bit_length max = len' * bit_length max' ->
  forall m, length m = len -> Forall (fun x => 0 <= x <= max)%Z m ->
  let m' := misread (SumVec P len max chunk) len' max' m in
  length m' = len' /\ Forall (fun x => 0 <= x <= max')%Z m' /\
  (forall b b', max = (2 ^ Z.of_nat b - 1)%Z -> max' = (2 ^ Z.of_nat b' - 1)%Z -> number b' m' = number b m) /\
  (len' = len -> m' = map (shifted max max') m).
Proof.
  intros P HP len max len' max' chunk H1 H2 H3 H4 H5 H6 H7 H8 m L R m'.
  destruct (misread_spec P HP len len' max max' chunk H1 H2 H3 H4 H5 H6 H7 H8 m L R) as (enc & _ & _ & _ & _ & A & B).
  split; [exact A|]. split; [exact B|]. split.
  - intros b b' E E'. exact (misread_number P HP len len' max max' chunk H1 H2 H3 H4 H5 H6 H7 H8 b b' m E E' L R).
  - intros E. apply (misread_shifted P HP len len' max max' chunk H1 H2 H3 H4 H5 H6 H7 H8 m E); [|exact L | exact R]. nia.
Qed.
Print Assumptions C95_misread.

(** C95.  Digits determine: two vectors of digits of the same length that stand
    for the same number are the same. *)
Theorem C95_digits : forall b (m m' : list Z), length m = length m' ->
  Forall (fun x => 0 <= x < 2 ^ Z.of_nat b)%Z m -> Forall (fun x => 0 <= x < 2 ^ Z.of_nat b)%Z m' ->
  number b m = number b m' -> m = m'.
Proof.
  intros b. induction m as [|x m IH]; intros [|x' m'] L H H'; try discriminate; [reflexivity|]. cbn [number fold_right]. fold (number b m) (number b m').
  inversion_clear H as [|? ? H1 H2]. inversion_clear H' as [|? ? H1' H2']. intros E.
  assert (Ex : x = x').
  { rewrite <- (Z.mod_small x _ H1), <- (Z.mod_small x' _ H1'). rewrite <- (Z_mod_plus_full x (number b m)), <- (Z_mod_plus_full x' (number b m')).
    f_equal. lia. }
  subst x'. f_equal. apply IH; try assumption; [now injection L|]. nia.
Qed.
Print Assumptions C95_digits.

(** C95.  The same for Prio3Sum with maxima of as many bits: small measurements
    are read correctly, those from the highest power of two are shifted by the
    difference of the maxima. *)
Theorem C95_sum : forall (P : NttFieldClass), NttOk P -> wf_field P ->
  forall (ID : Z) (ts : TurboShake) (bound shares proofs : nat), (0 <= ID < 2 ^ 32)%Z ->
  2 <= shares < 256 -> (Z.of_nat shares < MODULUS P)%Z -> proofs < 256 ->
  forall (key ctx : bytes), ctx_ok ctx -> length key = 32 ->
  forall max max', (0 < max)%Z -> (0 < max')%Z -> (2 ^ Z.of_nat (bit_length max') < MODULUS P)%Z ->
  bit_length max = bit_length max' -> fits P (Sum_gadget (bit_length max')) (bit_length max') ->
  let client := prio3_obj P ID (Sum P max) ts bound shares proofs in
  let aggregators := prio3_obj P ID (Sum P max') ts bound shares proofs in
  forall reports : list (Z * bytes * bytes), sizes_ok aggregators reports -> Forall (fun m => 0 <= m <= max)%Z (map meas_of reports) ->
  outcome aggregators (test_points_ok (Sum P max')) (p3_shard client) key ctx reports
    (Ok (zsuml (map (shifted max max') (map meas_of reports)) mod MODULUS P)%Z).
Proof.
  intros P HP HW ID ts bound shares proofs HID Hs HsM Hpr key ctx Hc Hk max max' H1 H2 H3 H4 H5 client aggregators reports.
  exact (confused_sum P HP HW ID HID ts bound shares proofs Hs HsM Hpr key ctx Hc Hk max max' reports H1 H2 H3 H4 H5).
Qed.
Print Assumptions C95_sum.

(** A Client measures [77; 3] with maximum 255, and the Aggregators expect four
    numbers of at most 15: they read the hexadecimal digits.  The measurement 5
    with maximum 5 is read as 7 by Aggregators whose maximum is 7. *)
Definition toy_ts : TurboShake := fun m _ i => nth (i * i mod 97) (m ++ zeros 97) x07.
Definition C95_outcome := Eval vm_compute in
  run_vdaf (with_clients (Prio3Vdaf (prio3_obj Field128 3 (SumVec Field128 4 15 4) toy_ts 50 2 1)) (list Z)
    (p3_shard (prio3_obj Field128 3 (SumVec Field128 2 255 4) toy_ts 50 2 1))) (repeat x05 32) tt [x01]
    [([77; 3]%Z, zeros 16, repeat x09 128)].
Example C95_example : C95_outcome = Ok [13; 4; 3; 0]%Z /\ sizes_ok (prio3_obj Field128 3 (SumVec Field128 4 15 4) toy_ts 50 2 1)
    [([77; 3]%Z, zeros 16, repeat x09 128)] /\
  2 * bit_length 255 = 4 * bit_length 15 /\ fits Field128 (ParallelSum Mul 4) (SumVec_calls 4 (bit_length 15) 4).
Proof.
  split; [reflexivity|]. split; [constructor; [split; reflexivity | constructor]|]. split; [reflexivity|]. vm_compute. discriminate.
Qed.
Definition C95_sum_outcome := Eval vm_compute in
  run_vdaf (with_clients (Prio3Vdaf (prio3_obj Field64 2 (Sum Field64 7) toy_ts 50 2 1)) Z
    (p3_shard (prio3_obj Field64 2 (Sum Field64 5) toy_ts 50 2 1))) (repeat x05 32) tt [x01]
    [(5%Z, zeros 16, repeat x09 64); (2%Z, zeros 16, repeat x08 64)].
Example C95_example_sum : C95_sum_outcome = Ok 9%Z /\ shifted 5 7 5 = 7%Z /\ shifted 5 7 2 = 2%Z.
Proof. split; [reflexivity|]. split; reflexivity. Qed.
