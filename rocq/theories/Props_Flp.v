(** Properties C14 and C20-C27: secret sharing, gadgets, validity circuits and
    the fully linear proof system (flp.py, flp_bbcggi19.py). *)
From Verif Require Import FlpPropProofs FlpInstances FlpProofs FlpFacts MeasFacts CircuitInstances RangeInt VecFacts
  FlpSpec CircuitSpec Circuits Flp FlpBBCGGI19 Field Spec Roots.
Open Scope nat_scope.

(** C14.  additive_secret_share returns one share more than the vectors drawn:
    these vectors, and one more that makes all shares add up to [vec]. *)
Theorem C14_share_reconstruct : forall (P : FieldClass) (vec : list (F P)) (rands shares : list (list (F P))),
  Forall (fun r => length r = length vec) rands ->
  (additive_secret_share vec rands = Ok shares <->
   exists last, shares = rands ++ [last] /\ length last = length vec /\ vsum (length vec) shares = vec).
Proof. exact @share_iff. Qed.
Print Assumptions C14_share_reconstruct.

(** C14.  Hiding: for any position [j] of the unseen share, any values of all
    the other shares and any secret, exactly one choice of the random draws
    yields these other shares. *)
Theorem C14_share_hiding : forall (P : FieldClass) (vec : list (F P)) (others : list (list (F P))) (j : nat),
  Forall (fun r => length r = length vec) others -> j <= length others ->
  exists rands, Forall (fun r => length r = length vec) rands /\
    length rands = length others /\
    (exists s, additive_secret_share vec rands = Ok s /\ others = firstn j s ++ skipn (S j) s) /\
    forall rands', Forall (fun r => length r = length vec) rands' ->
      length rands' = length others ->
      (exists s, additive_secret_share vec rands' = Ok s /\ others = firstn j s ++ skipn (S j) s) ->
      rands' = rands.
Proof. exact @share_hiding. Qed.
Print Assumptions C14_share_hiding.

Example C14_example :
  additive_secret_share (map fof [5; 6]%Z : list (F Field64)) [map fof [1; 2]%Z; map fof [7; 7]%Z]
  = Ok [map fof [1; 2]%Z; map fof [7; 7]%Z; map fof [-3; -3]%Z].
Proof. vm_compute. reflexivity. Qed.

(** C20.  Range-checked integers: encoding then decoding. *)
Theorem C20_encode_decode : forall (P : FieldClass) (max v : Z), (0 < max < MODULUS P)%Z -> (0 <= v <= max)%Z ->
  exists e : list (F P), encode_range_checked_int v max = Ok e /\ length e = bit_length max /\
    Forall is_bit e /\ decode_range_checked_int e max = Ok (fof v).
Proof. exact @rc_encode_decode. Qed.
Print Assumptions C20_encode_decode.

(** C20.  Every 0/1 vector decodes to an integer in [0, max]. *)
Theorem C20_decode_range : forall (P : FieldClass) (max : Z) (e : list (F P)), (0 < max < MODULUS P)%Z ->
  length e = bit_length max -> Forall is_bit e ->
  exists x, decode_range_checked_int e max = Ok (fof x) /\ (0 <= x <= max)%Z.
Proof. exact @rc_decode_range. Qed.
Print Assumptions C20_decode_range.

Theorem C20_decode_linear : forall (P : FieldClass) (max : Z) (a b : list (F P)) (k : F P), (0 < max < MODULUS P)%Z ->
  length a = bit_length max -> length b = bit_length max ->
  exists x y, decode_range_checked_int a max = Ok x /\ decode_range_checked_int b max = Ok y /\
    decode_range_checked_int (zip_with fadd a b) max = Ok (fadd x y) /\
    decode_range_checked_int (map (fmul k) a) max = Ok (fmul k x).
Proof. exact @rc_decode_linear. Qed.
Print Assumptions C20_decode_linear.

Theorem C20_too_large : forall (P : FieldClass) (max v : Z), (max < v)%Z ->
  encode_range_checked_int v max = Raise (ValueError "measurement is too large") :> res (list (F P)).
Proof. exact @encode_rc_too_large. Qed.
Print Assumptions C20_too_large.

Theorem C20_decode_short : forall (P : FieldClass) (max : Z) (e : list (F P)), (0 < max < MODULUS P)%Z ->
  length e < bit_length max -> decode_range_checked_int e max = Raise IndexError.
Proof. exact @rc_decode_short. Qed.
Print Assumptions C20_decode_short.

Example C20_example :
  match encode_range_checked_int 1000 1337 : res (list (F Field64)) with
  | Ok e => map val e = [0; 0; 0; 1; 0; 1; 1; 1; 1; 1; 0]%Z /\ decode_range_checked_int e 1337 = Ok (fof 1000)
  | Raise _ => False
  end.
Proof. vm_compute. auto. Qed.

(** C21.  eval_poly on the values of the wire polynomials [cs] returns the
    values, at the larger root set, of a polynomial of degree at most
    DEGREE * (p - 1), which at every point [x] is what eval returns on the wire
    values at [x]. *)
Theorem C21_gadget_eval_poly : forall P : NttFieldClass, NttOk P ->
  forall (L : nat) (g : gadget) (cs : list (list (F P))), 1 <= L -> gwf P L g ->
  (Z.of_nat (np2 (gadget_poly_len (DEGREE g) (2 ^ L))) <= GEN_ORDER P)%Z ->
  length cs = ARITY g -> (forall c, In c cs -> length c = 2 ^ L) ->
  exists c M, np2 (gadget_poly_len (DEGREE g) (2 ^ L)) = 2 ^ M /\ length c <= DEGREE g * (2 ^ L - 1) + 1 /\
    gadget_eval_poly g (map (evals L) cs) = Ok (evals M c) /\
    forall x, gadget_eval g (map (fun w => peval w x) cs) = Ok (peval c x).
Proof. exact @gadget_commutes. Qed.
Print Assumptions C21_gadget_eval_poly.

(** C21.  PolyEval gadgets returned by the constructor meet the hypothesis, and
    evaluate the given integer polynomial. *)
Theorem C21_PolyEval_init : forall P : NttFieldClass, NttOk P -> forall (p : list Z) (calls : nat),
  Forall (fun c => - MODULUS P < c < MODULUS P)%Z p ->
  (exists i, 1 <= i < length p /\ nth i p 0%Z <> 0%Z) ->
  exists g, PolyEval_init p calls = Ok g /\ gwf P (wlog calls) g /\ ARITY g = 1 /\
    forall x : F P, gadget_eval g [x] = Ok (peval (map fof p) x).
Proof. exact @PolyEval_init_ok. Qed.
Print Assumptions C21_PolyEval_init.

Example C21_example : gwf Field64 2 (ParallelSum (ParallelSum Mul 3) 2).
Proof. cbn. lia. Qed.

(** C22.  The constructors accept exactly these parameters. *)
Theorem C22_constructors : forall P : NttFieldClass,
  (forall len chunk v, Histogram_init P len chunk = Ok v <->
     (0 < len)%Z /\ (0 < chunk)%Z /\ v = Histogram P (Z.to_nat len) (Z.to_nat chunk)) /\
  (forall len mw chunk v, MultihotCountVec_init P len mw chunk = Ok v <->
     (0 < len < MODULUS P)%Z /\ (0 < mw <= len)%Z /\ (mw < MODULUS P)%Z /\ (0 < chunk)%Z /\
     v = MultihotCountVec P (Z.to_nat len) (Z.to_nat mw) (Z.to_nat chunk)) /\
  (forall len max chunk v, SumVec_init P len max chunk = Ok v <->
     (0 < len)%Z /\ (0 < chunk)%Z /\ (0 < max)%Z /\ (2 ^ Z.of_nat (bit_length max) < MODULUS P)%Z /\
     v = SumVec P (Z.to_nat len) max (Z.to_nat chunk)) /\
  (forall max v, Sum_init P max = Ok v <->
     (2 ^ Z.of_nat (bit_length max) < MODULUS P)%Z /\ v = Sum P max).
Proof.
  exact (fun P => conj Histogram_init_Ok (conj MultihotCountVec_init_Ok (conj SumVec_init_Ok Sum_init_Ok))).
Qed.
Print Assumptions C22_constructors.

(** C22.  Count. *)
Theorem C22_Count : forall P : NttFieldClass, NttOk P ->
  (forall m, (m = 0 \/ m = 1)%Z ->
     valid_encode (Count P) m = Ok [fof m] /\ accepts (Count P) [fof m] /\
     valid_truncate (Count P) [fof m] = Ok [fof m]) /\
  (forall m, (m <> 0 -> m <> 1 -> valid_encode (Count P) m = Raise (ValueError "measurement out of range"))%Z).
Proof. exact (fun P HP => conj (Count_encode HP) Count_encode_bad). Qed.
Print Assumptions C22_Count.

(** C22.  Histogram: bucket [m] is encoded as the [m]-th unit vector. *)
Theorem C22_Histogram : forall P : NttFieldClass, NttOk P -> forall len chunk : nat, 1 <= len -> 1 <= chunk ->
  (forall m, (0 <= m < Z.of_nat len)%Z ->
     valid_encode (Histogram P len chunk) m = Ok (onehot len (Z.to_nat m)) /\
     accepts (Histogram P len chunk) (onehot len (Z.to_nat m)) /\
     valid_truncate (Histogram P len chunk) (onehot len (Z.to_nat m)) = Ok (onehot len (Z.to_nat m))) /\
  (forall m, (Z.of_nat len <= m \/ m < - Z.of_nat len)%Z ->
     valid_encode (Histogram P len chunk) m = Raise IndexError) /\
  (* negative indices count from the end *)
  (forall m, (- Z.of_nat len <= m < 0)%Z ->
     valid_encode (Histogram P len chunk) m = Ok (onehot len (Z.to_nat (Z.of_nat len + m)))).
Proof.
  exact (fun P HP len chunk Hl Hc => conj (Histogram_encode HP len chunk Hl Hc)
    (conj (Histogram_encode_bad len chunk Hl Hc) (Histogram_encode_negative len chunk Hl Hc))).
Qed.
Print Assumptions C22_Histogram.

(** C22.  Sum. *)
Theorem C22_Sum : forall P : NttFieldClass, NttOk P -> forall max : Z,
  (0 < max)%Z -> (2 ^ Z.of_nat (bit_length max) < MODULUS P)%Z ->
  (forall m, (0 <= m <= max)%Z ->
     exists enc, valid_encode (Sum P max) m = Ok enc /\ length enc = vMEAS_LEN (Sum P max) /\
       accepts (Sum P max) enc /\ valid_truncate (Sum P max) enc = Ok [fof m]) /\
  (forall m, (max < m)%Z -> valid_encode (Sum P max) m = Raise (ValueError "measurement is too large")) /\
  (* negative measurements are accepted and reduced *)
  (forall m, (m < 0)%Z ->
     exists enc, valid_encode (Sum P max) m = Ok enc /\ accepts (Sum P max) enc /\
       valid_truncate (Sum P max) enc = Ok [fof (m mod 2 ^ Z.of_nat (bit_length max - 1))]).
Proof.
  exact (fun P HP max H1 H2 => conj (Sum_encode HP max H1 H2)
    (conj (Sum_encode_bad max) (Sum_encode_negative HP max H1 H2))).
Qed.
Print Assumptions C22_Sum.

(** C22.  SumVec. *)
Theorem C22_SumVec : forall P : NttFieldClass, NttOk P -> forall (len : nat) (max : Z) (chunk : nat),
  1 <= len -> 1 <= chunk -> (0 < max)%Z -> (2 ^ Z.of_nat (bit_length max) < MODULUS P)%Z ->
  (forall ms, length ms = len -> Forall (fun m => 0 <= m <= max)%Z ms ->
     exists enc, valid_encode (SumVec P len max chunk) ms = Ok enc /\
       length enc = vMEAS_LEN (SumVec P len max chunk) /\ accepts (SumVec P len max chunk) enc /\
       valid_truncate (SumVec P len max chunk) enc = Ok (map fof ms)) /\
  (forall ms, length ms <> len \/ ~ Forall (fun m => 0 <= m <= max)%Z ms ->
     exists msg, valid_encode (SumVec P len max chunk) ms = Raise (ValueError msg)).
Proof.
  exact (fun P HP len max chunk Hl Hc H1 H2 => conj (SumVec_encode HP len max chunk Hl Hc H1 H2)
    (SumVec_encode_bad HP len max chunk H1)).
Qed.
Print Assumptions C22_SumVec.

(** C22.  MultihotCountVec. *)
Theorem C22_MultihotCountVec : forall P : NttFieldClass, NttOk P -> forall len mw chunk : nat,
  1 <= len -> 1 <= mw -> (Z.of_nat mw < MODULUS P)%Z -> 1 <= chunk ->
  (forall bs, length bs = len -> (weight bs <= Z.of_nat mw)%Z ->
     exists enc, valid_encode (MultihotCountVec P len mw chunk) bs = Ok enc /\
       length enc = vMEAS_LEN (MultihotCountVec P len mw chunk) /\
       accepts (MultihotCountVec P len mw chunk) enc /\
       valid_truncate (MultihotCountVec P len mw chunk) enc = Ok (bool_vec bs)) /\
  (forall bs, length bs <> len \/ (Z.of_nat mw < weight bs)%Z ->
     exists msg, valid_encode (MultihotCountVec P len mw chunk) bs = Raise (ValueError msg)).
Proof.
  exact (fun P HP len mw chunk H0 H1 H2 H3 => conj (MultihotCountVec_encode HP len mw chunk H0 H1 H2 H3)
    (MultihotCountVec_encode_bad HP len mw chunk H0 H1 H3)).
Qed.
Print Assumptions C22_MultihotCountVec.

(** C22.  "encode rejects every measurement outside the declared range" is
    false: Histogram accepts -1 and Sum accepts -1. *)
Theorem C22_encode_rejects_refuted :
  (exists enc : list (F Field128), valid_encode (Histogram Field128 4 2) (-1)%Z = Ok enc) /\
  (exists enc : list (F Field64), valid_encode (Sum Field64 255) (-1)%Z = Ok enc).
Proof. split; eexists; vm_compute; reflexivity. Qed.
Print Assumptions C22_encode_rejects_refuted.

(** C23.  Count and Sum accept exactly the 0/1 vectors. *)
Theorem C23_Count_rejects : forall P : NttFieldClass, NttOk P -> forall meas joint_rand : list (F P),
  length meas = 1 -> length joint_rand = 0 ->
  (accepts_with (Count P) meas joint_rand <-> Forall is_bit meas).
Proof. exact @Count_reject. Qed.
Print Assumptions C23_Count_rejects.

Theorem C23_Sum_rejects : forall P : NttFieldClass, NttOk P -> forall max : Z,
  (0 < max)%Z -> (2 ^ Z.of_nat (bit_length max) < MODULUS P)%Z -> forall meas joint_rand : list (F P),
  length meas = bit_length max -> length joint_rand = 0 ->
  (accepts_with (Sum P max) meas joint_rand <-> Forall is_bit meas) /\
  (Forall is_bit meas -> exists x, valid_truncate (Sum P max) meas = Ok [fof x] /\ (0 <= x <= max)%Z).
Proof.
  exact (fun P HP max H1 H2 meas jr Hm Hj => conj (Sum_reject HP max meas jr Hm Hj)
    (Sum_truncate_range HP max H1 H2 meas Hm)).
Qed.
Print Assumptions C23_Sum_rejects.

(** C23.  If the vector is not an encoding, then among all joint randomness
    vectors at most chunk_length * |F|^(JOINT_RAND_LEN - 1), i.e. a fraction of
    chunk_length / |F|, make the circuit accept.  Here [Q] is any set of
    accepted joint randomness. *)
Theorem C23_Histogram_rejects : forall P : NttFieldClass, NttOk P -> forall len chunk : nat,
  1 <= len -> 1 <= chunk -> (Z.of_nat len < MODULUS P)%Z ->
  forall (meas : list (F P)) (Q : list (list (F P))), length meas = len ->
  (forall m, m < len -> meas <> onehot len m) -> NoDup Q ->
  (forall joint_rand, In joint_rand Q -> accepts_with (Histogram P len chunk) meas joint_rand) ->
  (Z.of_nat (length Q) <=
   Z.of_nat chunk * MODULUS P ^ (Z.of_nat (vJOINT_RAND_LEN (Histogram P len chunk)) - 1))%Z.
Proof. exact (fun P HP len chunk H1 H2 H3 meas Q H4 => Histogram_reject HP len chunk H1 H2 meas Q H4 H3). Qed.
Print Assumptions C23_Histogram_rejects.

Theorem C23_SumVec_rejects : forall P : NttFieldClass, NttOk P -> forall (len : nat) (max : Z) (chunk : nat),
  1 <= len -> 1 <= chunk -> (0 < max)%Z -> (2 ^ Z.of_nat (bit_length max) < MODULUS P)%Z ->
  forall meas : list (F P), length meas = len * bit_length max ->
  (forall Q : list (list (F P)), ~ Forall is_bit meas -> NoDup Q ->
   (forall joint_rand, In joint_rand Q -> accepts_with (SumVec P len max chunk) meas joint_rand) ->
   (Z.of_nat (length Q) <=
    Z.of_nat chunk * MODULUS P ^ (Z.of_nat (vJOINT_RAND_LEN (SumVec P len max chunk)) - 1))%Z) /\
  (Forall is_bit meas -> exists xs, valid_truncate (SumVec P len max chunk) meas = Ok (map fof xs) /\
     length xs = len /\ Forall (fun x => 0 <= x <= max)%Z xs).
Proof.
  exact (fun P HP len max chunk H1 H2 H3 H4 meas Hm => conj
    (fun Q => SumVec_reject HP len max chunk H1 H2 H3 meas Q Hm)
    (SumVec_truncate_range HP len max chunk H1 H2 H3 H4 meas Hm)).
Qed.
Print Assumptions C23_SumVec_rejects.

Theorem C23_MultihotCountVec_rejects : forall P : NttFieldClass, NttOk P -> forall len mw chunk : nat,
  1 <= len -> 1 <= mw -> (Z.of_nat len < MODULUS P)%Z -> (Z.of_nat mw < MODULUS P)%Z -> 1 <= chunk ->
  forall meas : list (F P), length meas = vMEAS_LEN (MultihotCountVec P len mw chunk) ->
  (forall Q : list (list (F P)), ~ multihot_valid len mw meas -> NoDup Q ->
   (forall joint_rand, In joint_rand Q -> accepts_with (MultihotCountVec P len mw chunk) meas joint_rand) ->
   (Z.of_nat (length Q) <=
    Z.of_nat chunk * MODULUS P ^ (Z.of_nat (vJOINT_RAND_LEN (MultihotCountVec P len mw chunk)) - 1))%Z) /\
  (multihot_valid len mw meas ->
   exists bs, valid_truncate (MultihotCountVec P len mw chunk) meas = Ok (bool_vec bs) /\
     length bs = len /\ (weight bs <= Z.of_nat mw)%Z).
Proof.
  exact (fun P HP len mw chunk H1 H2 H3 H4 H5 meas Hm => conj
    (fun Q => MultihotCountVec_reject HP len mw chunk H1 H2 H3 H4 H5 meas Q Hm)
    (MultihotCountVec_truncate_range HP len mw chunk H1 H2 H5 meas Hm)).
Qed.
Print Assumptions C23_MultihotCountVec_rejects.

Example C23_example : (forall m, m < 3 -> (map fof [1; 1; 0]%Z : list (F Field128)) <> onehot 3 m) /\
  ~ Forall is_bit (map fof [2; 1]%Z : list (F Field128)).
Proof.
  split.
  - intros m Hm. destruct m as [|[|[|m]]]; [vm_compute; discriminate .. | lia].
  - intros H. inversion_clear H as [|? ? H1 _]. destruct H1 as [H1|H1]; apply (f_equal val) in H1; vm_compute in H1; discriminate.
Qed.

(** C24.  The circuits returned by the constructors, over a field with enough
    roots of unity, meet the assumption of the FLP theorems. *)
Theorem C24_circuits_ok : forall P : NttFieldClass, NttOk P -> forall v : Valid P, std_circuit P v ->
  ValidOk v /\ truncate_linear v.
Proof. exact @std_ok. Qed.
Print Assumptions C24_circuits_ok.

(** C24.  FLP completeness, for any number of shares. *)
Theorem C24_run_flp_complete : forall P : NttFieldClass, NttOk P -> forall v : Valid P, ValidOk v ->
  forall (meas joint_rand prove_rand query_rand : list (F P)) (meas_rands proof_rands : list (list (F P))),
  length meas = vMEAS_LEN v -> length prove_rand = prove_rand_len v -> length joint_rand = vJOINT_RAND_LEN v ->
  length query_rand = query_rand_len v -> circuit_zero v meas joint_rand ->
  length meas_rands = length proof_rands ->
  Forall (fun r => length r = vMEAS_LEN v) meas_rands -> Forall (fun r => length r = proof_len v) proof_rands ->
  (Z.of_nat (S (length meas_rands)) < MODULUS P)%Z -> 
  (test_points_ok v query_rand ->
   run_flp (FlpBBCGGI19 v) meas joint_rand prove_rand query_rand (S (length meas_rands)) meas_rands proof_rands
   = Ok true) /\
  (~ test_points_ok v query_rand ->
   run_flp (FlpBBCGGI19 v) meas joint_rand prove_rand query_rand (S (length meas_rands)) meas_rands proof_rands
   = Raise (ValueError "test point is a root of unity")).
Proof. exact @run_flp_complete. Qed.
Print Assumptions C24_run_flp_complete.

Example C24_example : std_circuit Field64 (Count Field64) /\
  (exists v, Histogram_init Field128 10 3 = Ok v /\ std_circuit Field128 v) /\
  (exists v, MultihotCountVec_init Field128 10 3 4 = Ok v /\ std_circuit Field128 v) /\
  (exists v, SumVec_init Field128 10 255 9 = Ok v /\ std_circuit Field128 v) /\
  (exists v, Sum_init Field64 1337 = Ok v /\ std_circuit Field64 v) /\
  test_points_ok (Count Field64) (map fof [5]%Z).
Proof.
  split; [apply std_Count; vm_compute; discriminate|].
  split; [eexists; split; [reflexivity|]; apply (std_Histogram _ 10 3); [reflexivity | vm_compute; discriminate]|].
  split; [eexists; split; [reflexivity|]; apply (std_MultihotCountVec _ 10 3 4); [reflexivity | vm_compute; discriminate]|].
  split; [eexists; split; [reflexivity|]; apply (std_SumVec _ 10 255 9); [reflexivity | vm_compute; discriminate]|].
  split; [eexists; split; [reflexivity|]; apply (std_Sum _ 1337); [reflexivity | lia | vm_compute; discriminate]|].
  intros [|i] Hi; [|cbn in Hi; lia]. intros E. apply (f_equal val) in E. vm_compute in E. discriminate.
Qed.

(** C25.  Linearity of query(), for arbitrary measurements and proofs. *)
Theorem C25_query_linear : forall P : NttFieldClass, NttOk P -> forall v : Valid P, ValidOk v ->
  forall (n : nat) (meas_shares proof_shares : list (list (F P))) (query_rand joint_rand : list (F P)),
  1 <= n -> (Z.of_nat n < MODULUS P)%Z ->
  vecs n (vMEAS_LEN v) meas_shares -> vecs n (proof_len v) proof_shares ->
  length query_rand = query_rand_len v -> length joint_rand = vJOINT_RAND_LEN v ->
  test_points_ok v query_rand ->
  exists verifier_shares, vecs n (verifier_len v) verifier_shares /\
    mapM (fun '(m, p) => bbcggi19_query v m p query_rand joint_rand n) (combine meas_shares proof_shares)
      = Ok verifier_shares /\
    bbcggi19_query v (vsum (vMEAS_LEN v) meas_shares) (vsum (proof_len v) proof_shares) query_rand joint_rand 1
    = Ok (vsum (verifier_len v) verifier_shares).
Proof. exact @query_linear_mapM. Qed.
Print Assumptions C25_query_linear.

(** C26.  Soundness: if the circuit output is not all-zero then, whatever the
    proof, at most d * |F|^(QUERY_RAND_LEN - 1) query randomness vectors, i.e. a
    fraction of d / |F|, make decide() accept, where d bounds the degrees of the
    gadget polynomials. *)
Theorem C26_soundness : forall P : NttFieldClass, NttOk P -> forall v : Valid P, ValidOk v ->
  forall (meas proof joint_rand out : list (F P)) (d : nat) (Q : list (list (F P))),
  length meas = vMEAS_LEN v -> length joint_rand = vJOINT_RAND_LEN v -> length proof = proof_len v ->
  valid_eval_plain v meas joint_rand 1 = Ok out -> Exists (fun x => x <> f0) out ->
  1 <= d ->
  (forall i, i < length (GADGETS v) ->
     DEGREE (nth i (GADGETS v) Mul) * (wire_poly_len (nth i (GADGET_CALLS v) 0) - 1) <= d) ->
  NoDup Q ->
  (forall q, In q Q -> length q = query_rand_len v /\
     exists ver, bbcggi19_query v meas proof q joint_rand 1 = Ok ver /\ bbcggi19_decide v ver = Ok true) ->
  (Z.of_nat (length Q) <= Z.of_nat d * MODULUS P ^ (Z.of_nat (query_rand_len v) - 1))%Z.
Proof. exact @sound. Qed.
Print Assumptions C26_soundness.

(** C26.  The same for the sum of verifier shares computed from any sharing of
    the measurement and of the proof. *)
Theorem C26_soundness_shares : forall P : NttFieldClass, NttOk P -> forall v : Valid P, ValidOk v ->
  forall (n : nat) (meas_shares proof_shares : list (list (F P))) (joint_rand out : list (F P)) (d : nat)
    (Q : list (list (F P))),
  1 <= n -> (Z.of_nat n < MODULUS P)%Z ->
  vecs n (vMEAS_LEN v) meas_shares -> vecs n (proof_len v) proof_shares -> length joint_rand = vJOINT_RAND_LEN v ->
  valid_eval_plain v (vsum (vMEAS_LEN v) meas_shares) joint_rand 1 = Ok out -> Exists (fun x => x <> f0) out ->
  1 <= d ->
  (forall i, i < length (GADGETS v) ->
     DEGREE (nth i (GADGETS v) Mul) * (wire_poly_len (nth i (GADGET_CALLS v) 0) - 1) <= d) ->
  NoDup Q ->
  (forall q, In q Q -> length q = query_rand_len v /\ exists vs,
     mapM (fun '(m, p) => bbcggi19_query v m p q joint_rand n) (combine meas_shares proof_shares) = Ok vs /\
     bbcggi19_decide v (vsum (verifier_len v) vs) = Ok true) ->
  (Z.of_nat (length Q) <= Z.of_nat d * MODULUS P ^ (Z.of_nat (query_rand_len v) - 1))%Z.
Proof. exact @sound_shares. Qed.
Print Assumptions C26_soundness_shares.

Example C26_example : exists out, valid_eval_plain (Count Field64) [fof 2] [] 1 = Ok out /\
  Exists (fun x => x <> f0) out.
Proof.
  eexists. split; [vm_compute; reflexivity|]. left. intros E. apply (f_equal val) in E. vm_compute in E. discriminate.
Qed.

(** C27.  prove() succeeds and returns PROOF_LEN elements. *)
Theorem C27_prove_length : forall P : NttFieldClass, NttOk P -> forall v : Valid P, ValidOk v ->
  forall meas prove_rand joint_rand : list (F P),
  length meas = vMEAS_LEN v -> length prove_rand = prove_rand_len v -> length joint_rand = vJOINT_RAND_LEN v ->
  exists proof, bbcggi19_prove v meas prove_rand joint_rand = Ok proof /\ length proof = proof_len v.
Proof. exact @prove_total. Qed.
Print Assumptions C27_prove_length.

(** C27.  query() returns VERIFIER_LEN elements, or raises ValueError if some
    test point is a root of unity of the order of its wire polynomials. *)
Theorem C27_query_guard : forall P : NttFieldClass, NttOk P -> forall v : Valid P, ValidOk v ->
  forall (meas proof query_rand joint_rand : list (F P)) (n : nat),
  length meas = vMEAS_LEN v -> length proof = proof_len v -> length query_rand = query_rand_len v ->
  length joint_rand = vJOINT_RAND_LEN v -> 1 <= n -> (Z.of_nat n < MODULUS P)%Z ->
  (test_points_ok v query_rand ->
     exists ver, bbcggi19_query v meas proof query_rand joint_rand n = Ok ver /\ length ver = verifier_len v) /\
  (~ test_points_ok v query_rand ->
     bbcggi19_query v meas proof query_rand joint_rand n = Raise (ValueError "test point is a root of unity")).
Proof. exact @query_guard. Qed.
Print Assumptions C27_query_guard.

(** C27.  decide() answers on every verifier of VERIFIER_LEN elements. *)
Theorem C27_decide_total : forall P : NttFieldClass, forall v : Valid P, ValidOk v ->
  forall verifier : list (F P), length verifier = verifier_len v -> exists b, bbcggi19_decide v verifier = Ok b.
Proof. exact @decide_total. Qed.
Print Assumptions C27_decide_total.
