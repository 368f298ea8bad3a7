(** Proofs for C95: SumVec and Sum. *)
From Verif Require Export ConfuseSpec.
From Verif Require Import ConfuseFacts Prio3Inst Prio3Run Prio3Facts FlpSpec FlpInstances CircuitSpec CircuitFacts CircuitInstances MeasFacts RangeInt
  VecFacts FieldFacts BaseFacts CommonFacts CollectFacts GadgetFacts.
Open Scope nat_scope.

Section I.
Context (P : NttFieldClass) (HP : NttOk P) (HW : wf_field P).
Notation F := (F P).

Lemma truncate_reading len max chunk (e : list F) : 1 <= len -> (0 < max)%Z -> (2 ^ Z.of_nat (bit_length max) < MODULUS P)%Z ->
  length e = len * bit_length max -> Forall is_bit e ->
  valid_truncate (SumVec P len max chunk) e = Ok (map (fun x => fof x : F) (reading len max e)) /\ Forall (fun x => 0 <= x <= max)%Z (reading len max e).
Proof.
  intros Hl Hm Hm' L Hb.
  assert (Hs : forall i, i < len -> length (piece (bit_length max) i e) = bit_length max /\ Forall is_bit (piece (bit_length max) i e)).
  { intros i Hi. split; [apply piece_length with len; [lia | exact Hi]|].
    apply Forall_forall. intros x Hx. unfold piece in Hx. apply slice_incl in Hx. rewrite Forall_forall in Hb. now apply Hb. }
  split.
  - cbn [valid_truncate SumVec]. unfold reading. rewrite map_map. unfold range. rewrite Nat.sub_0_r. apply mapM_map. intros i Hi. apply in_seq in Hi.
    destruct (Hs i ltac:(lia)) as [A B]. replace (slice e (i * bit_length max) ((i + 1) * bit_length max)) with (piece (bit_length max) i e)
      by (unfold piece; f_equal; lia).
    now apply (rc_truncate HP max Hm Hm'); [lia|].
  - apply Forall_map, Forall_forall. intros i Hi. apply in_seq in Hi. destruct (Hs i ltac:(lia)) as [A B].
    now apply (rc_truncate HP max Hm Hm'); [lia|].
Qed.

Lemma concat_facts (es : list (list F)) b : Forall (fun e => length e = b /\ Forall is_bit e) es ->
  length (concat es) = length es * b /\ Forall is_bit (concat es).
Proof.
  induction 1 as [|e es [H1 H2] _ [I1 I2]]; [split; [reflexivity | constructor]|]. cbn [concat length]. rewrite app_length.
  split; [lia | now apply Forall_app].
Qed.

Section V.
Context (len len' : nat) (max max' : Z) (chunk : nat).
Context (Hl : 1 <= len) (Hl' : 1 <= len') (Hch : 1 <= chunk) (Hm : (0 < max)%Z) (Hm' : (0 < max')%Z)
  (HM : (2 ^ Z.of_nat (bit_length max) < MODULUS P)%Z) (HM' : (2 ^ Z.of_nat (bit_length max') < MODULUS P)%Z)
  (Hsize : len * bit_length max = len' * bit_length max').
Notation v := (SumVec P len max chunk).
Notation v' := (SumVec P len' max' chunk).

Lemma misread_spec (m : list Z) : length m = len -> Forall (fun x => 0 <= x <= max)%Z m ->
  exists enc, valid_encode v m = Ok enc /\ length enc = vMEAS_LEN v /\ accepts v enc /\
    valid_truncate v' enc = Ok (map (fun x => fof x : F) (misread v len' max' m)) /\
    length (misread v len' max' m) = len' /\ Forall (fun x => 0 <= x <= max')%Z (misread v len' max' m).
Proof using HP Hl Hl' Hch Hm Hm' HM HM' Hsize.
  intros L R. destruct (encode_all HP len max chunk m Hm L R) as (es & E & Le & HF).
  assert (G : Forall (fun e => length e = bit_length max /\ Forall is_bit e) es).
  { clear -HF. induction HF as [|e x es m (_ & A & B & _) _ IH]; constructor; [split|]; assumption. }
  destruct (concat_facts es _ G) as [C1 C2]. rewrite Le in C1. exists (concat es).
  split; [exact E|]. split; [exact C1|]. split; [apply (SumVec_accepts HP); assumption|].
  unfold misread. rewrite E. destruct (truncate_reading len' max' chunk (concat es)) as [T1 T2]; try assumption; [lia|].
  split; [exact T1|]. split; [unfold reading; now rewrite map_length, seq_length|exact T2].
Qed.

Theorem misread_number b b' (m : list Z) : max = (2 ^ Z.of_nat b - 1)%Z -> max' = (2 ^ Z.of_nat b' - 1)%Z -> length m = len -> Forall (fun x => 0 <= x <= max)%Z m ->
  number b' (misread v len' max' m) = number b m.
Proof using HP Hl Hl' Hch Hm Hm' HM HM' Hsize.
  intros Eb Eb' L R.
  assert (B1 : 1 <= b) by (destruct b; [cbn in Eb; lia | lia]). assert (B1' : 1 <= b') by (destruct b'; [cbn in Eb'; lia | lia]).
  assert (Bm : bit_length max = b) by (rewrite Eb; now apply full_bits). assert (Bm' : bit_length max' = b') by (rewrite Eb'; now apply full_bits).
  destruct (encode_all HP len max chunk m Hm L R) as (es & E & Le & HF).
  assert (G : Forall (fun e => length e = bit_length max /\ Forall is_bit e) es).
  { clear -HF. induction HF as [|e x es m (_ & A & B & _) _ IH]; constructor; [split|]; assumption. }
  destruct (concat_facts es _ G) as [C1 _]. rewrite Le in C1. unfold misread. rewrite E, Eb'. rewrite reading_number; [|exact B1'|].
  - rewrite (num_concat b).
    + f_equal. clear -HF Eb B1 Bm. induction HF as [|e x es m (_ & A & _ & B) _ IH]; [reflexivity|]. cbn [map]. f_equal; [|exact IH].
      rewrite <- B, Eb. symmetry. apply rc_int_num; [exact B1 | now rewrite A].
    + clear -G Bm. eapply Forall_impl; [|exact G]. intros e [A _]. now rewrite A.
  - rewrite C1, Hsize, Bm'. reflexivity.
Qed.

Theorem misread_shifted (m : list Z) : len' = len -> bit_length max' = bit_length max -> length m = len -> Forall (fun x => 0 <= x <= max)%Z m ->
  misread v len' max' m = map (shifted max max') m.
Proof using HP Hl Hl' Hch Hm Hm' HM HM' Hsize.
  intros El Eb L R. destruct (encode_all HP len max chunk m Hm L R) as (es & E & Le & HF).
  unfold misread. rewrite E. unfold reading. rewrite El, Eb, <- Le.
  assert (G : Forall (fun e => length e = bit_length max) es).
  { clear -HF. induction HF as [|e x es m (_ & A & B & _) _ IH]; constructor; assumption. }
  transitivity (map (rc_int max') es).
  - apply (nth_ext' 0%Z); [now rewrite !map_length, seq_length|]. rewrite map_length, seq_length. intros i Hi.
    rewrite nth_map_seq by exact Hi. rewrite (nth_map' (rc_int max') es i []) by exact Hi. f_equal. now apply piece_concat.
  - clear -HF Hm Hm' Eb HP R. revert R. induction HF as [|e x es m (A & _) _ IH]; intros R; [reflexivity|]. inversion_clear R as [|? ? R1 R2].
    cbn [map]. f_equal; [|now apply IH]. now apply (shift_rc HP max max' x e).
Qed.
End V.

Context (ID : Z) (HID : (0 <= ID < 2 ^ 32)%Z) (ts : TurboShake) (bound shares proofs : nat).
Context (Hs : 2 <= shares < 256) (HsM : (Z.of_nat shares < MODULUS P)%Z) (Hpr : proofs < 256).
Notation obj v := (prio3_obj P ID v ts bound shares proofs).
Context (key ctx : bytes) (Hc : ctx_ok ctx) (Hk : length key = 32).

Theorem confused_sumvec len max len' max' chunk (ms : list (list Z * bytes * bytes)) :
  1 <= len -> 1 <= len' -> 1 <= chunk -> (0 < max)%Z -> (0 < max')%Z ->
  (2 ^ Z.of_nat (bit_length max) < MODULUS P)%Z -> (2 ^ Z.of_nat (bit_length max') < MODULUS P)%Z ->
  len * bit_length max = len' * bit_length max' ->
  fits P (ParallelSum Mul chunk) (SumVec_calls len' (bit_length max') chunk) ->
  sizes_ok (obj (SumVec P len' max' chunk)) ms ->
  Forall (fun m => length m = len /\ Forall (fun x => 0 <= x <= max)%Z m) (map meas_of ms) ->
  outcome (obj (SumVec P len' max' chunk)) (test_points_ok (SumVec P len' max' chunk)) (p3_shard (obj (SumVec P len max chunk))) key ctx ms
    (Ok (map (fun x => x mod MODULUS P)%Z (col_totals len' (map (misread (SumVec P len max chunk) len' max') (map meas_of ms))))).
Proof.
  intros Hl Hl' Hch Hm Hm' HM HM' Hsize Hf Hsz HR.
  apply (confused_ok P HP HW ID HID ts bound shares proofs Hs HsM Hpr (SumVec P len max chunk) (SumVec P len' max' chunk)
    (SumVec_same len max len' max' chunk Hsize) key ctx Hc Hk ms (map (misread (SumVec P len max chunk) len' max') (map meas_of ms))).
  - apply (std_SumVec P (Z.of_nat len') max' (Z.of_nat chunk)).
    + apply SumVec_init_Ok. rewrite !Nat2Z.id. repeat split; try easy; lia.
    + now rewrite !Nat2Z.id.
  - exact Hsz.
  - apply Forall2_same. eapply Forall_impl; [|exact HR]. intros m [H1 H2].
    destruct (misread_spec len len' max max' chunk Hl Hl' Hch Hm Hm' HM HM' Hsize m H1 H2) as (enc & A & B & C & D & E & _). exists enc. repeat split; easy.
  - cbn [valid_decode SumVec vOUTPUT_LEN]. now rewrite map_val_fof.
Qed.

Theorem confused_sum max max' (ms : list (Z * bytes * bytes)) :
  (0 < max)%Z -> (0 < max')%Z -> (2 ^ Z.of_nat (bit_length max') < MODULUS P)%Z -> bit_length max = bit_length max' ->
  fits P (Sum_gadget (bit_length max')) (bit_length max') ->
  sizes_ok (obj (Sum P max')) ms -> Forall (fun m => 0 <= m <= max)%Z (map meas_of ms) ->
  outcome (obj (Sum P max')) (test_points_ok (Sum P max')) (p3_shard (obj (Sum P max))) key ctx ms
    (Ok (zsuml (map (shifted max max') (map meas_of ms)) mod MODULUS P)%Z).
Proof.
  intros Hm Hm' HM' Hb Hf Hsz HR.
  apply (confused_ok P HP HW ID HID ts bound shares proofs Hs HsM Hpr (Sum P max) (Sum P max') (Sum_same max max' Hb) key ctx Hc Hk ms
    (map (fun x => [x]) (map (shifted max max') (map meas_of ms)))).
  - eapply std_Sum; [apply Sum_init_Ok; split; [exact HM' | reflexivity] | easy | easy].
  - exact Hsz.
  - rewrite (map_map (shifted max max')). apply Forall2_same. eapply Forall_impl; [|exact HR]. intros m H.
    assert (HM : (2 ^ Z.of_nat (bit_length max) < MODULUS P)%Z) by now rewrite Hb.
    destruct (Sum_encode HP max Hm HM m H) as (enc & A & B & C & _).
    destruct (encode_rc max m Hm (M1 HP) (proj2 H)) as (e & E & Le & Be & _). assert (enc = e) as ->.
    { cbn [valid_encode Sum] in A. rewrite E in A. now injection A. }
    exists e. split; [exact A|]. split; [exact B|]. split; [exact C|]. split; [|reflexivity].
    cbn [valid_truncate Sum map]. destruct (rc_truncate HP max' Hm' HM' e ltac:(lia) Be) as [-> _]. cbn [bind].
    now rewrite (shift_rc HP max max' m e Hm Hm' (eq_sym Hb) H E).
  - change (vOUTPUT_LEN (Sum P max')) with 1. rewrite total1. reflexivity.
Qed.
End I.
