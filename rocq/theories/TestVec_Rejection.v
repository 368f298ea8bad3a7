(** The test of the rejection sampling (tests/test_xof.py:34-48) with the concrete
    TurboSHAKE128: 111 kB of output, one chunk of which is rejected. *)
From Verif Require Import TestVecBase XofTestsSpec XofFacts SampleFacts XofProofs BaseFacts FieldFacts.
Open Scope nat_scope.

(** The first blocks of output, each permutation computed once. *)
Fixpoint blocks (n : nat) (a : list N) : list bytes :=
  match n with O => [] | S n => squeeze_block a :: blocks n (keccak_p12 a) end.
Definition start (m : bytes) (d : Z) : list N := absorb (length m) m d (repeat 0%N 25).

Lemma chi_length a n : length a = 5 * n -> length (chi a) = 5 * n.
Proof.
  revert a. induction n as [|n IH]; intros a H.
  - now destruct a.
  - destruct a as [|x0 [|x1 [|x2 [|x3 [|x4 r]]]]]; try (cbn in H; lia). cbn [chi length]. rewrite (IH r); [lia|]. cbn [length] in H. lia.
Qed.
Lemma iota_length rc a : length (iota rc a) = length a.
Proof. now destruct a. Qed.
Lemma round_length rc a : length (iota rc (chi (rho_and_pi (theta a)))) = 25.
Proof. rewrite iota_length. change 25 with (5 * 5). apply chi_length. reflexivity. Qed.
Lemma keccak_length a : length (keccak_p12 a) = 25.
Proof.
  unfold keccak_p12. generalize a. assert (H : round_constants <> []) by discriminate. induction round_constants as [|rc l IH]; [easy|].
  intros b. cbn [fold_left]. destruct l as [|rc' l]; [apply round_length|]. apply IH. discriminate.
Qed.
Lemma absorb_length f m d a : length a = 25 -> length (absorb f m d a) = 25.
Proof.
  revert m a. induction f as [|f IH]; intros m a H; cbn [absorb]; destruct (length m <? 168); try apply keccak_length; auto using keccak_length.
Qed.
Lemma bytes_of_lane_length n x : length (bytes_of_lane n x) = n.
Proof. revert x. induction n as [|n IH]; intros x; [reflexivity|]. cbn [bytes_of_lane length]. now rewrite IH. Qed.
Lemma squeeze_length a : length a = 25 -> length (squeeze_block a) = 168.
Proof.
  intros H. unfold squeeze_block. rewrite (length_concat_const _ 8).
  - rewrite map_length, firstn_length, H. reflexivity.
  - apply Forall_forall. intros x I. apply in_map_iff in I as (y & <- & _). apply bytes_of_lane_length.
Qed.

Lemma iter_shift (a : list N) q : Nat.iter (S q) keccak_p12 a = Nat.iter q keccak_p12 (keccak_p12 a).
Proof.
  induction q as [|q IH]; [reflexivity|].
  change (keccak_p12 (Nat.iter (S q) keccak_p12 a) = keccak_p12 (Nat.iter q keccak_p12 (keccak_p12 a))). now rewrite IH.
Qed.
Lemma stream_block (a : list N) s k : length a = 25 ->
  (forall i, k * 168 <= i -> s i = nth (i mod 168) (squeeze_block (Nat.iter (i / 168 - k) keccak_p12 a)) x00) ->
  forall n, stream_bytes s (k * 168) (n * 168) = concat (blocks n a).
Proof.
  intros Ha Hs n. revert k a Ha Hs. induction n as [|n IH]; intros k a Ha Hs; [reflexivity|].
  cbn [blocks concat]. replace (S n * 168) with (168 + n * 168) by lia. rewrite stream_bytes_app. f_equal.
  - apply (nth_ext _ _ x00 x00); rewrite stream_bytes_length; [now rewrite squeeze_length|]. intros j Hj.
    unfold stream_bytes. rewrite (nth_indep _ x00 (s 0)) by (rewrite map_length, seq_length; lia).
    rewrite map_nth, seq_nth by exact Hj. rewrite Hs by lia.
    replace (k * 168 + j) with (j + k * 168) by lia. rewrite Nat.mod_add, Nat.div_add by discriminate.
    rewrite Nat.mod_small, Nat.div_small by exact Hj. replace (0 + k - k) with 0 by lia. reflexivity.
  - replace (k * 168 + 168) with (S k * 168) by lia. apply IH; [apply keccak_length|]. intros i Hi. rewrite Hs by lia. f_equal. f_equal.
    assert (S k <= i / 168) by (apply Nat.div_le_lower_bound; lia).
    replace (i / 168 - k) with (S (i / 168 - S k)) by lia. generalize (i / 168 - S k). intros q.
    apply iter_shift.
Qed.

Lemma turboshake_blocks m d n : stream_bytes (turboshake128 m d) 0 (n * 168) = concat (blocks n (start m d)).
Proof.
  apply (stream_block (start m d) (turboshake128 m d) 0).
  - apply absorb_length. reflexivity.
  - intros i _. unfold turboshake128. fold (start m d). rewrite Nat.sub_0_r. destruct (Nat.ltb_spec i 168); [|reflexivity].
    now rewrite Nat.mod_small, Nat.div_small by assumption.
Qed.

(** The chunks of eight bytes. *)
Fixpoint chunks8 (n : nat) (l : bytes) : list Z :=
  match n with O => [] | S n => from_le_bytes (firstn 8 l) :: chunks8 n (skipn 8 l) end.
Lemma chunks8_ok s n : forall p, chunks8 n (stream_bytes s p (n * 8)) = map (chunk Field64 s p) (seq 0 n).
Proof.
  induction n as [|n IH]; intros p; [reflexivity|]. cbn [chunks8 seq map]. replace (S n * 8) with (8 + n * 8) by lia.
  rewrite stream_bytes_app. rewrite firstn_app, skipn_app, stream_bytes_length, Nat.sub_diag.
  rewrite firstn_all2, skipn_all2 by (rewrite stream_bytes_length; lia). cbn [firstn skipn app]. rewrite app_nil_r. f_equal.
  - unfold chunk, chunk_value. cbn [Nat.mul]. rewrite Nat.add_0_r. change (ENCODED_SIZE Field64) with 8. symmetry. apply Z.mod_small.
    pose proof (from_le_bytes_range (stream_bytes s p 8)) as R. rewrite stream_bytes_length in R. exact R.
  - rewrite IH, <- seq_shift, map_map. apply map_ext. intros j. unfold chunk. do 2 f_equal. change (ENCODED_SIZE Field64) with 8. lia.
Qed.
Lemma chunks8_prefix n l r : n * 8 <= length l -> chunks8 n (l ++ r) = chunks8 n l.
Proof.
  revert l. induction n as [|n IH]; intros l H; [reflexivity|]. cbn [chunks8].
  rewrite firstn_app, skipn_app. replace (8 - length l) with 0 by lia. rewrite firstn_O, skipn_O, app_nil_r. f_equal.
  apply IH. rewrite skipn_length. lia.
Qed.

Definition message : bytes := match turboshake_message rejection_seed [] [] with Ok m => m | Raise _ => [] end.
Definition output : list Z :=
  chunks8 (Z.to_nat 13884) (concat (blocks 662 (start message 1))).
Lemma message_eq : turboshake_message rejection_seed [] [] = Ok message.
Proof. reflexivity. Qed.
Definition expected : Z := 4857131209231097247.
Definition below (x : Z) : bool := (x <? MODULUS Field64)%Z.
Definition as_expected (l : list Z) : bool := (Z.of_nat (length (filter below l)) =? 13883)%Z && (last l 0 =? expected)%Z.

(** Evaluated when this file is compiled. *)
Definition as_expected_outcome : bool := Eval vm_compute in as_expected output.
Example rejection_example : as_expected_outcome = true.
Proof. reflexivity. Qed.

Lemma computed_facts l : as_expected l = true ->
  Z.of_nat (length (filter below l)) = 13883%Z /\ last l 0%Z = expected.
Proof. intros C. unfold as_expected in C. apply andb_prop in C as [A B]. split; now apply Z.eqb_eq. Qed.

Lemma output_chunks : output = map (chunk Field64 (turboshake128 message 1) 0) (seq 0 (Z.to_nat 13884)).
Proof.
  unfold output. rewrite <- turboshake_blocks, <- chunks8_ok. set (s := turboshake128 message 1). set (n := Z.to_nat 13884).
  assert (E : 662 * 168 = n * 8 + 144) by (unfold n; lia). rewrite E, stream_bytes_app. apply chunks8_prefix. rewrite stream_bytes_length. lia.
Qed.
Lemma last_snoc {A} (l : list A) x d : last (l ++ [x]) d = x.
Proof. apply last_last. Qed.

(** One chunk is rejected, so that 13884 are read; the last element is the expected
    one. *)
Theorem rejection_sampling bound : as_expected output = true ->
  (13884 <= Z.of_nat bound -> test_rejection_sampling turboshake128 bound = Ok tt)%Z /\
  (Z.of_nat bound < 13884 -> test_rejection_sampling turboshake128 bound = Raise OutOfFuel)%Z.
Proof.
  intros AE. set (X := XofTurboShake128 turboshake128 bound). remember (turboshake128 message 1) as s eqn:Es.
  remember (Z.to_nat 13883) as n eqn:Hn.
  assert (En : Z.to_nat 13884 = S n) by lia.
  assert (EI : xof_init X rejection_seed [] [] = Ok (message, 0)).
  { unfold X, XofTurboShake128. cbn [xof_init]. rewrite message_eq. reflexivity. }
  set (lim := (Z.of_nat (0 + loop_bound X * ENCODED_SIZE Field64) + 1)%Z).
  pose proof (turboshake_streams turboshake128 bound lim message) as H. fold X in H. rewrite <- Es in H.
  assert (L : (Z.of_nat (0 + loop_bound X * ENCODED_SIZE Field64) < lim)%Z) by (unfold lim; lia).
  destruct (next_vec_stream X Field64 lim _ s _ H n 0 L) as [A B].
  pose proof output_chunks as C. rewrite En in C. rewrite <- Es in C. rewrite C in AE.
  destruct (computed_facts _ AE) as [CA CL]. clear C.
  change (filter below (map (chunk Field64 s 0) (seq 0 (S n)))) with (accepted Field64 s 0 (S n)) in CA.
  assert (CA' : length (accepted Field64 s 0 (S n)) = n) by lia. clear CA. rename CA' into CA.
  rewrite seq_S, map_app in CL. cbn [map] in CL. rewrite last_snoc in CL. rewrite Nat.add_0_l in CL.
  assert (SN : accepted Field64 s 0 (S n) = accepted Field64 s 0 n ++ [expected]).
  { unfold accepted. rewrite seq_S, map_app, filter_app. cbn [map Nat.add filter]. rewrite CL. reflexivity. }
  rewrite SN, app_length in CA. cbn [length] in CA.
  assert (Mono : forall a b, a <= b -> length (accepted Field64 s 0 a) <= length (accepted Field64 s 0 b)).
  { intros a b Hab. replace b with (a + (b - a)) by lia. unfold accepted. rewrite seq_app, map_app, filter_app, app_length. lia. }
  unfold test_rejection_sampling. unfold expand_into_vec. fold X. rewrite EI. cbn [bind]. rewrite <- Hn.
  change (message, 0) with ((fun p => (message, p)) 0). split; intros Hb.
  - destruct A as (k & Hk & Lk & Mk & Ek).
    { etransitivity; [|apply (Mono (S n)); cbn; lia]. rewrite SN, app_length. cbn [length]. lia. }
    assert (k = S n).
    { destruct (Nat.le_gt_cases k n) as [D|D]; [pose proof (Mono k n D); lia|].
      destruct (Nat.eq_dec k (S n)); [assumption|]. assert (S n < k) as D' by lia. specialize (Mk (S n) D').
      rewrite SN, app_length in Mk. cbn [length] in Mk. lia. }
    subst k. rewrite Ek. cbn [bind]. rewrite SN, map_app. cbn [map]. unfold get_last.
    destruct (map fof (accepted Field64 s 0 n) ++ [fof expected]) as [|x t] eqn:Et.
    + destruct (map _ _) in Et; discriminate.
    + cbn [bind]. assert (EL : last t x = fof expected).
      { transitivity (last (x :: t) x); [destruct t; reflexivity|]. rewrite <- Et. apply last_last. }
      rewrite EL. unfold field_init. reflexivity.
  - rewrite B; [reflexivity|]. pose proof (Mono (loop_bound X) n ltac:(cbn; lia)). lia.
Qed.
