(** C78: what the negative test vectors record. *)
From Verif Require Import EditSpec EditFacts NegVectors Prio3 Prio3Spec Poplar1.
Open Scope nat_scope.

(** C78.  The four vectors for a VDAF with joint randomness record the report that
    shard() makes: with one bit of the Leader's input share changed, with one bit of the
    Helper's changed, with one bit of the public share changed, and unchanged. *)
Theorem C78_histogram_edits : forall (p : Prio3) none key nonce ctx m vecs,
  gen_negative_histogram p none key nonce ctx m = Ok vecs ->
  let rand := test_vec_gen_rand (RAND_SIZE p) in
  exists ps is0 is1 eps e0 e1 eps' e0' e1',
    p3_shard p ctx m nonce rand = Ok (ps, [is0; is1]) /\
    p3_encode_public_share ps = Ok eps /\ p3_encode_input_share p is0 = Ok e0 /\ p3_encode_input_share p is1 = Ok e1 /\
    one_bit e0 e0' /\ one_bit e1 e1' /\ one_bit eps eps' /\
    map recorded vecs = map (fun '(ps, shares) => (to_hex key, to_hex ctx, [(to_hex nonce, to_hex rand, to_hex ps, map to_hex shares)]))
      [(eps, [e0'; e1]); (eps, [e0; e1']); (eps', [e0; e1]); (eps, [e0; e1])].
Proof. exact histogram_edits. Qed.
Print Assumptions C78_histogram_edits.

(** C78.  The four vectors for Prio3Count record the report that shard() makes with the
    first element of the Leader's measurement share, the first of its proof share, the
    last of its proof share increased by one, and with one bit of the Helper's input
    share changed. *)
Theorem C78_count_edits : forall (p : Prio3) none ctx m vecs, gen_negative_count p none ctx m = Ok vecs ->
  let key := test_vec_gen_rand (p3_VERIFY_KEY_SIZE p) in let nonce := test_vec_gen_rand p3_NONCE_SIZE in let rand := test_vec_gen_rand (RAND_SIZE p) in
  exists ps meas proofs blind is1 meas' proofs' proofs'' eps e0 e0' e0'' e0''' e1 e1',
    p3_shard p ctx m nonce rand = Ok (ps, [Leader meas proofs blind; is1]) /\
    one_more 0 meas meas' /\ one_more 0 proofs proofs' /\ one_more (length proofs - 1) proofs proofs'' /\
    p3_encode_public_share ps = Ok eps /\ p3_encode_input_share p is1 = Ok e1 /\ one_bit e1 e1' /\
    p3_encode_input_share p (Leader meas proofs blind) = Ok e0 /\
    p3_encode_input_share p (Leader meas' proofs blind) = Ok e0' /\
    p3_encode_input_share p (Leader meas proofs' blind) = Ok e0'' /\
    p3_encode_input_share p (Leader meas proofs'' blind) = Ok e0''' /\
    map recorded vecs = map (fun shares => (to_hex key, to_hex ctx, [(to_hex nonce, to_hex rand, to_hex eps, map to_hex shares)]))
      [[e0'; e1]; [e0''; e1]; [e0'''; e1]; [e0; e1']].
Proof. exact count_edits. Qed.
Print Assumptions C78_count_edits.

(** C78.  The vector for Poplar1 records the report that shard() makes with the first
    element of the Leader's correlated randomness increased by one. *)
Theorem C78_poplar1_edits : forall (p : Poplar1) none ctx m ap tv, gen_poplar1_negative p none ctx m ap = Ok tv ->
  let key := test_vec_gen_rand (p1_VERIFY_KEY_SIZE p) in let nonce := test_vec_gen_rand p1_NONCE_SIZE in let rand := test_vec_gen_rand (p1_RAND_SIZE p) in
  exists ps k seed inner leaf is1 inner' eps e0' e1 eap,
    p1_shard p ctx m nonce rand = Ok (ps, [(k, seed, inner, leaf); is1]) /\ one_more 0 inner inner' /\
    p1_encode_public_share p ps = Ok eps /\ p1_encode_input_share p (k, seed, inner', leaf) = Ok e0' /\ p1_encode_input_share p is1 = Ok e1 /\
    p1_encode_agg_param ap = Ok eap /\ tv_agg_param tv = to_hex eap /\
    recorded tv = (to_hex key, to_hex ctx, [(to_hex nonce, to_hex rand, to_hex eps, [to_hex e0'; to_hex e1])]).
Proof. exact poplar1_edits. Qed.
Print Assumptions C78_poplar1_edits.

(** C78.  The verification keys, nonces and randomness are the bytes 0, 1, 2 and so on. *)
Theorem C78_gen_rand : forall n k b, nth_error (test_vec_gen_rand n) k = Some b <-> k < n /\ b2z b = (Z.of_nat k mod 256)%Z.
Proof. exact gen_rand_nth. Qed.
Print Assumptions C78_gen_rand.

Example C78_bit_example : one_bit [x04; x01] [x04; x00] /\ ~ one_bit [x04; x01] [x05; x00] /\ ~ one_bit [x04] [x04].
Proof.
  split; [split; reflexivity|]. split; intros [_ H]; vm_compute in H; discriminate.
Qed.
