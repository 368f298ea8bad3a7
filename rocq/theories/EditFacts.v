(** The edits of gen_test_vec.py: proofs. *)
From Verif Require Import EditSpec NegVectors NegFacts BaseFacts FieldFacts Prio3 Prio3Spec Poplar1.
From Coq Require Import Lia.
Open Scope nat_scope.

Lemma filter_same (l : list bool) : filter (fun '(x, y) => xorb x y) (combine l l) = [].
Proof. induction l as [|x l IH]; [easy|]. cbn. now rewrite xorb_nilpotent. Qed.
Lemma combine_app {A B} (a a' : list A) (b b' : list B) : length a = length b -> combine (a ++ a') (b ++ b') = combine a b ++ combine a' b'.
Proof. revert b. induction a as [|x a IH]; intros [|y b] H; try discriminate; [easy|]. cbn. f_equal. apply IH. now injection H. Qed.
Lemma byte_bits_length x : length (byte_bits x) = 8.
Proof. reflexivity. Qed.
Lemma string_bits_app a b : string_bits (a ++ b) = string_bits a ++ string_bits b.
Proof. unfold string_bits. apply flat_map_app. Qed.

Lemma one_bit_app pre suf b c : one_bit b c -> one_bit (pre ++ b ++ suf) (pre ++ c ++ suf).
Proof.
  intros [L H]. assert (LB : length (string_bits b) = length (string_bits c)).
  { assert (G : forall l, length (string_bits l) = 8 * length l).
    { intros l. induction l as [|x l IH]; [easy|]. change (string_bits (x :: l)) with (byte_bits x ++ string_bits l). rewrite app_length, IH, byte_bits_length. cbn [length]. lia. }
    rewrite !G. lia. }
  split; [rewrite !app_length; lia|]. rewrite !string_bits_app, !combine_app, !filter_app, !filter_same by easy.
  rewrite app_nil_r. exact H.
Qed.

Lemma flip_one_bit b c : flip_first b = Ok c -> one_bit b c.
Proof.
  destruct b as [|x b]; [discriminate|]. cbn [flip_first]. intros [= <-].
  pose proof (one_bit_app [] b [x] [z2b (Z.lxor (b2z x) 1)]) as H. cbn [app] in H. apply H. clear.
  split; [easy|]. destruct x; vm_compute; reflexivity.
Qed.

Lemma add_first_one {P : FieldClass} (l l' : list (F P)) : add_one_first l = Ok l' -> one_more 0 l l'.
Proof.
  destruct l as [|x l]; [discriminate|]. cbn [add_one_first]. intros [= <-]. split; [cbn; lia|]. split; [easy|]. now intros [|k].
Qed.
Lemma add_last_one {P : FieldClass} (l l' : list (F P)) : add_one_last l = Ok l' -> one_more (length l - 1) l l'.
Proof.
  unfold add_one_last. destruct (rev l) as [|x r] eqn:E; [discriminate|]. intros H.
  assert (El : l = rev r ++ [x]) by (rewrite <- (rev_involutive l), E; reflexivity). cbn [rev] in H.
  assert (E' : l' = rev r ++ [fadd x (fof 1)]) by congruence. clear H E. subst l l'.
  rewrite !app_length. cbn [length]. split; [rewrite ?app_length; cbn [length]; lia|]. split; [rewrite !app_length; reflexivity|]. intros k.
  replace (length (rev r) + 1 - 1) with (length (rev r)) by lia.
  destruct (Nat.eqb_spec k (length (rev r))) as [->|N].
  - now rewrite !app_nth2, Nat.sub_diag by lia.
  - destruct (Nat.lt_ge_cases k (length (rev r))); [now rewrite !app_nth1 by easy|]. rewrite !nth_overflow; [easy| |]; rewrite app_length; cbn; lia.
Qed.

Section P3.
Context (p : Prio3).

Lemma failure_recorded none key nonce rand ctx ps is0 is1 tv :
  prio3_message_failure p none key nonce rand ctx ps is0 is1 = Ok tv ->
  exists eps e0 e1, p3_encode_public_share ps = Ok eps /\ p3_encode_input_share p is0 = Ok e0 /\ p3_encode_input_share p is1 = Ok e1 /\
    recorded tv = (to_hex key, to_hex ctx, [(to_hex nonce, to_hex rand, to_hex eps, [to_hex e0; to_hex e1])]).
Proof.
  unfold prio3_message_failure, hexed. intros H.
  apply bind_Ok in H. destruct H as ([st0 sh0] & _ & H). apply bind_Ok in H. destruct H as ([st1 sh1] & _ & H).
  apply bind_Ok in H. destruct H as (u & _ & H). apply bind_Ok in H. destruct H as (x0 & E0 & H). apply bind_Ok in E0. destruct E0 as (eps & Eps & [= <-]).
  apply bind_Ok in H. destruct H as (x1 & E0 & H). apply bind_Ok in E0. destruct E0 as (e0 & Ee0 & [= <-]).
  apply bind_Ok in H. destruct H as (x2 & E0 & H). apply bind_Ok in E0. destruct E0 as (e1 & Ee1 & [= <-]).
  apply bind_Ok in H. destruct H as (x3 & _ & H). apply bind_Ok in H. destruct H as (x4 & _ & H). injection H as <-.
  exists eps, e0, e1. repeat (split; [assumption|]). reflexivity.
Qed.
Lemma message_recorded none key nonce rand ctx ps is0 is1 tv :
  bad_verifier_message p none key nonce rand ctx ps is0 is1 = Ok tv ->
  exists eps e0 e1, p3_encode_public_share ps = Ok eps /\ p3_encode_input_share p is0 = Ok e0 /\ p3_encode_input_share p is1 = Ok e1 /\
    recorded tv = (to_hex key, to_hex ctx, [(to_hex nonce, to_hex rand, to_hex eps, [to_hex e0; to_hex e1])]).
Proof.
  unfold bad_verifier_message, hexed. intros H.
  apply bind_Ok in H. destruct H as ([st0 sh0] & _ & H).
  apply bind_Ok in H. destruct H as (u & _ & H). apply bind_Ok in H. destruct H as (x0 & E0 & H). apply bind_Ok in E0. destruct E0 as (eps & Eps & [= <-]).
  apply bind_Ok in H. destruct H as (x1 & E0 & H). apply bind_Ok in E0. destruct E0 as (e0 & Ee0 & [= <-]).
  apply bind_Ok in H. destruct H as (x2 & E0 & H). apply bind_Ok in E0. destruct E0 as (e1 & Ee1 & [= <-]).
  apply bind_Ok in H. destruct H as (x3 & _ & H). injection H as <-.
  exists eps, e0, e1. repeat (split; [assumption|]). reflexivity.
Qed.

Lemma shard_two_Ok ctx m nonce rand ps is0 is1 : shard_two p ctx m nonce rand = Ok (ps, is0, is1) -> p3_shard p ctx m nonce rand = Ok (ps, [is0; is1]).
Proof.
  unfold shard_two. intros H. apply bind_Ok in H. destruct H as ([q l] & E & H). rewrite E.
  destruct l as [|a [|b [|]]]; try discriminate. congruence.
Qed.

Lemma leader_blind_bit s s' e e' : bad_leader_jr_blind p s = Ok s' -> p3_encode_input_share p s = Ok e -> p3_encode_input_share p s' = Ok e' -> one_bit e e'.
Proof.
  destruct s as [meas proofs [blind|]|]; try discriminate. cbn [bad_leader_jr_blind]. intros H. apply bind_Ok in H. destruct H as (b & Eb & H).
  injection H as <-. cbn [p3_encode_input_share]. destruct (check _ _) as [u|]; [|discriminate]. cbn [bind].
  destruct (encode_vec meas) as [a|]; [|discriminate]. cbn [bind]. destruct (encode_vec proofs) as [c|]; [|discriminate]. cbn [bind app_opt].
  intros [= <-] [= <-]. pose proof (one_bit_app (a ++ c) [] _ _ (flip_one_bit _ _ Eb)) as G. now rewrite !app_nil_r in G.
Qed.
Lemma helper_blind_bit s s' e e' : bad_helper_jr_blind p s = Ok s' -> p3_encode_input_share p s = Ok e -> p3_encode_input_share p s' = Ok e' -> one_bit e e'.
Proof.
  destruct s as [|share [blind|]]; try discriminate. cbn [bad_helper_jr_blind]. intros H. apply bind_Ok in H. destruct H as (b & Eb & H).
  injection H as <-. cbn [p3_encode_input_share app_opt].
  intros [= <-] [= <-]. pose proof (one_bit_app share [] _ _ (flip_one_bit _ _ Eb)) as G. now rewrite !app_nil_r in G.
Qed.
Lemma helper_seed_bit s s' e e' : bad_helper_seed p s = Ok s' -> p3_encode_input_share p s = Ok e -> p3_encode_input_share p s' = Ok e' -> one_bit e e'.
Proof.
  destruct s as [|share blind]; try discriminate. cbn [bad_helper_seed]. intros H. apply bind_Ok in H. destruct H as (b & Eb & H).
  injection H as <-. cbn [p3_encode_input_share].
  intros [= <-] [= <-]. destruct blind as [blind|]; cbn [app_opt]; [|now apply flip_one_bit].
  exact (one_bit_app [] blind _ _ (flip_one_bit _ _ Eb)).
Qed.
Lemma public_bit s s' e e' : bad_public_share s = Ok s' -> p3_encode_public_share s = Ok e -> p3_encode_public_share s' = Ok e' -> one_bit e e'.
Proof.
  destruct s as [[|x parts]|]; try discriminate. cbn [bad_public_share]. intros H. apply bind_Ok in H. destruct H as (y & G & H).
  apply get_Ok in G. injection G as <-. apply bind_Ok in H. destruct H as (b & Eb & H). apply bind_Ok in H. destruct H as (l & S & H).
  cbn in S. injection S as <-. injection H as <-. cbn [p3_encode_public_share].
  intros [= <-] [= <-]. exact (one_bit_app [] (concat_bytes parts) _ _ (flip_one_bit _ _ Eb)).
Qed.

Theorem histogram_edits none key nonce ctx m vecs : gen_negative_histogram p none key nonce ctx m = Ok vecs ->
  let rand := test_vec_gen_rand (RAND_SIZE p) in
  exists ps is0 is1 eps e0 e1 eps' e0' e1',
    p3_shard p ctx m nonce rand = Ok (ps, [is0; is1]) /\
    p3_encode_public_share ps = Ok eps /\ p3_encode_input_share p is0 = Ok e0 /\ p3_encode_input_share p is1 = Ok e1 /\
    one_bit e0 e0' /\ one_bit e1 e1' /\ one_bit eps eps' /\
    map recorded vecs = map (fun '(ps, shares) => (to_hex key, to_hex ctx, [(to_hex nonce, to_hex rand, to_hex ps, map to_hex shares)]))
      [(eps, [e0'; e1]); (eps, [e0; e1']); (eps', [e0; e1]); (eps, [e0; e1])].
Proof.
  intros H rand. unfold gen_negative_histogram in H. fold rand in H. cbv zeta in H.
  apply bind_Ok in H. destruct H as ([[ps is0] is1] & ES & H). apply shard_two_Ok in ES.
  apply bind_Ok in H. destruct H as (bad0 & B0 & H). apply bind_Ok in H. destruct H as (v0 & V0 & H).
  apply bind_Ok in H. destruct H as (bad1 & B1 & H). apply bind_Ok in H. destruct H as (v1 & V1 & H).
  apply bind_Ok in H. destruct H as (bad2 & B2 & H). apply bind_Ok in H. destruct H as (v2 & V2 & H).
  apply bind_Ok in H. destruct H as (v3 & V3 & H). injection H as <-.
  apply failure_recorded in V0, V1, V2. apply message_recorded in V3.
  destruct V3 as (eps & e0 & e1 & Eps & E0 & E1 & R3).
  destruct V0 as (x & e0' & y & X & E0' & Y & R0). rewrite Eps in X. rewrite E1 in Y. injection X as <-. injection Y as <-.
  destruct V1 as (x & y & e1' & X & Y & E1' & R1). rewrite Eps in X. rewrite E0 in Y. injection X as <-. injection Y as <-.
  destruct V2 as (eps' & x & y & Eps' & X & Y & R2). rewrite E0 in X. rewrite E1 in Y. injection X as <-. injection Y as <-.
  exists ps, is0, is1, eps, e0, e1, eps', e0', e1'. split; [exact ES|]. split; [exact Eps|]. split; [exact E0|]. split; [exact E1|].
  split; [exact (leader_blind_bit _ _ _ _ B0 E0 E0')|]. split; [exact (helper_blind_bit _ _ _ _ B1 E1 E1')|]. split; [exact (public_bit _ _ _ _ B2 Eps Eps')|].
  cbn [map]. now rewrite R0, R1, R2, R3.
Qed.

Theorem count_edits none ctx m vecs : gen_negative_count p none ctx m = Ok vecs ->
  let key := test_vec_gen_rand (p3_VERIFY_KEY_SIZE p) in let nonce := test_vec_gen_rand p3_NONCE_SIZE in let rand := test_vec_gen_rand (RAND_SIZE p) in
  exists ps meas proofs blind is1 meas' proofs' proofs'' eps e0 e0' e0'' e0''' e1 e1',
    p3_shard p ctx m nonce rand = Ok (ps, [Leader meas proofs blind; is1]) /\
    one_more 0 meas meas' /\ one_more 0 proofs proofs' /\ one_more (length proofs - 1) proofs proofs'' /\
    p3_encode_public_share ps = Ok eps /\ p3_encode_input_share p is1 = Ok e1 /\ one_bit e1 e1' /\
    p3_encode_input_share p (Leader meas proofs blind) = Ok e0 /\
    p3_encode_input_share p (Leader meas' proofs blind) = Ok e0' /\
    p3_encode_input_share p (Leader meas proofs' blind) = Ok e0'' /\
    p3_encode_input_share p (Leader meas proofs'' blind) = Ok e0''' /\
    map recorded vecs = map (fun shares => (to_hex key, to_hex ctx, [(to_hex nonce, to_hex rand, to_hex eps, map to_hex shares)]))
      [[e0'; e1]; [e0''; e1]; [e0'''; e1]; [e0; e1']].
Proof.
  intros H key nonce rand. unfold gen_negative_count in H. fold key nonce rand in H. cbv zeta in H.
  apply bind_Ok in H. destruct H as ([[ps is0] is1] & ES & H). apply shard_two_Ok in ES.
  apply bind_Ok in H. destruct H as (bad0 & B0 & H). apply bind_Ok in H. destruct H as (v0 & V0 & H).
  apply bind_Ok in H. destruct H as (bad1 & B1 & H). apply bind_Ok in H. destruct H as (v1 & V1 & H).
  apply bind_Ok in H. destruct H as (bad2 & B2 & H). apply bind_Ok in H. destruct H as (v2 & V2 & H).
  apply bind_Ok in H. destruct H as (bad3 & B3 & H). apply bind_Ok in H. destruct H as (v3 & V3 & H). injection H as <-.
  apply failure_recorded in V0, V1, V2, V3.
  destruct is0 as [meas proofs blind|]; [|discriminate B0].
  apply bind_Ok in B0. destruct B0 as (meas' & M0 & [= <-]). apply bind_Ok in B1. destruct B1 as (proofs' & M1 & [= <-]).
  apply bind_Ok in B2. destruct B2 as (proofs'' & M2 & [= <-]).
  destruct V0 as (eps & e0' & e1 & Eps & E0' & E1 & R0).
  destruct V1 as (x & e0'' & y & X & E0'' & Y & R1). rewrite Eps in X. rewrite E1 in Y. injection X as <-. injection Y as <-.
  destruct V2 as (x & e0''' & y & X & E0''' & Y & R2). rewrite Eps in X. rewrite E1 in Y. injection X as <-. injection Y as <-.
  destruct V3 as (x & e0 & e1' & X & E0 & E1' & R3). rewrite Eps in X. injection X as <-.
  exists ps, meas, proofs, blind, is1, meas', proofs', proofs'', eps, e0, e0', e0'', e0''', e1, e1'.
  split; [exact ES|]. split; [now apply add_first_one|]. split; [now apply add_first_one|]. split; [now apply add_last_one|].
  split; [exact Eps|]. split; [exact E1|]. split; [exact (helper_seed_bit _ _ _ _ B3 E1 E1')|].
  split; [exact E0|]. split; [exact E0'|]. split; [exact E0''|]. split; [exact E0'''|].
  cbn [map]. now rewrite R0, R1, R2, R3.
Qed.
End P3.

Theorem poplar1_edits (p : Poplar1) none ctx m ap tv : gen_poplar1_negative p none ctx m ap = Ok tv ->
  let key := test_vec_gen_rand (p1_VERIFY_KEY_SIZE p) in let nonce := test_vec_gen_rand p1_NONCE_SIZE in let rand := test_vec_gen_rand (p1_RAND_SIZE p) in
  exists ps k seed inner leaf is1 inner' eps e0' e1 eap,
    p1_shard p ctx m nonce rand = Ok (ps, [(k, seed, inner, leaf); is1]) /\ one_more 0 inner inner' /\
    p1_encode_public_share p ps = Ok eps /\ p1_encode_input_share p (k, seed, inner', leaf) = Ok e0' /\ p1_encode_input_share p is1 = Ok e1 /\
    p1_encode_agg_param ap = Ok eap /\ tv_agg_param tv = to_hex eap /\
    recorded tv = (to_hex key, to_hex ctx, [(to_hex nonce, to_hex rand, to_hex eps, [to_hex e0'; to_hex e1])]).
Proof.
  intros H key nonce rand. unfold gen_poplar1_negative in H. fold key nonce rand in H. cbv zeta in H.
  apply bind_Ok in H. destruct H as ([ps l] & ES & H). destruct l as [|is0 [|is1 [|]]]; try discriminate H.
  apply bind_Ok in H. destruct H as (bad & B & H). destruct is0 as [[[k seed] inner] leaf].
  apply bind_Ok in B. destruct B as (inner' & M & B). injection B as <-.
  unfold poplar1_message_failure, hexed in H. cbv zeta in H.
  apply bind_Ok in H. destruct H as ([? ?] & _ & H). apply bind_Ok in H. destruct H as ([? ?] & _ & H). apply bind_Ok in H. destruct H as (? & _ & H).
  apply bind_Ok in H. destruct H as ([? ?] & _ & H). apply bind_Ok in H. destruct H as ([? ?] & _ & H). apply bind_Ok in H. destruct H as (? & _ & H).
  apply bind_Ok in H. destruct H as (? & E0 & H). apply bind_Ok in E0. destruct E0 as (eap & Eap & [= <-]).
  apply bind_Ok in H. destruct H as (? & E0 & H). apply bind_Ok in E0. destruct E0 as (eps & Eps & [= <-]).
  apply bind_Ok in H. destruct H as (? & E0 & H). apply bind_Ok in E0. destruct E0 as (e0 & Ee0 & [= <-]).
  apply bind_Ok in H. destruct H as (? & E0 & H). apply bind_Ok in E0. destruct E0 as (e1 & Ee1 & [= <-]).
  do 5 (apply bind_Ok in H; destruct H as (? & _ & H)). injection H as <-.
  exists ps, k, seed, inner, leaf, is1, inner', eps, e0, e1, eap. split; [exact ES|]. split; [now apply add_first_one|].
  repeat (split; [assumption || reflexivity|]). reflexivity.
Qed.

Lemma gen_rand_nth n k b : nth_error (test_vec_gen_rand n) k = Some b <-> k < n /\ b2z b = (Z.of_nat k mod 256)%Z.
Proof.
  unfold test_vec_gen_rand, range. rewrite nth_error_map, Nat.sub_0_r.
  destruct (Nat.lt_ge_cases k n) as [L|L].
  - rewrite (nth_error_nth' _ 0) by (rewrite seq_length; lia). rewrite seq_nth by lia. cbn [option_map plus].
    assert (B : b2z (z2b (Z.of_nat k mod 256)) = (Z.of_nat k mod 256)%Z) by (apply b2z_z2b; apply Z.mod_pos_bound; lia).
    split; [intros [= <-]; auto|]. intros [_ E]. f_equal. apply b2z_inj. now rewrite B, E.
  - rewrite (proj2 (nth_error_None _ _)) by (rewrite seq_length; lia). split; [discriminate|lia].
Qed.
