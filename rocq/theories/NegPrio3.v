(** The negative test vectors of Prio3. *)
From Coq Require Import Strings.String.
From Verif Require Import NegVectors NegFacts TestVecSpec TestVecFacts TestVecInst BaseFacts.
From Verif Require Import FlpSpec CircuitInstances FlpInstances Prio3Spec Prio3Facts Prio3Inst PostFacts CountSpec CountTamper.
Open Scope nat_scope.

Lemma flip_first_length b c : flip_first b = Ok c -> length c = length b.
Proof. destruct b; [discriminate|]. intros H. injection H as <-. reflexivity. Qed.
Lemma add_one_first_length {P : FieldClass} (l l' : list (F P)) : add_one_first l = Ok l' -> length l' = length l.
Proof. destruct l; [discriminate|]. cbn. intros H. apply (f_equal (fun r => match r with Ok v => v | Raise _ => [] end)) in H. now subst. Qed.
Lemma add_one_last_length {P : FieldClass} (l l' : list (F P)) : add_one_last l = Ok l' -> length l' = length l.
Proof.
  unfold add_one_last. destruct (rev l) as [|x r] eqn:E; [discriminate|]. intros H.
  apply (f_equal (fun r => match r with Ok v => v | Raise _ => [] end)) in H. subst.
  apply (f_equal (@length _)) in E. rewrite rev_length in E |- *. exact (eq_sym E).
Qed.

Section P3.
Context (p : Prio3) (lim : Z) (HO : Prio3Ok p lim) (H2 : p3_SHARES p = 2).
Notation F := (F (p3_field p)).
Notation flp := (p3_flp p).
Context (good : list F -> Prop) (valid : list F -> list F -> Prop) (HF : FlpOk (p3_flp p) good valid).
Context (ctx : bytes) (Hc : ctx_ok ctx).
Context (result_eqb : AggResult (p3_flp p) -> AggResult (p3_flp p) -> bool).

Lemma shard_two_wf m meas nonce rand ps is0 is1 : length nonce = p3_NONCE_SIZE -> length rand = RAND_SIZE p ->
  flp_encode flp m = Ok meas -> length meas = MEAS_LEN flp ->
  shard_two p ctx m nonce rand = Ok (ps, is0, is1) ->
  public_share_wf p ps /\ input_share_wf p 0 is0 /\ input_share_wf p 1 is1.
Proof.
  intros Hn Hr He Hl H. unfold shard_two in H. apply bind_Ok in H as ((ps' & iss) & Es & H).
  pose proof (shard_post p lim HO good valid HF ctx m meas nonce rand Hc Hn Hr He Hl) as SP.
  rewrite Es in SP. cbn [post] in SP. destruct SP as (ms & prs & bls & seed & pr & jr & proofs & R).
  destruct iss as [|a [|b [|? ?]]]; try discriminate H. injection H as -> -> ->.
  split; [exact (rp_public _ _ _ _ _ _ _ _ _ _ _ _ _ _ R)|]. pose proof (rp_wf _ _ _ _ _ _ _ _ _ _ _ _ _ _ R) as W.
  split; [apply (W 0 is0); lia | apply (W 1 is0); lia].
Qed.

Lemma bad_meas_wf s s' : input_share_wf p 0 s -> bad_meas_share p s = Ok s' -> input_share_wf p 0 s'.
Proof.
  destruct s as [m pr b|]; [|discriminate]. cbn. intros (E & L & W) H. apply bind_Ok in H as (m' & A & H). injection H as <-.
  apply add_one_first_length in A. cbn. rewrite A. auto.
Qed.
Lemma bad_wire_wf s s' : input_share_wf p 0 s -> bad_wire_seed p s = Ok s' -> input_share_wf p 0 s'.
Proof.
  destruct s as [m pr b|]; [|discriminate]. cbn. intros (E & L & W & B) H. apply bind_Ok in H as (m' & A & H). injection H as <-.
  apply add_one_first_length in A. cbn. rewrite A. auto.
Qed.
Lemma bad_gadget_wf s s' : input_share_wf p 0 s -> bad_gadget_poly p s = Ok s' -> input_share_wf p 0 s'.
Proof.
  destruct s as [m pr b|]; [|discriminate]. cbn. intros (E & L & W & B) H. apply bind_Ok in H as (m' & A & H). injection H as <-.
  apply add_one_last_length in A. cbn. rewrite A. auto.
Qed.
Lemma bad_seed_wf s s' : input_share_wf p 1 s -> bad_helper_seed p s = Ok s' -> input_share_wf p 1 s'.
Proof.
  destruct s as [m pr b|]; [discriminate|]. cbn. intros (E & L & W) H. apply bind_Ok in H as (m' & A & H). injection H as <-.
  apply flip_first_length in A. cbn. rewrite A. auto.
Qed.
Lemma blind_flip b b' : blind_wf p (Some b) -> flip_first b = Ok b' -> blind_wf p (Some b').
Proof.
  unfold blind_wf. destruct (0 <? JOINT_RAND_LEN flp); [|discriminate]. intros (s & E & L) H. injection E as <-.
  exists b'. split; [easy|]. apply flip_first_length in H. congruence.
Qed.
Lemma bad_leader_blind_wf s s' : input_share_wf p 0 s -> bad_leader_jr_blind p s = Ok s' -> input_share_wf p 0 s'.
Proof.
  destruct s as [m pr [b|]|]; [|discriminate|discriminate]. cbn [input_share_wf bad_leader_jr_blind].
  intros (E & L & W & B) H. apply bind_Ok in H as (b' & A & H). injection H as <-.
  cbn [input_share_wf]. split; [easy|]. split; [easy|]. split; [easy|]. now apply (blind_flip b).
Qed.
Lemma bad_helper_blind_wf s s' : input_share_wf p 1 s -> bad_helper_jr_blind p s = Ok s' -> input_share_wf p 1 s'.
Proof.
  destruct s as [|m [b|]]; [discriminate| |discriminate]. cbn [input_share_wf bad_helper_jr_blind].
  intros (E & L & B) H. apply bind_Ok in H as (b' & A & H). injection H as <-.
  cbn [input_share_wf]. split; [easy|]. split; [easy|]. now apply (blind_flip b).
Qed.
Lemma bad_public_wf s s' : public_share_wf p s -> bad_public_share s = Ok s' -> public_share_wf p s'.
Proof.
  destruct s as [parts|]; [|discriminate]. unfold public_share_wf. destruct (0 <? JOINT_RAND_LEN flp); [|discriminate].
  intros (q & E & L & FA) H. injection E as <-. cbn [bad_public_share] in H.
  apply bind_Ok in H as (b & G & H). apply bind_Ok in H as (b' & A & H). apply bind_Ok in H as (parts' & S & H). injection H as <-.
  destruct parts as [|b0 parts]; [discriminate G|]. injection G as ->. cbn in S. injection S as <-.
  apply flip_first_length in A. exists (b' :: parts). split; [easy|]. split; [exact L|].
  inversion FA; subst. constructor; [congruence|easy].
Qed.

Lemma gen_rand_length n : length (test_vec_gen_rand n) = n.
Proof. unfold test_vec_gen_rand. unfold range; rewrite map_length, ?seq_length; now try lia. Qed.

Theorem count_vectors_pass none m meas vecs :
  flp_encode flp m = Ok meas -> length meas = MEAS_LEN flp ->
  gen_negative_count p none ctx m = Ok vecs ->
  length vecs = 4 /\ Forall (fun tv => check_test_vector (Prio3Vdaf p) result_eqb tv = Ok tt) vecs.
Proof.
  intros He Hl H. unfold gen_negative_count in H. cbv zeta in H.
  apply bind_Ok in H as (((ps & is0) & is1) & Es & H).
  destruct (shard_two_wf m meas _ _ ps is0 is1 (gen_rand_length _) (gen_rand_length _) He Hl Es) as (WP & W0 & W1).
  pose proof (gen_rand_length (p3_VERIFY_KEY_SIZE p)) as Hk.
  apply bind_Ok in H as (b0 & B0 & H). apply bind_Ok in H as (v0 & V0 & H).
  apply bind_Ok in H as (b1 & B1 & H). apply bind_Ok in H as (v1 & V1 & H).
  apply bind_Ok in H as (b2 & B2 & H). apply bind_Ok in H as (v2 & V2 & H).
  apply bind_Ok in H as (b3 & B3 & H). apply bind_Ok in H as (v3 & V3 & H). injection H as <-.
  split; [reflexivity|].
  apply bad_meas_wf in B0; [|easy]. apply bad_wire_wf in B1; [|easy]. apply bad_gadget_wf in B2; [|easy]. apply bad_seed_wf in B3; [|easy].
  constructor; [|constructor; [|constructor; [|constructor; [|constructor]]]];
    (eapply (p3_failure_passes p lim HO H2 good valid HF _ ctx Hc Hk result_eqb); cycle -1; [eassumption|assumption..]).
Qed.

Theorem histogram_vectors_pass none m meas key nonce vecs : length key = p3_VERIFY_KEY_SIZE p -> length nonce = p3_NONCE_SIZE ->
  flp_encode flp m = Ok meas -> length meas = MEAS_LEN flp ->
  gen_negative_histogram p none key nonce ctx m = Ok vecs ->
  length vecs = 4 /\ Forall (fun tv => check_test_vector (Prio3Vdaf p) result_eqb tv = Ok tt) vecs.
Proof.
  intros Hk Hn He Hl H. unfold gen_negative_histogram in H. cbv zeta in H.
  apply bind_Ok in H as (((ps & is0) & is1) & Es & H).
  destruct (shard_two_wf m meas _ _ ps is0 is1 Hn (gen_rand_length _) He Hl Es) as (WP & W0 & W1).
  apply bind_Ok in H as (b0 & B0 & H). apply bind_Ok in H as (v0 & V0 & H).
  apply bind_Ok in H as (b1 & B1 & H). apply bind_Ok in H as (v1 & V1 & H).
  apply bind_Ok in H as (b2 & B2 & H). apply bind_Ok in H as (v2 & V2 & H).
  apply bind_Ok in H as (v3 & V3 & H). injection H as <-.
  split; [reflexivity|].
  assert (HJ : 0 < JOINT_RAND_LEN flp).
  { destruct ps as [parts|]; [|discriminate B2]. unfold public_share_wf in WP.
    destruct (Nat.ltb_spec 0 (JOINT_RAND_LEN flp)); [easy|discriminate WP]. }
  apply bad_leader_blind_wf in B0; [|easy]. apply bad_helper_blind_wf in B1; [|easy]. apply bad_public_wf in B2; [|easy].
  constructor; [|constructor; [|constructor; [|constructor; [|constructor]]]].
  1-3: (eapply (p3_failure_passes p lim HO H2 good valid HF _ ctx Hc Hk result_eqb); cycle -1; [eassumption|assumption..]).
  eapply (p3_bad_message_passes p lim HO H2 good valid HF _ ctx Hc Hk result_eqb); cycle -1; [eassumption|assumption..].
Qed.
End P3.

(** Prio3Count with two Aggregators: what each of the first three vectors comes to. *)
Section Count.
Context {P : NttFieldClass} (HP : NttOk P) (Hf : CircuitSpec.fits P Mul 1).
Context (X : XofClass) (ID : Z) (vks : nat).
Notation F := (F P).
Notation p := {| p3_field := P; p3_flp := FlpBBCGGI19 (Count P); p3_xof := X; p3_ID := ID;
                 p3_VERIFY_KEY_SIZE := vks; p3_SHARES := 2; p3_PROOFS := 1 |}.
Add Ring FringNC : (@F_ring P).
Context (lim : Z) (HO : Prio3Ok p lim) (HnM : (2 < MODULUS P)%Z).
Context (good : list F -> Prop) (valid : list F -> list F -> Prop) (HF : FlpOk (FlpBBCGGI19 (Count P)) good valid).

Lemma one_neq0 : @fof P 1 <> f0.
Proof. exact (f1_neq_f0 (ntt_prime P HP)). Qed.

Theorem count_generator none key ctx nonce rand public iss (ms prs : list (list F)) bls prove_seed (pr jr : list F)
  (proofs : list (list F)) (x t : F) (m0 p0 : list F) b0 h :
  ctx_ok ctx -> length key = vks ->
  (x = f0 \/ x = f1) ->
  Report p ctx [x] nonce rand public iss ms prs bls prove_seed pr jr proofs ->
  iss = [Leader m0 p0 b0; h] ->
  query_rands p key ctx nonce = Ok [t] -> fmul t t <> f1 ->
  let gen (s : Prio3InputShare P) := prio3_message_failure p none key nonce rand ctx public s h in
  (exists s tv, bad_meas_share p (Leader m0 p0 b0) = Ok s /\ gen s = Ok tv) /\
  (exists s tv, bad_gadget_poly p (Leader m0 p0 b0) = Ok s /\ gen s = Ok tv) /\
  (exists s, bad_wire_seed p (Leader m0 p0 b0) = Ok s /\
     if feqb (wire2 (nth 1 pr f0) x t) f0
     then gen s = Raise (Exception_ "verifier_shares_to_message should fail")
     else exists tv, gen s = Ok tv).
Proof.
  intros Hc Hk Hx R HI HQ Ht gen.
  pose proof (rp_wf _ _ _ _ _ _ _ _ _ _ _ _ _ _ R) as W.
  assert (W0 : input_share_wf p 0 (Leader m0 p0 b0)) by (specialize (W 0 (Leader m0 p0 b0)); rewrite HI in W; apply W; cbn; lia).
  assert (W1 : input_share_wf p 1 h) by (specialize (W 1 (Leader m0 p0 b0)); rewrite HI in W; apply W; cbn; lia).
  pose proof (rp_public _ _ _ _ _ _ _ _ _ _ _ _ _ _ R) as WP.
  pose proof W0 as (_ & Lm & Lp & _). cbn in Lm, Lp.
  apply len1 in Lm as (a & ->). apply len5 in Lp as (q0 & q1 & q2 & q3 & q4 & ->).
  assert (Z : forall u : F, fadd u f0 = u) by (intros; ring).
  assert (G : forall m1 p1 dx dp, length dx = 1 -> length dp = 5 -> m1 = zip_with fadd [a] dx -> p1 = zip_with fadd [q0; q1; q2; q3; q4] dp ->
    exists g0 g1, count_accepts x [nth 0 pr f0; nth 1 pr f0; g0; g1; x] t = true /\
      if count_accepts (fadd x (nth 0 dx f0)) (zip_with fadd [nth 0 pr f0; nth 1 pr f0; g0; g1; x] dp) t
      then gen (Leader m1 p1 b0) = Raise (Exception_ "verifier_shares_to_message should fail")
      else exists tv, gen (Leader m1 p1 b0) = Ok tv).
  { intros m1 p1 dx dp Ldx Ldp -> ->.
    destruct (count_tampered HP Hf X ID vks 2 ltac:(lia) HnM key ctx nonce rand public iss ms prs bls prove_seed pr jr proofs x t _ _ b0 _ dx dp
                Hx R HI Ldx Ldp HQ Ht) as (g0 & g1 & vs & Lv & A & I & M).
    cbv zeta in *. exists g0, g1. split; [exact A|].
    destruct vs as [|v0 [|v1 [|? ?]]]; try discriminate Lv. cbn [map] in M.
    destruct (I 0 h ltac:(lia)) as (o0 & I0). destruct (I 1 h ltac:(lia)) as (o1 & I1). cbn [nth] in I0, I1.
    assert (W0' : input_share_wf p 0 (Leader (zip_with fadd [a] dx) (zip_with fadd [q0; q1; q2; q3; q4] dp) b0)).
    { destruct W0 as (E & L & L' & B). split; [exact E|]. split; [|split; [|exact B]].
      - destruct dx as [|? [|? ?]]; try discriminate Ldx. exact L.
      - apply len5 in Ldp as (? & ? & ? & ? & ? & ->). exact L'. }
    pose proof (p3_failure_total p lim HO eq_refl good valid HF key ctx Hc Hk none nonce rand public _ _ _ _ _ _ WP W0' W1 I0 I1) as T.
    unfold gen. 
    match goal with |- if ?b then _ else _ => match type of M with _ = (if ?c then _ else _) => change c with b in M; destruct b end end.
    - match type of T with match ?m with _ => _ end => assert (E : m = Ok None) end. exact M. rewrite E in T. exact T.
    - match type of T with match ?m with _ => _ end => assert (E : m = Raise (ValueError "proof verifier check failed")) end. exact M.
      rewrite E in T. exact T. }
  split; [|split].
  - exists (Leader [fadd a (fof 1)] [q0; q1; q2; q3; q4] b0).
    destruct (G [fadd a (fof 1)] [q0; q1; q2; q3; q4] [fof 1] [f0; f0; f0; f0; f0] eq_refl eq_refl eq_refl) as (g0 & g1 & A & T).
    { cbn. now rewrite !Z. }
    cbn [zip_with] in T. rewrite !Z in T. cbn [nth] in T.
    rewrite (tamper_meas x _ _ _ _ _ t (fof 1) one_neq0 A) in T.
    destruct T as (tv & T). exists tv. now split.
  - exists (Leader [a] [q0; q1; q2; q3; fadd q4 (fof 1)] b0).
    destruct (G [a] [q0; q1; q2; q3; fadd q4 (fof 1)] [f0] [f0; f0; f0; f0; fof 1] eq_refl eq_refl) as (g0 & g1 & A & T).
    { cbn. now rewrite !Z. } { cbn. now rewrite !Z. }
    cbn [zip_with] in T. cbn [nth] in T. rewrite !Z in T.
    rewrite (tamper_g2 x _ _ _ _ _ t (fof 1) one_neq0 A) in T.
    destruct T as (tv & T). exists tv. now split.
  - exists (Leader [a] [fadd q0 (fof 1); q1; q2; q3; q4] b0). split; [reflexivity|].
    destruct (G [a] [fadd q0 (fof 1); q1; q2; q3; q4] [f0] [fof 1; f0; f0; f0; f0] eq_refl eq_refl) as (g0 & g1 & A & T).
    { cbn. now rewrite !Z. } { cbn. now rewrite !Z. }
    cbn [zip_with] in T. cbn [nth] in T. rewrite !Z in T.
    rewrite (tamper_s0 HP x _ _ _ _ _ t (fof 1) Ht one_neq0 A) in T. exact T.
Qed.
End Count.
