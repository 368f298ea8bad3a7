(** Property C105: what an Aggregator gives away when it is handed a changed
    public share.  The document assumes that this does not happen: the attacker
    cannot forge messages between honest Clients and honest Aggregators
    (draft-irtf-cfrg-vdaf.md:5968-5973). *)
From Verif Require Import TwoRandSpec TwoRandFacts TwoRandRun Prio3Inst CollectFacts Prio3Props Prio3Facts Prio3Run MeasSpec FlpInstances CircuitInstances Circuits FlpProofs FlpFacts MeasFacts FieldFacts BaseFacts Props_Prio3 Props_Offline.
Open Scope nat_scope.

(** C105.  The proof system.  A verifier of a valid measurement, computed with
    joint randomness other than the one the proof was made with, misses the
    gadget's value by a linear form in the encoded measurement; it is accepted
    exactly if that form vanishes.  Everything else in the form is known to
    whoever has the verifier and the randomness. *)
Theorem C105_flp : forall (P : NttFieldClass), NttOk P -> forall (v : Valid P), std_circuit P v -> 0 < vJOINT_RAND_LEN v ->
  exists ell : list (F P) -> nat -> F P,
  (forall query_rand k, test_points_ok v query_rand -> k < nth 0 (GADGET_CALLS v) 0 -> ell query_rand k <> f0) /\
  forall meas prove_rand query_rand joint_rand other_rand : list (F P),
  length meas = vMEAS_LEN v -> length prove_rand = prove_rand_len v -> length query_rand = query_rand_len v ->
  length joint_rand = vJOINT_RAND_LEN v -> length other_rand = vJOINT_RAND_LEN v ->
  circuit_zero v meas joint_rand -> test_points_ok v query_rand ->
  exists ver, forked_verifier v meas prove_rand query_rand joint_rand other_rand = Ok ver /\ length ver = verifier_len v /\ nth 0 ver f0 = f0 /\
    discrepancy v ver = linear_form v (ell query_rand) ver joint_rand other_rand meas /\
    bbcggi19_decide v ver = Ok (feqb (discrepancy v ver) f0).
Proof. exact @std_forked_ok. Qed.
Print Assumptions C105_flp.

(** C105.  Prio3.  The Client's report is honest, but the Leader hands the
    Helpers a public share in which its own part is replaced by [x].  The
    Helpers derive joint randomness the Leader can compute, too; their verifier
    shares and the Leader's own add up to verifiers that miss by the linear
    form, and with the part [x] the Leader makes the Helpers finish exactly if
    all the forms vanish. *)
Theorem C105_prio3 : forall (P : NttFieldClass), NttOk P -> wf_field P ->
  forall (v : Valid P), std_circuit P v -> 0 < vJOINT_RAND_LEN v ->
  forall (ID : Z) (ts : TurboShake) (bound shares proofs : nat), (0 <= ID < 2 ^ 32)%Z ->
  2 <= shares < 256 -> (Z.of_nat shares < MODULUS P)%Z -> 0 < proofs < 256 ->
  let p := prio3_obj P ID v ts bound shares proofs in
  exists ell : list (F P) -> nat -> F P,
  (forall query_rand k, test_points_ok v query_rand -> k < nth 0 (GADGET_CALLS v) 0 -> ell query_rand k <> f0) /\
  forall ctx M (meas : list (F P)) nonce rand parts iss x key (st ver : nat -> list (F P) * option bytes) (d : Prio3InputShare P),
  ctx_ok ctx -> length nonce = p3_NONCE_SIZE -> length rand = RAND_SIZE p ->
  valid_encode v M = Ok meas -> accepts v meas ->
  p3_shard p ctx M nonce rand = Ok (Some parts, iss) ->
  (forall j, 1 <= j < shares -> p3_verify_init p key ctx j tt nonce (Some (x :: tl parts)) (nth j iss d) = Ok (st j, ver j)) ->
  exists seed (jr : list (F P)) seed' (jr' qr m0 p0 : list (F P)) b0 vss0,
    joint_rand_seed p ctx parts = Ok seed /\ joint_rands p ctx seed = Ok jr /\
    joint_rand_seed p ctx (x :: tl parts) = Ok seed' /\ joint_rands p ctx seed' = Ok jr' /\
    query_rands p key ctx nonce = Ok qr /\
    expand_input_share p ctx 0 (nth 0 iss d) = Ok (m0, p0, b0) /\ proof_verifiers p m0 p0 qr jr' = Ok vss0 /\
    let total := vsum (verifier_len v * proofs) (concat vss0 :: map (fun j => fst (ver j)) (seq 1 (shares - 1))) in
    let part k := piece (verifier_len v) k total in
    let vanish := forallb (fun k => feqb (discrepancy v (part k)) f0) (seq 0 proofs) in
    (forall k, k < proofs -> discrepancy v (part k) =
       linear_form v (ell (piece (query_rand_len v) k qr)) (part k) (piece (vJOINT_RAND_LEN v) k jr) (piece (vJOINT_RAND_LEN v) k jr') meas) /\
    p3_verifier_shares_to_message p ctx tt ((concat vss0, Some x) :: map ver (seq 1 (shares - 1))) =
      (if vanish then Ok (Some seed') else Raise (ValueError "proof verifier check failed")) /\
    forall j, 1 <= j < shares -> p3_verify_next p ctx (st j) (Some seed') = Ok (inr (fst (st j))).
Proof.
  intros P HP HW v Hv HJ ID ts bound shares proofs HID Hs HsM [Hp0 Hp] p.
  destruct (forked_run HP v Hv HJ (XofTurboShake128 ts bound) ID 32 shares proofs (obj_lim P bound)
    (obj_ok P HW ID HID ts bound shares proofs Hs HsM Hp v)) as (ell & H1 & H2).
  exists ell. split; [exact H1|]. intros ctx M meas nonce rand parts iss x key st ver d Hc Hn Hr He Ha HS HI.
  destruct (H2 ctx M meas nonce rand parts iss x key st ver d Hc Hn Hr He (std_encode_length v Hv M meas He) Ha HS Hp0 HI)
    as (seed & jr & seed' & jr' & qr & m0 & p0 & b0 & vss0 & E1 & E2 & E3 & E4 & E5 & E6 & E7 & E8 & E9 & E10).
  exists seed, jr, seed', jr', qr, m0, p0, b0, vss0. repeat (split; [eassumption|]).
  intros j Hj. specialize (E8 j Hj). destruct (st j) as [o s]. apply verify_next_iff. cbn [snd] in E8. split; [symmetry; exact E8 | reflexivity].
Qed.
Print Assumptions C105_prio3.

(** C105.  Honest Aggregators are not deceived: if all of them accept, each with
    a public share of its own, then these agree with the parts that the
    Aggregators derive, except for the entry an Aggregator replaces anyway, and
    all use the same joint randomness -- or the seed derivation collides. *)
Theorem C105_binding : forall (p : Prio3) (lim : Z), Prio3Ok p lim ->
  forall key ctx nonce (public : nat -> list bytes) (is : nat -> Prio3InputShare (p3_field p)) st sh msg,
  0 < JOINT_RAND_LEN (p3_flp p) ->
  (forall j, j < p3_SHARES p -> length (public j) = p3_SHARES p /\ Forall (fun x => length x = SEED_SIZE (p3_xof p)) (public j)) ->
  (forall j, j < p3_SHARES p -> p3_verify_init p key ctx j tt nonce (Some (public j)) (is j) = Ok (st j, sh j)) ->
  p3_verifier_shares_to_message p ctx tt (map sh (seq 0 (p3_SHARES p))) = Ok msg ->
  (forall j, j < p3_SHARES p -> exists o, p3_verify_next p ctx (st j) msg = Ok o) ->
  (exists parts seed jr, length parts = p3_SHARES p /\ joint_rand_seed p ctx parts = Ok seed /\ msg = Some seed /\
     joint_rands p ctx seed = Ok jr /\
     forall j, j < p3_SHARES p -> upd (public j) j (nth j parts []) = parts /\ exists ms ps blind,
       expand_input_share p ctx j (is j) = Ok (ms, ps, Some blind) /\
       joint_rand_part p ctx j blind ms nonce = Ok (nth j parts []) /\
       verify_joint_rand p ctx j (Some blind) ms nonce (Some (public j)) = Ok (Some seed, Some (nth j parts []), jr))
  \/ seed_collision (p3_xof p).
Proof. exact separate_binding. Qed.
Print Assumptions C105_binding.

(** C105.  A measurement whose encoding is all-zero is accepted whatever joint
    randomness is used, and so is every measurement if the joint randomness is
    the Client's. *)
Theorem C105_vanishes : forall (P : NttFieldClass) (v : Valid P) (ell : nat -> F P) ver joint_rand other_rand meas,
  allzero meas \/ other_rand = joint_rand -> linear_form v ell ver joint_rand other_rand meas = f0.
Proof. exact @form_zero. Qed.
Print Assumptions C105_vanishes.

(** C105.  One bit (SumVec of length 1, maximum 1, chunk length 1): the
    measurement is revealed, by the verifier and by the outcome alike. *)
Theorem C105_bit : forall (P : NttFieldClass), NttOk P -> let v := SumVec P 1 1 1 in std_circuit P v ->
  exists ell : list (F P) -> F P,
  forall b prove_rand query_rand r s ver, is_bit b -> length prove_rand = prove_rand_len v -> length query_rand = query_rand_len v ->
  test_points_ok v query_rand -> r <> s -> forked_verifier v [b] prove_rand query_rand [r] [s] = Ok ver -> nth 2 ver f0 <> f0 ->
  b = fmul (discrepancy v ver) (finv (fmul (nth 2 ver f0) (fmul (ell query_rand) (fsub s r)))) /\
  (bbcggi19_decide v ver = Ok true <-> b = f0).
Proof.
  intros P HP v Hv. destruct (std_forked_ok HP v Hv ltac:(cbn; lia)) as (ell & Hell & H). exists (fun q => ell q 0).
  intros b pr q r s ver Hb Lp Lq Hq Hne E N2.
  pose proof (SumVec_accepts HP 1 1 1 ltac:(lia) [b] eq_refl (Forall_cons b Hb (Forall_nil _)) [r] eq_refl) as Hz.
  destruct (H [b] pr q [r] [s] eq_refl Lp Lq eq_refl eq_refl Hz Hq) as (ver' & E' & _ & _ & Ed & Edec).
  assert (ver' = ver) as -> by congruence. exact (bit_told HP (ell q 0) b r s ver (Hell q 0 Hq ltac:(cbn; lia)) Hne N2 Ed Edec).
Qed.
Print Assumptions C105_bit.

(** C105.  Without joint randomness the public share has no influence. *)
Theorem C105_unused : forall (p : Prio3) key ctx j nonce public public' is, JOINT_RAND_LEN (p3_flp p) = 0 ->
  p3_verify_init p key ctx j tt nonce public is = p3_verify_init p key ctx j tt nonce public' is.
Proof. intros p key ctx j nonce public public' is H. unfold p3_verify_init, verify_joint_rand. now rewrite H. Qed.
Print Assumptions C105_unused.

(** C105.  In no case does the output share depend on the public share. *)
Theorem C105_output : forall (p : Prio3) key ctx j nonce public public' is st st' ver ver',
  p3_verify_init p key ctx j tt nonce public is = Ok (st, ver) -> p3_verify_init p key ctx j tt nonce public' is = Ok (st', ver') -> fst st = fst st'.
Proof.
  intros p key ctx j nonce public public' is st st' ver ver' H H'. unfold p3_verify_init in H, H'.
  destruct (expand_input_share p ctx j is) as [[[ms ps] b]|e]; [|discriminate]. cbn [bind] in H, H'.
  destruct (flp_truncate (p3_flp p) ms) as [o|e]; [|discriminate]. cbn [bind] in H, H'.
  apply bind_Ok in H as ([[? ?] ?] & _ & H). apply bind_Ok in H as (? & _ & H). apply bind_Ok in H as ([[[? ?] ?] ?] & _ & H).
  apply bind_Ok in H' as ([[? ?] ?] & _ & H'). apply bind_Ok in H' as (? & _ & H'). apply bind_Ok in H' as ([[[? ?] ?] ?] & _ & H').
  injection H as <- _. injection H' as <- _. reflexivity.
Qed.
Print Assumptions C105_output.

(** The Leader's attack on reports of 0 and of 1. *)
Definition C105_attack (b : Z) : res (option bytes) :=
  let p := prio3_obj Field128 3 (SumVec Field128 1 1 1) toy_ts 50 2 1 in
  let* (public, iss) := p3_shard p [x01] [b] (zeros 16) (repeat x09 128) in
  match public, iss with
  | Some parts, [is0; is1] =>
    let public := repeat x03 32 :: tl parts in
    let* (st1, ver1) := p3_verify_init p (repeat x05 32) [x01] 1 tt (zeros 16) (Some public) is1 in
    let* seed := joint_rand_seed p [x01] public in
    let* jr := joint_rands p [x01] seed in
    let* qr := query_rands p (repeat x05 32) [x01] (zeros 16) in
    let* (m0, p0, _) := expand_input_share p [x01] 0 is0 in
    let* vss := proof_verifiers p m0 p0 qr jr in
    p3_verifier_shares_to_message p [x01] tt [(concat vss, Some (repeat x03 32)); ver1]
  | _, _ => Raise AssertionError
  end.
Definition C105_zero := Eval vm_compute in C105_attack 0.
Definition C105_one := Eval vm_compute in C105_attack 1.
Example C105_example : (exists seed, C105_zero = Ok (Some seed)) /\ C105_one = Raise (ValueError "proof verifier check failed").
Proof. split; [eexists; reflexivity | reflexivity]. Qed.
Print Assumptions C105_example.

Example C105_hypotheses : let v := SumVec Field128 1 1 1 in std_circuit Field128 v /\ 0 < vJOINT_RAND_LEN v /\
  forall b, is_bit b -> accepts v [b].
Proof.
  cbv zeta. split; [eapply (std_SumVec _ 1 1 1); [reflexivity | vm_compute; discriminate]|]. split; [cbn; lia|].
  intros b Hb. exact (SumVec_accepts (proj2 fields_ntt) 1 1 1 ltac:(lia) [b] eq_refl (Forall_cons b Hb (Forall_nil _))).
Qed.
Print Assumptions C105_hypotheses.
