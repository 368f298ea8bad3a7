(** What one Aggregator, or all but one, learn from what they are sent: C73 (IDPF), C74 (Poplar1), C75 (Prio3). *)
From Verif Require Import IdpfViewSpec IdpfViewFacts IdpfFacts IdpfInst PostFacts Props_Idpf
  Poplar1ViewSpec Poplar1ViewFacts Poplar1Facts Poplar1Inst Props_Poplar1
  Prio3ViewSpec Prio3ViewFacts Prio3Facts FlpInstances Props_Prio3.
Open Scope nat_scope.

(** C73.  gen is the ideal sharing in which what the XOFs yield for the other
    key along the path to alpha is used as the masks. *)
Theorem C73_gen : forall (i : Idpf) (lim : Z), IdpfOk i lim ->
  forall alpha beta_inner beta_leaf ctx nonce rand public_share k0 k1 (j : bool),
  gen_args_ok i alpha beta_inner beta_leaf ctx nonce rand ->
  idpf_gen i alpha beta_inner beta_leaf ctx nonce rand = Ok (public_share, [k0; k1]) ->
  exists masks, expand i alpha ctx nonce (negb j) (pick (negb j) (k0, k1)) public_share = Ok masks /\
    words_wf i masks /\
    ideal_share i alpha beta_inner beta_leaf ctx nonce j (pick j (k0, k1)) masks = Ok public_share.
Proof. exact gen_ideal. Qed.
Print Assumptions C73_gen.

(** C73.  Whatever alpha and beta are shared and whatever the key of Aggregator
    [j]: masks give a well-formed public share (or a rejection-sampling loop hits
    the model's bound), and every well-formed public share arises from exactly one
    choice of the masks.  So for uniform masks the public share is uniform. *)
Theorem C73_uniform : forall (i : Idpf) (lim : Z), IdpfOk i lim ->
  forall alpha beta_inner beta_leaf ctx nonce rand, gen_args_ok i alpha beta_inner beta_leaf ctx nonce rand ->
  forall (j : bool) key, length key = id_KEY_SIZE i ->
  (forall masks, words_wf i masks ->
     match ideal_share i alpha beta_inner beta_leaf ctx nonce j key masks with
     | Ok public_share => words_wf i public_share
     | Raise e => e = OutOfFuel /\ idpf_ran_out i
     end) /\
  (forall public_share, words_wf i public_share ->
     (exists masks, words_wf i masks /\ ideal_share i alpha beta_inner beta_leaf ctx nonce j key masks = Ok public_share /\
        forall masks', words_wf i masks' ->
          ideal_share i alpha beta_inner beta_leaf ctx nonce j key masks' = Ok public_share -> masks' = masks) \/
     idpf_ran_out i).
Proof.
  intros i lim HO alpha bi bl ctx nonce rand HA j key Hk. unfold words_wf, ideal_share.
  pose proof (ga_ctx _ _ _ _ _ _ _ HA) as Hc. pose proof (beta_levels i _ _ _ _ _ _ HA) as HB. split.
  - intros masks [Ln Hw].
    pose proof (ideal_from_total i lim HO alpha bi bl ctx nonce Hc HB j masks 0 key j (Nat.eq_le_incl _ _ Ln) Hk Hw) as HT.
    destruct (ideal_from _ _ _ _ _ _ _ _ _ _ masks); [|exact HT]. destruct HT as [L HT]. split; [exact (eq_trans L Ln) | exact HT].
  - intros ps [Ln Hw].
    destruct (ideal_from_onto i lim HO alpha bi bl ctx nonce Hc HB j ps 0 key j (Nat.eq_le_incl _ _ Ln) Hk Hw) as [(masks & L & H1 & H2 & H3)|HR];
      [left | now right].
    exists masks. split; [split; [exact (eq_trans L Ln) | exact H1]|]. split; [easy|]. intros masks' [_ Hm]. now apply H3.
Qed.
Print Assumptions C73_uniform.

(** C73.  In particular the view of an Aggregator does not depend on what is
    shared: for any two (alpha, beta), each view of the first arises from exactly
    one choice of the masks for the second. *)
Theorem C73_independent : forall (i : Idpf) (lim : Z), IdpfOk i lim -> ~ idpf_ran_out i ->
  forall alpha beta_inner beta_leaf alpha' beta_inner' beta_leaf' ctx nonce rand,
  gen_args_ok i alpha beta_inner beta_leaf ctx nonce rand -> gen_args_ok i alpha' beta_inner' beta_leaf' ctx nonce rand ->
  forall (j : bool) key, length key = id_KEY_SIZE i ->
  forall masks, words_wf i masks ->
  exists public_share, ideal_share i alpha beta_inner beta_leaf ctx nonce j key masks = Ok public_share /\
  exists masks', words_wf i masks' /\
    ideal_share i alpha' beta_inner' beta_leaf' ctx nonce j key masks' = Ok public_share /\
    forall m, words_wf i m -> ideal_share i alpha' beta_inner' beta_leaf' ctx nonce j key m = Ok public_share -> m = masks'.
Proof.
  intros i lim HO HR alpha bi bl alpha' bi' bl' ctx nonce rand HA HA' j key Hk masks Hm.
  destruct (C73_uniform i lim HO _ _ _ _ _ _ HA j key Hk) as [T _]. specialize (T masks Hm).
  destruct (ideal_share i alpha bi bl ctx nonce j key masks) as [ps|e] eqn:E; [|now destruct T].
  exists ps. split; [easy|].
  destruct (C73_uniform i lim HO _ _ _ _ _ _ HA' j key Hk) as [_ U]. destruct (U ps T) as [H|H]; [exact H | now destruct HR].
Qed.
Print Assumptions C73_independent.

(** A sharing of [1; 3] at the point 10, and the ideal sharing that gives it. *)
Definition word_vals {i} (m : Mask i) : bytes * (bool * bool) * list Z := (fst m, fv_vals (snd m)).
Definition share_vals {i} (r : res (list (Mask i))) : list (bytes * (bool * bool) * list Z) :=
  match r with Ok l => map word_vals l | Raise _ => [] end.
Definition ex_rand : bytes := repeat x03 16 ++ repeat x09 16.
Definition ex_ps2 : list (CorrectionWord ex_idpf) :=
  fst (ok_or ([], []) (idpf_gen ex_idpf [true; false] ex_beta_inner ex_beta_leaf [x01] (repeat x02 16) ex_rand)).
Definition ex_key (j : bool) : bytes := if j then repeat x09 16 else repeat x03 16.
Definition ex_masks (j : bool) : list (Mask ex_idpf) :=
  ok_or [] (expand ex_idpf [true; false] [x01] (repeat x02 16) (negb j) (ex_key (negb j)) ex_ps2).
Definition c73_outcome : list (list (bytes * (bool * bool) * list Z)) := Eval vm_compute in
  map word_vals ex_ps2 ::
  map (fun j => share_vals (ideal_share ex_idpf [true; false] ex_beta_inner ex_beta_leaf [x01] (repeat x02 16) j (ex_key j) (ex_masks j)))
    [false; true].
Example C73_example : exists words, c73_outcome = [words; words; words] /\ length words = 2.
Proof. eexists. split; reflexivity. Qed.

(** The lowest bit of the seeds must be cleared for this: were the control bits
    left in them, a correction word would not be uniform.  The seed of every
    correction word gen makes is even. *)
Theorem C73_even : forall (i : Idpf) (lim : Z), IdpfOk i lim ->
  forall alpha beta_inner beta_leaf ctx nonce rand public_share keys cw,
  gen_args_ok i alpha beta_inner beta_leaf ctx nonce rand ->
  idpf_gen i alpha beta_inner beta_leaf ctx nonce rand = Ok (public_share, keys) -> In cw public_share ->
  even_seed (fst (fst cw)).
Proof.
  intros i lim HO alpha bi bl ctx nonce rand ps keys cw HA E Hin.
  destruct (idpf_correct i lim HO _ _ _ _ _ _ HA _ _ E) as (_ & k0 & k1 & -> & L0 & L1 & _).
  destruct (C73_gen i lim HO _ _ _ _ _ _ _ _ _ false HA E) as (masks & _ & Hw & EI).
  destruct (C73_uniform i lim HO _ _ _ _ _ _ HA false k0 L0) as [T _]. specialize (T masks Hw). cbn [pick fst] in EI.
  rewrite EI in T. destruct T as [_ T]. revert T Hin. generalize 0. clear.
  induction ps as [|a ps IH]; intros n T Hin; [easy|]. destruct T as [(_ & H & _) T]. destruct Hin as [->|Hin]; [exact H | eapply IH; eauto].
Qed.
Print Assumptions C73_even.

(** C74.  Aggregator [j] of Poplar1 has its input share, and receives the public
    share and, for each aggregation parameter, the verifier shares of both rounds.
    When the expansions of the other's IDPF key and correlation seed are replaced by
    masks and coins, whatever it receives for a measurement and authenticators
    arises from exactly one choice of masks and coins for any other measurement and
    authenticators: for uniform masks and coins its view does not depend on the
    measurement. *)
Theorem C74_view : forall (p : Poplar1) (lim : Z), Poplar1Ok p lim -> ~ idpf_ran_out (p1_idpf p) ->
  forall m m' ks ks' kl kl' ctx nonce,
  length m = id_BITS (p1_idpf p) -> length m' = id_BITS (p1_idpf p) ->
  length ks = id_BITS (p1_idpf p) - 1 -> length ks' = id_BITS (p1_idpf p) - 1 ->
  ctx_ok ctx -> length nonce = p1_NONCE_SIZE ->
  forall (j : bool) key, length key = id_KEY_SIZE (p1_idpf p) ->
  forall queries masks coins, Forall (query_wf p) queries -> words_wf (p1_idpf p) masks -> Forall2 (coin_wf p) queries coins ->
  exists view, aggregator_view p j m ks kl ctx nonce key queries masks coins = Ok view /\
  exists masks' coins', words_wf (p1_idpf p) masks' /\ Forall2 (coin_wf p) queries coins' /\
    aggregator_view p j m' ks' kl' ctx nonce key queries masks' coins' = Ok view /\
    forall ms cs, words_wf (p1_idpf p) ms -> Forall2 (coin_wf p) queries cs ->
      aggregator_view p j m' ks' kl' ctx nonce key queries ms cs = Ok view -> ms = masks' /\ cs = coins'.
Proof.
  intros p lim HO HR m m' ks ks' kl kl' ctx nonce Hm Hm' Hks Hks' Hc Hn j key Hk queries masks coins Hq Hw HC.
  destruct (pk_idpf _ _ HO) as [lim' HI].
  assert (HG : forall m ks kl, length m = id_BITS (p1_idpf p) -> length ks = id_BITS (p1_idpf p) - 1 ->
    gen_args_ok (p1_idpf p) m (auth_inner p ks) (auth_leaf p kl) ctx nonce (zeros (id_RAND_SIZE (p1_idpf p)))).
  { clear - HO Hc Hn. intros m ks kl Hm Hks. unfold auth_inner, auth_leaf. constructor; try easy.
    - now rewrite map_length.
    - apply Forall_forall. intros x Hx. apply in_map_iff in Hx. destruct Hx as (k & <- & _). now rewrite (pk_value _ _ HO).
    - now rewrite (pk_value _ _ HO).
    - now rewrite (pk_nonce _ _ HO).
    - apply repeat_length. }
  destruct (C73_independent (p1_idpf p) lim' HI HR _ _ _ _ _ _ ctx nonce _ (HG m ks kl Hm Hks) (HG m' ks' kl' Hm' Hks') j key Hk masks Hw)
    as (ps & Eps & masks' & Hw' & Eps' & Hun).
  assert (Hps : words_wf (p1_idpf p) ps).
  { destruct (C73_uniform (p1_idpf p) lim' HI _ _ _ ctx nonce _ (HG m ks kl Hm Hks) j key Hk) as [T _].
    specialize (T masks Hw). now rewrite Eps in T. }
  destruct (queries_private p lim HO j m m' ks ks' kl kl' ctx nonce key ps Hc Hk Hks Hks' (words_public p ps Hps) HR queries coins Hq HC)
    as (msgs & EM & coins' & HC' & EM' & Hun').
  exists (ps, msgs). unfold aggregator_view. rewrite Eps. cbn [bind]. split; [now rewrite EM|].
  exists masks', coins'. split; [easy|]. split; [easy|]. rewrite Eps'. cbn [bind]. split; [now rewrite EM'|].
  intros ms cs Hms Hcs E.
  destruct (ideal_share (p1_idpf p) m' (auth_inner p ks') (auth_leaf p kl') ctx nonce j key ms) as [ps2|] eqn:E2; [|discriminate E].
  cbn [bind] in E.
  destruct (mapM (fun '(q, coin) => query_messages p j m' ks' kl' ctx nonce key ps2 q coin) (combine queries cs)) as [ms2|] eqn:E3; [|discriminate E].
  cbn [bind] in E. assert (ps2 = ps) by congruence. assert (ms2 = msgs) by congruence. subst ps2 ms2.
  split; [now apply Hun | now apply Hun'].
Qed.
Print Assumptions C74_view.

(** C74.  This is what the code sends: for a sharding and any aggregation
    parameter, the public share and the verifier shares of both rounds are those
    of [aggregator_view], where the masks and coins are what the XOFs put out for
    the IDPF key and the correlation seed of the other Aggregator. *)
Theorem C74_real : forall (p : Poplar1) (lim : Z), Poplar1Ok p lim ->
  forall ctx m nonce rand ps is0 is1, ctx_ok ctx -> length m = id_BITS (p1_idpf p) ->
  length nonce = p1_NONCE_SIZE -> length rand = p1_RAND_SIZE p ->
  p1_shard p ctx m nonce rand = Ok (ps, [is0; is1]) ->
  exists ks kl, length ks = id_BITS (p1_idpf p) - 1 /\
  forall j : bool, let own := if j then is1 else is0 in let other := if j then is0 else is1 in
  exists masks, expand (p1_idpf p) m ctx nonce (negb j) (key_of p other) ps = Ok masks /\ words_wf (p1_idpf p) masks /\
  length (key_of p own) = id_KEY_SIZE (p1_idpf p) /\
  forall vkey level prefixes messages, level < id_BITS (p1_idpf p) -> (Z.of_nat level < 65536)%Z ->
  NoDup prefixes -> Forall (fun x => length x = S level) prefixes -> length vkey = SEED_SIZE (p1_xof p) ->
  real_messages p vkey ctx (Z.of_nat level, prefixes) nonce ps is0 is1 = Ok messages ->
  exists r abc coin, rand_at p vkey ctx nonce level (length prefixes) = Ok r /\
    own_triple p j (seed_of p own) ctx nonce level = Ok abc /\
    own_triple p (negb j) (seed_of p other) ctx nonce level = Ok coin /\
    let q := {| q_level := level; q_prefixes := prefixes; q_rand := r; q_abc := abc; q_AB := own_AB p own level |} in
    query_wf p q /\ coin_wf p q coin /\
    aggregator_view p j m ks kl ctx nonce (key_of p own) [q] masks [coin] = Ok (ps, [messages]).
Proof.
  intros p lim HO ctx m nonce rand ps is0 is1 Hc Hm Hn Hr ES.
  destruct (pk_idpf _ _ HO) as [lim' HI].
  pose proof (shard_post1 p lim HO 0 ctx m nonce rand Hc Hm Hn Hr) as HS. rewrite ES in HS.
  destruct HS as (k0 & k1 & s0 & s1 & ss & ks & kl & ci0 & ci1 & cl0 & cl1 & oi0 & oi1 & ol0 & ol1 & R).
  pose proof (r1_iss _ _ _ _ _ _ _ _ _ _ _ _ _ _ _ _ _ _ _ _ _ _ R) as EI.
  assert (E0 : is0 = (k0, s0, ci0, cl0)) by congruence. assert (E1 : is1 = (k1, s1, ci1, cl1)) by congruence. clear EI. subst is0 is1.
  exists ks, kl. split; [apply R|]. intros j. cbn zeta.
  assert (HG : gen_args_ok (p1_idpf p) m (map (fun k => [fof 1; k]) ks) [fof 1; kl] ctx nonce (k0 ++ k1)).
  { constructor; try easy.
    - rewrite map_length. apply R.
    - apply Forall_forall. intros x Hx. apply in_map_iff in Hx. destruct Hx as (k & <- & _). now rewrite (pk_value _ _ HO).
    - now rewrite (pk_value _ _ HO).
    - now rewrite (pk_nonce _ _ HO).
    - rewrite app_length. destruct (r1_keys _ _ _ _ _ _ _ _ _ _ _ _ _ _ _ _ _ _ _ _ _ _ R) as [-> ->].
      unfold id_RAND_SIZE, id_KEY_SIZE. lia. }
  destruct (C73_gen (p1_idpf p) lim' HI _ _ _ ctx nonce _ ps k0 k1 j HG (r1_gen _ _ _ _ _ _ _ _ _ _ _ _ _ _ _ _ _ _ _ _ _ _ R)) as (masks & EE & Hw & EI).
  destruct (r1_keys _ _ _ _ _ _ _ _ _ _ _ _ _ _ _ _ _ _ _ _ _ _ R) as [Lk0 Lk1].
  exists masks. split; [destruct j; exact EE|]. split; [easy|]. split; [now destruct j|].
  intros vkey level prefixes msgs Hlv Hl16 Hnd Hpl Hk HM.
  destruct (real_run p lim HO j vkey ctx level prefixes m nonce rand ps _ msgs _ _ _ _ _ _ _ _ _ _ _ _ _ _ _ Hlv Hnd Hpl Hc Hk Hl16 Hm Hn R HM)
    as (r & abc & coin & H1 & H2 & H3 & H4 & H5 & H6).
  exists r, abc, coin. split; [easy|]. split; [destruct j; exact H2|]. split; [destruct j; exact H3|].
  split; [exact H4|]. split; [exact H5|].
  unfold aggregator_view.
  replace (ideal_share (p1_idpf p) m (auth_inner p ks) (auth_leaf p kl) ctx nonce j
    (key_of p (if j then (k1, s1, ci1, cl1) else (k0, s0, ci0, cl0))) masks) with (@Ok (list (CorrectionWord (p1_idpf p))) ps)
    by (symmetry; destruct j; exact EI).
  cbn [bind combine mapM].
  match goal with |- context [query_messages p j m ks kl ctx nonce ?k ps ?q coin] =>
    replace (query_messages p j m ks kl ctx nonce k ps q coin) with (@Ok (list (FieldVec (id_field_inner (p1_idpf p)) (id_field_leaf (p1_idpf p)))) msgs)
      by (symmetry; destruct j; exact H6) end.
  reflexivity.
Qed.
Print Assumptions C74_real.

(** A Poplar1 object and a report whose two runs are as in [C74_real], and one
    that meets the hypotheses of [C74_view]. *)
Definition ex_run : bool := Eval vm_compute in
  match p1_shard toy_p1 [x09] [true; false] (repeat x01 16) (repeat x02 128) with
  | Ok (ps, [is0; is1]) => is_ok (real_messages toy_p1 (repeat x07 32) [x09] (0%Z, [[false]; [true]]) (repeat x01 16) ps is0 is1) &&
      is_ok (real_messages toy_p1 (repeat x07 32) [x09] (1%Z, [[false; false]; [true; false]]) (repeat x01 16) ps is0 is1)
  | _ => false
  end.
Definition zero_p1 : Poplar1 := p1_obj (fun _ _ _ => x00) (fun _ b => b) 4 2.
Example C74_example :
  ex_run = true /\ (exists lim, Poplar1Ok zero_p1 lim) /\ ~ idpf_ran_out (p1_idpf zero_p1) /\
  words_wf (p1_idpf zero_p1) [(zeros 16, (true, false), Inner [fof 3; fof 4]); (zeros 16, (false, false), Leaf [fof 5; fof 6])] /\
  query_wf zero_p1 {| q_level := 0; q_prefixes := [[false]; [true]]; q_rand := Inner [fof 7; fof 8]; q_abc := Inner [fof 1; fof 2; fof 3];
    q_AB := Inner [fof 4; fof 5] |}.
Proof.
  split; [reflexivity|]. split; [|split; [|split]].
  - apply p1_obj_ok; [easy | reflexivity | lia].
  - apply zero_never; [easy | lia].
  - split; [reflexivity|]. cbn [words_from]. unfold word_wf, even_seed, of_level. cbn [fst snd]. repeat split; cbn; lia.
  - split; [cbn; lia|]. split; [repeat constructor; cbn; intuition discriminate|]. cbn. repeat split; try lia; repeat constructor.
Qed.

(** C75.  Prio3 with [n] Aggregators and [m] proofs.  All Aggregators but number
    [j] pool what they see of a report: their shares of measurement and proofs,
    and the verifiers that all of them send.  For any two measurements in the
    language of the circuit, each view of the first arises from exactly one
    choice of the coins for the second: the view is independent of the
    measurement. *)
Theorem C75_view : forall P : NttFieldClass, NttOk P -> forall v : Valid P, ValidOk v ->
  forall (X : XofClass) (ID : Z) (vks n m : nat), 1 <= n -> (Z.of_nat n < MODULUS P)%Z ->
  let p := {| p3_field := P; p3_flp := FlpBBCGGI19 v; p3_xof := X; p3_ID := ID;
              p3_VERIFY_KEY_SIZE := vks; p3_SHARES := n; p3_PROOFS := m |} in
  forall query_rand joint_rand : list (F P),
  length query_rand = query_rand_len v * m -> length joint_rand = vJOINT_RAND_LEN v * m ->
  (forall k, k < m -> test_points_ok v (piece (query_rand_len v) k query_rand)) ->
  forall j (meas meas' : list (F P)), length meas = vMEAS_LEN v -> length meas' = vMEAS_LEN v ->
  (forall k, k < m -> circuit_zero v meas (piece (vJOINT_RAND_LEN v) k joint_rand)) ->
  (forall k, k < m -> circuit_zero v meas' (piece (vJOINT_RAND_LEN v) k joint_rand)) -> j < n ->
  forall c, p3_coins_wf p c ->
  exists view, prio3_view p j meas query_rand joint_rand c = Ok view /\
  exists c', p3_coins_wf p c' /\ prio3_view p j meas' query_rand joint_rand c' = Ok view /\
    forall c'', p3_coins_wf p c'' -> prio3_view p j meas' query_rand joint_rand c'' = Ok view -> c'' = c'.
Proof. exact @view_independent. Qed.
Print Assumptions C75_view.

(** C75.  In particular for the circuits of the library and any two valid
    measurements. *)
Theorem C75_std : forall P : NttFieldClass, NttOk P -> forall v : Valid P, std_circuit P v ->
  forall (ID : Z) (ts : TurboShake) (bound shares proofs : nat), 1 <= shares -> (Z.of_nat shares < MODULUS P)%Z ->
  let p := prio3_obj P ID v ts bound shares proofs in
  forall query_rand joint_rand : list (F P),
  length query_rand = query_rand_len v * proofs -> length joint_rand = vJOINT_RAND_LEN v * proofs ->
  (forall k, k < proofs -> test_points_ok v (piece (query_rand_len v) k query_rand)) ->
  forall j (meas meas' : list (F P)), length meas = vMEAS_LEN v -> length meas' = vMEAS_LEN v ->
  accepts v meas -> accepts v meas' -> j < shares ->
  forall c, p3_coins_wf p c ->
  exists view, prio3_view p j meas query_rand joint_rand c = Ok view /\
  exists c', p3_coins_wf p c' /\ prio3_view p j meas' query_rand joint_rand c' = Ok view /\
    forall c'', p3_coins_wf p c'' -> prio3_view p j meas' query_rand joint_rand c'' = Ok view -> c'' = c'.
Proof.
  intros P HP v HS ID ts bound n m Hn HnM p qr jr Lq Lj Hq j meas meas' Hm Hm' A A' Hj.
  apply (view_independent HP v (proj1 (std_ok HP v HS)) _ ID 32 n m Hn HnM qr jr Lq Lj Hq j meas meas' Hm Hm'); [| |exact Hj].
  - intros k Hk. apply A. now apply piece_length with m.
  - intros k Hk. apply A'. now apply piece_length with m.
Qed.
Print Assumptions C75_std.

(** C75.  What shard and verify_init produce is such a view, the coins being what
    the XOF expands from the seeds: the Helpers' shares from the seeds in their
    input shares, the prove randomness from the prove seed. *)
Theorem C75_real : forall P : NttFieldClass, NttOk P -> forall v : Valid P, ValidOk v -> truncate_linear v ->
  forall (X : XofClass) (ID : Z) (vks n m : nat),
  let p := {| p3_field := P; p3_flp := FlpBBCGGI19 v; p3_xof := X; p3_ID := ID;
              p3_VERIFY_KEY_SIZE := vks; p3_SHARES := n; p3_PROOFS := m |} in
  forall lim, Prio3Ok p lim ->
  forall key ctx (M : vMeasurement v) (meas : list (F P)) nonce rand public input_shares (d : Prio3InputShare P)
    (states verifier_shares : nat -> list (F P) * option bytes),
  ctx_ok ctx -> length nonce = p3_NONCE_SIZE -> length rand = RAND_SIZE p ->
  valid_encode v M = Ok meas -> length meas = vMEAS_LEN v ->
  p3_shard p ctx M nonce rand = Ok (public, input_shares) ->
  (forall j, j < n -> p3_verify_init p key ctx j tt nonce public (nth j input_shares d) = Ok (states j, verifier_shares j)) ->
  exists (prove_seed : bytes) (prove_rand : list (F P)) (meas_shares proofs_shares : list (list (F P)))
    (blinds : list (option bytes)) (query_rand joint_rand : list (F P)) (verifiers : list (list (list (F P)))),
    p3_coins_wf p (prove_rand, tl meas_shares, tl proofs_shares) /\ prove_rands p ctx prove_seed = Ok prove_rand /\
    (forall j, j < n -> expand_input_share p ctx j (nth j input_shares d)
       = Ok (nth j meas_shares [], nth j proofs_shares [], nth j blinds None)) /\
    query_rands p key ctx nonce = Ok query_rand /\
    (if 0 <? vJOINT_RAND_LEN v
     then exists parts seed, public = Some parts /\ joint_rand_seed p ctx parts = Ok seed /\ joint_rands p ctx seed = Ok joint_rand
     else public = None /\ joint_rand = []) /\
    length verifiers = n /\ (forall j, j < n -> fst (verifier_shares j) = concat (nth j verifiers [])) /\
    (forall j, prio3_view p j meas query_rand joint_rand (prove_rand, tl meas_shares, tl proofs_shares)
       = Ok (without j meas_shares, without j proofs_shares, verifiers)).
Proof. exact @real_view. Qed.
Print Assumptions C75_real.

(** Two proofs, three Aggregators: a view of the measurement 1 and the coins that
    give the same view, without Aggregator 0, for the measurement 0. *)
Definition c75_p : Prio3 := prio3_obj Field64 1 (Count Field64) toy_ts 50 3 2.
Definition c75_helpers : list (list (F Field64)) := [map fof [4]%Z; map fof [9]%Z].
Definition c75_proofs : list (list (F Field64)) := [map fof [1; 2; 3; 4; 5; 6; 7; 8; 9; 10]%Z; map fof [11; 2; 3; 4; 5; 6; 7; 8; 9; 10]%Z].
Definition c75_vals (r : res (list (list (F Field64)) * list (list (F Field64)) * list (list (list (F Field64))))) :=
  match r with Ok (a, b, c) => Some (map (map val) a, map (map val) b, map (map (map val)) c) | Raise _ => None end.
Definition c75_half : F Field64 := fof 9223372034707292161.
Definition c75_second : F Field64 := fsub (fof 7) c75_half.
Definition c75_outcome : list (option (list (list Z) * list (list Z) * list (list (list Z)))) := Eval vm_compute in
  [c75_vals (prio3_view c75_p 0 [f1] (map fof [3; 3]%Z) [] (map fof [5; 7; 5; 7]%Z, c75_helpers, c75_proofs));
   c75_vals (prio3_view c75_p 0 [f0] (map fof [3; 3]%Z) []
    ([fsub (fof 5) c75_half; c75_second; fsub (fof 5) c75_half; c75_second], c75_helpers, c75_proofs))].
Example C75_example : (exists v, c75_outcome = [Some v; Some v]) /\
  p3_coins_wf c75_p (map fof [5; 7; 5; 7]%Z, c75_helpers, c75_proofs).
Proof.
  split; [eexists; reflexivity|].
  split; [reflexivity|]. split; (split; [reflexivity|]); repeat constructor.
Qed.

(** The hypotheses of C75_real are met. *)
Definition c75_real_outcome : bool := Eval vm_compute in
  match p3_shard c75_p [] 1%Z (zeros 16) (zeros 96) with
  | Ok (public, iss) => forallb (fun j => is_ok (p3_verify_init c75_p (zeros 32) [] j tt (zeros 16) public (nth j iss (Helper [] None)))) [0; 1; 2]
  | Raise _ => false
  end.
Example C75_real_example : c75_real_outcome = true.
Proof. reflexivity. Qed.
