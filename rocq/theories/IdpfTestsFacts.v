(** What the unit tests of the IDPF accept. *)
From Verif Require Import IdpfTests FieldTestsFacts IdpfSpec IdpfFacts IdpfCodec IdpfInst PostFacts VdafFacts FieldFacts Poplar1Run CodecProofs.
Open Scope nat_scope.

Lemma map_nth_lt {A B} (f : A -> B) l k (d : A) (e : B) : k < length l -> nth k (map f l) e = f (nth k l d).
Proof. intros H. rewrite (nth_indep _ e (f d)) by now rewrite map_length. apply map_nth. Qed.
Lemma NoDup_app_intro {A} (l r : list A) : NoDup l -> NoDup r -> (forall x, In x l -> ~ In x r) -> NoDup (l ++ r).
Proof.
  induction l as [|x l IH]; cbn; intros H1 H2 H; [exact H2|]. inversion H1; subst. constructor.
  - rewrite in_app_iff. intros [?|?]; [contradiction|]. apply (H x); auto.
  - apply IH; auto.
Qed.
Lemma from_le_bytes_app a b : from_le_bytes (a ++ b) = (from_le_bytes a + 256 ^ Z.of_nat (length a) * from_le_bytes b)%Z.
Proof.
  induction a as [|x a IH]; [cbn [app length from_le_bytes]; change (256 ^ Z.of_nat 0)%Z with 1%Z; lia|].
  cbn [app length from_le_bytes]. rewrite IH, Nat2Z.inj_succ, Z.pow_succ_r by lia. lia.
Qed.

Lemma ints_eqb_eq x y : ints_eqb x y = true <-> x = y.
Proof.
  revert y. induction x as [|a x IH]; intros [|b y]; cbn; try easy.
  rewrite andb_true_iff, Z.eqb_eq, IH. split; [now intros [-> ->]|intros H; now inversion H].
Qed.
Lemma fv_eqb_refl {Pi Pl} (v : FieldVec Pi Pl) : fv_eqb v v = true.
Proof. now apply ints_eqb_eq. Qed.

(** * Bit strings *)
Lemma int_to_bits_spec v n : length (int_to_bit_string v n) = n /\
  forall i, i < n -> nth i (int_to_bit_string v n) false = Z.testbit v (Z.of_nat (n - 1 - i)).
Proof.
  unfold int_to_bit_string, range. rewrite map_length, seq_length. split; [lia|]. intros i Hi.
  rewrite (map_nth_lt _ _ _ 0) by (rewrite seq_length; lia).
  rewrite seq_nth by lia. cbn [Nat.add].
  rewrite (Z.land_ones _ 1 ltac:(lia)). change (2 ^ 1)%Z with 2%Z.
  rewrite <- Z.bit0_mod, Z.shiftr_spec by lia. rewrite Z.add_0_l. now destruct (Z.testbit _ _).
Qed.

Lemma byte_bits x : map (fun m => negb (Z.land (b2z x) m =? 0)%Z) [128; 64; 32; 16; 8; 4; 2; 1]%Z = int_to_bit_string (b2z x) 8.
Proof. destruct x; reflexivity. Qed.

Lemma bits_ext (a b : list bool) n : length a = n -> length b = n -> (forall i, i < n -> nth i a false = nth i b false) -> a = b.
Proof. intros Ha Hb H. apply nth_ext with (d := false) (d' := false); [congruence|]. intros i Hi. apply H. lia. Qed.

Lemma from_be_cons x s : from_be_bytes (x :: s) = (b2z x * 2 ^ (8 * Z.of_nat (length s)) + from_be_bytes s)%Z.
Proof.
  unfold from_be_bytes. cbn [rev]. rewrite from_le_bytes_app, rev_length.
  change (from_le_bytes [x]) with (b2z x + 256 * 0)%Z.
  replace (2 ^ (8 * Z.of_nat (length s)))%Z with (256 ^ Z.of_nat (length s))%Z by (rewrite (Z.pow_mul_r 2 8) by lia; reflexivity).
  lia.
Qed.

Lemma bytes_to_bits s : bytes_to_bit_string s = int_to_bit_string (from_be_bytes s) (8 * length s).
Proof.
  induction s as [|x s IH]; [reflexivity|].
  unfold bytes_to_bit_string in *. cbn [flat_map]. rewrite byte_bits, IH.
  destruct (int_to_bits_spec (b2z x) 8) as [L1 B1].
  destruct (int_to_bits_spec (from_be_bytes s) (8 * length s)) as [L2 B2].
  destruct (int_to_bits_spec (from_be_bytes (x :: s)) (8 * length (x :: s))) as [L3 B3].
  apply (bits_ext _ _ (8 * length (x :: s))).
  - rewrite app_length, L1, L2. cbn [length]. lia.
  - exact L3.
  - intros i Hi. rewrite B3 by exact Hi. rewrite from_be_cons. cbn [length] in *.
    pose proof (from_be_bytes_range s) as R.
    assert (Hpow : (0 < 2 ^ (8 * Z.of_nat (length s)))%Z) by (apply Z.pow_pos_nonneg; lia).
    rename R into R'.
    destruct (Nat.lt_ge_cases i 8) as [H8|H8].
    + rewrite app_nth1 by lia. rewrite B1 by lia.
      replace (Z.of_nat (8 * S (length s) - 1 - i)) with (Z.of_nat (8 - 1 - i) + 8 * Z.of_nat (length s))%Z by lia.
      rewrite <- Z.div_pow2_bits by lia.
      rewrite Z.div_add_l by lia. rewrite Z.div_small by exact R'. now rewrite Z.add_0_r.
    + rewrite app_nth2 by lia. rewrite L1, B2 by lia.
      replace (8 * length s - 1 - (i - 8)) with (8 * S (length s) - 1 - i) by lia.
      set (k := Z.of_nat (8 * S (length s) - 1 - i)).
      rewrite <- (Z.mod_pow2_bits_low (b2z x * _ + _) (8 * Z.of_nat (length s))) by (unfold k; lia).
      rewrite Z.add_comm, Z.mod_add by lia. now rewrite Z.mod_small by exact R'.
Qed.

Lemma int_to_bits_inj n v w : int_to_bit_string v n = int_to_bit_string w n <-> (v mod 2 ^ Z.of_nat n = w mod 2 ^ Z.of_nat n)%Z.
Proof.
  destruct (int_to_bits_spec v n) as [Lv Bv]. destruct (int_to_bits_spec w n) as [Lw Bw]. split.
  - intros E. apply Z.bits_inj'. intros k Hk. destruct (Z.lt_ge_cases k (Z.of_nat n)) as [H|H].
    + rewrite !Z.mod_pow2_bits_low by lia.
      specialize (Bv (n - 1 - Z.to_nat k) ltac:(lia)). specialize (Bw (n - 1 - Z.to_nat k) ltac:(lia)).
      rewrite E, Bw in Bv. replace (Z.of_nat (n - 1 - (n - 1 - Z.to_nat k))) with k in Bv by lia. now symmetry.
    + rewrite !Z.mod_pow2_bits_high by lia. reflexivity.
  - intros E. apply (bits_ext _ _ n Lv Lw). intros i Hi. rewrite Bv, Bw by lia.
    rewrite <- (Z.mod_pow2_bits_low v (Z.of_nat n)), <- (Z.mod_pow2_bits_low w (Z.of_nat n)) by lia. now rewrite E.
Qed.

(** * All bit strings of a length *)
Lemma bit_product_len n x : In x (bit_product n) -> length x = n.
Proof.
  revert x. induction n as [|n IH]; intros x; cbn; [intros [<-|[]]; reflexivity|].
  rewrite in_app_iff, !in_map_iff. intros [(y & <- & H)|(y & <- & H)]; cbn; f_equal; auto.
Qed.
Lemma bit_product_all n x : length x = n -> In x (bit_product n).
Proof.
  revert x. induction n as [|n IH]; intros [|b x] H; try discriminate; cbn; [now left|].
  injection H as H. apply in_app_iff. destruct b; [right|left]; apply in_map, IH, H.
Qed.
Lemma bit_product_NoDup n : NoDup (bit_product n).
Proof.
  induction n as [|n IH]; cbn; [repeat constructor; easy|].
  assert (J : forall b, NoDup (map (cons b) (bit_product n))).
  { intros b. apply NoDup_map_inj; [|exact IH]. intros x y _ _ E. now injection E. }
  apply NoDup_app_intro; [apply J|apply J|].
  intros x H1 H2. apply in_map_iff in H1 as (y & <- & _). apply in_map_iff in H2 as (z & E & _). discriminate.
Qed.

Section Test.
Context (i : Idpf) (lim : Z) (HI : IdpfOk i lim).
Notation Pi := (id_field_inner i).
Notation Pl := (id_field_leaf i).
Notation VLEN := (id_VALUE_LEN i).
Notation BITS := (id_BITS i).
Let ctx := byte_literal "some context".

Lemma ctx_fits : ctx_ok ctx.
Proof. unfold ctx_ok, ctx. vm_compute. reflexivity. Qed.

Lemma level_zeros_at n : level_zeros i (Z.of_nat n) = zero_at i n VLEN.
Proof.
  unfold level_zeros, zero_at. pose proof (io_bits i lim HI).
  destruct (Z.ltb_spec (Z.of_nat n) (Z.of_nat BITS - 1)), (Nat.ltb_spec n (BITS - 1)); try lia; reflexivity.
Qed.

Lemma wanted_ok alpha bi bl n prefix : length bi = BITS - 1 ->
  wanted i alpha bi bl (Z.of_nat n) prefix = Ok (point_value i alpha bi bl n prefix).
Proof.
  intros Hb. unfold wanted, point_value, is_prefix. rewrite Nat2Z.id, Nat.add_1_r.
  pose proof (io_bits i lim HI).
  destruct (bits_eqb prefix (firstn (S n) alpha)) eqn:E.
  - apply bits_eqb_eq in E. destruct (list_eq_dec _ _ _) as [_|N]; [|contradiction].
    unfold beta_at. destruct (Z.ltb_spec (Z.of_nat n) (Z.of_nat BITS - 1)), (Nat.ltb_spec n (BITS - 1)); try lia; [|reflexivity].
    now rewrite (get_nth _ _ []) by lia.
  - destruct (list_eq_dec _ _ _) as [Y|_]; [apply bits_eqb_eq in Y; congruence|]. f_equal. apply level_zeros_at.
Qed.

Lemma zero_add n v : of_level i n VLEN v -> fv_add (zero_at i n VLEN) v = Ok v.
Proof.
  unfold of_level, zero_at. destruct v as [l|l]; intros [H1 H2].
  - apply Nat.ltb_lt in H1 as ->. cbn [fv_add fv_as]. rewrite map_fcast_id.
    rewrite vec_add_ok by now rewrite repeat_length. cbn [bind]. now rewrite zip_fadd_0_l by lia.
  - apply Nat.ltb_ge in H1 as ->. cbn [fv_add fv_as]. rewrite map_fcast_id.
    rewrite vec_add_ok by now rewrite repeat_length. cbn [bind]. now rewrite zip_fadd_0_l by lia.
Qed.

Lemma combine_map_self {A B} (g : A -> B) (d : A) l : combine (map (fun j => g (nth j l d)) (seq 0 (length l))) l = map (fun x => (g x, x)) l.
Proof.
  assert (E : map (fun j => g (nth j l d)) (seq 0 (length l)) = map g l).
  { apply nth_ext with (d := g d) (d' := g d); [now rewrite !map_length, seq_length|].
    intros k Hk. rewrite map_length, seq_length in Hk.
    rewrite (map_nth_lt _ _ _ 0) by now rewrite seq_length. rewrite seq_nth by lia. now rewrite map_nth. }
  rewrite E. clear E. induction l as [|x l IH]; cbn; [reflexivity|]. f_equal. exact IH.
Qed.

Lemma eval_levels j ps key level prefixes c nonce out : ctx_ok c -> length key = id_KEY_SIZE i ->
  idpf_public_wf i ps -> idpf_eval i j ps key (Z.of_nat level) prefixes c nonce = Ok out ->
  length out = length prefixes /\ Forall (of_level i level VLEN) out.
Proof.
  intros Hc Hk [Hl HW] H.
  rewrite eval_mapM in H. apply bind_Ok in H. destruct H as (? & _ & H). apply bind_Ok in H. destruct H as (? & Hlv & H).
  apply check_Ok in Hlv. apply bind_Ok in H. destruct H as (? & _ & H).
  split; [apply (mapM_Ok_length _ _ _ H)|].
  assert (Hlt : level < BITS) by lia.
  clear Hlv x x0 x1. revert out H. induction prefixes as [|x l IH]; intros out H; cbn [mapM] in H.
  - injection H as <-. constructor.
  - apply bind_Ok in H. destruct H as (y & Hy & H). apply bind_Ok in H. destruct H as (ys & Hys & H). injection H as <-.
    constructor; [|now apply IH].
    destruct (Nat.eq_dec (length x) (S level)) as [Hx|Hx].
    + rewrite (eval_prefix_walk i c nonce j ps key level x Hx) in Hy.
      pose proof (walk_post i lim HI c nonce j ps key x (S level) Hk Hc ltac:(lia) ltac:(lia) (fun l cw _ H => HW l cw H)) as HP.
      destruct (walk i c nonce j ps key x (S level)) as [[[s cc] z]|e]; [|discriminate]. cbn [post bind] in *.
      destruct HP as [_ HP]. specialize (HP ltac:(lia)). cbn [snd] in HP. rewrite Nat.sub_succ, Nat.sub_0_r in HP.
      injection Hy as <-. destruct (j =? 0); [easy|]. now apply neg_of_level.
    + unfold eval_prefix in Hy. rewrite (proj2 (Z.eqb_neq _ _)) in Hy by lia. discriminate.
Qed.

Definition request_ok (level : Z) (prefixes : list (list bool)) : Prop :=
  (0 <= level < Z.of_nat BITS)%Z /\ NoDup prefixes /\ Forall (fun x => Z.of_nat (length x) = level + 1)%Z prefixes.

Lemma repeat_seq {A} (x : A) n : repeat x n = map (fun _ => x) (seq 0 n).
Proof. generalize 0. induction n as [|n IH]; intros k; cbn; [reflexivity|]. f_equal. apply IH. Qed.

Lemma idpf_test_outcome alpha level prefixes rand nonce :
  (1 < MODULUS Pi)%Z -> (1 < MODULUS Pl)%Z ->
  length alpha = BITS -> length nonce = id_NONCE_SIZE i -> length rand = id_RAND_SIZE i ->
  match run_idpf_test i alpha level prefixes rand nonce with
  | Ok _ => request_ok level prefixes
  | Raise (ValueError _) => ~ request_ok level prefixes
  | Raise e => e = OutOfFuel /\ idpf_ran_out i
  end.
Proof.
  intros Mi Ml Ha Hn Hr. unfold run_idpf_test.
  destruct (field_init_val (P := Pi) 1 ltac:(lia)) as (oi & Ei & _). rewrite Ei. cbn [bind].
  destruct (field_init_val (P := Pl) 1 ltac:(lia)) as (ol & El & _). rewrite El. cbn [bind].
  fold ctx. set (bi := repeat (repeat oi VLEN) (BITS - 1)). set (bl := repeat ol VLEN).
  assert (GA : gen_args_ok i alpha bi bl ctx nonce rand).
  { constructor; auto; unfold bi, bl; rewrite ?repeat_length; auto; [|apply ctx_fits].
    apply Forall_forall. intros x Hx. apply repeat_spec in Hx as ->. apply repeat_length. }
  pose proof (gen_total i lim HI _ _ _ _ _ _ GA) as G.
  destruct (idpf_gen i alpha bi bl ctx nonce rand) as [[ps keys]|e] eqn:EG; cbn [bind].
  2: destruct G as [-> G]; auto.
  destruct G as (WF & k0 & k1 & -> & L0 & L1 & _).
  change id_SHARES with 2. rewrite for_range_2. cbn [get nth_error bind].
  pose proof (eval_args i lim HI 0 ps k0 level prefixes ctx nonce ctx_fits L0 WF) as A0.
  cbv zeta in A0.
  destruct (idpf_eval i 0 ps k0 level prefixes ctx nonce) as [o0|e] eqn:E0; cbn [bind].
  2: { destruct e; auto. intros (H1 & H2 & H3). apply A0. auto. }
  destruct A0 as (_ & Hlv & ND & Hlen).
  assert (Hlv' : exists n, level = Z.of_nat n /\ n < BITS) by (exists (Z.to_nat level); lia).
  destruct Hlv' as (n & -> & Hn').
  assert (Hlen' : Forall (fun x => length x = S n) prefixes) by (eapply Forall_impl; [|exact Hlen]; cbn; lia).
  destruct (eval_levels 0 ps k0 n prefixes ctx nonce o0 ctx_fits L0 WF E0) as [Lo0 Fo0].
  pose proof (eval_sums i lim HI _ _ _ _ _ _ _ _ _ n prefixes GA EG Hn' ND Hlen') as S.
  rewrite E0 in S. rewrite level_zeros_at. set (z := zero_at i n VLEN).
  rewrite repeat_seq.
  rewrite (for_range_upd1 (length prefixes) _ (fun j => nth j o0 z)).
  2: { intros l j Hj Hl Ll. rewrite (proj2 (get_Ok l j z)) by exact Hl. cbn [bind].
       rewrite (get_nth o0 j z) by lia. cbn [bind].
       assert (Hof : of_level i n VLEN (nth j o0 z)) by (apply (proj1 (Forall_forall _ _) Fo0), nth_In; lia).
       rewrite (zero_add n (nth j o0 z) Hof : fv_add z (nth j o0 z) = _). cbn [bind]. apply set_lt. lia. }
  cbn [bind].
  destruct (idpf_eval i 1 ps k1 (Z.of_nat n) prefixes ctx nonce) as [o1|e] eqn:E1; cbn [bind].
  2: { destruct S as [-> S]. auto. }
  destruct S as (_ & Lo1 & _ & _ & S).
  rewrite (for_range_upd1 (length prefixes) _ (fun j => point_value i alpha bi bl n (nth j prefixes []))).
  2: { intros l j Hj Hl Ll. rewrite (proj2 (get_Ok l j _) Hl). cbn [bind].
       rewrite (get_nth o1 j z) by lia. cbn [bind]. rewrite S by exact Hj. cbn [bind]. apply set_lt. lia. }
  cbn [bind].
  replace (foldM _ _ tt) with (Ok tt : res unit); [now repeat split|]. symmetry. apply foldM_unit.
  intros [got prefix] Hin. rewrite combine_map_self in Hin. apply in_map_iff in Hin as (x & E & Hin).
  injection E as <- <-. rewrite wanted_ok by (unfold bi; apply repeat_length).
  cbn [bind]. unfold assert_true. now rewrite fv_eqb_refl.
Qed.

Lemma exhaustive_test alpha bi bl rand nonce : gen_args_ok i alpha bi bl ctx nonce rand ->
  run_idpf_exhaustive_test i alpha bi bl rand nonce = Ok tt \/
  run_idpf_exhaustive_test i alpha bi bl rand nonce = Raise OutOfFuel /\ idpf_ran_out i.
Proof.
  intros GA. unfold run_idpf_exhaustive_test. fold ctx.
  pose proof (gen_total i lim HI _ _ _ _ _ _ GA) as G.
  destruct (idpf_gen i alpha bi bl ctx nonce rand) as [[ps keys]|e] eqn:EG; cbn [bind].
  2: destruct G as [-> G]; auto.
  destruct G as (WF & k0 & k1 & -> & L0 & L1 & _).
  match goal with |- ?m = Ok tt \/ _ => destruct m as [[]|e] eqn:EM; [now left|right] end.
  assert (Q : e = OutOfFuel /\ idpf_ran_out i); [|destruct Q as [-> Q]; auto].
  revert EM. apply (foldM_unit_raise _ (fun e => e = OutOfFuel /\ idpf_ran_out i)). clear e.
  intros n e Hin. apply in_seq in Hin. cbv zeta.
  set (prefixes := bit_product (n + 1)).
  assert (ND : NoDup prefixes) by apply bit_product_NoDup.
  assert (Hlen : Forall (fun x => length x = S n) prefixes).
  { apply Forall_forall. intros x Hx. rewrite <- Nat.add_1_r. now apply bit_product_len. }
  pose proof (eval_sums i lim HI _ _ _ _ _ _ _ _ _ n prefixes GA EG ltac:(lia) ND Hlen) as S.
  change (range 0 id_SHARES) with [0; 1]. cbn [mapM bind].
  change (get [k0; k1] 0) with (Ok k0). change (get [k0; k1] 1) with (Ok k1). cbn [bind].
  destruct (idpf_eval i 0 ps k0 (Z.of_nat n) prefixes ctx nonce) as [o0|e'] eqn:E0; cbn [bind].
  2: { intros E. injection E as <-. exact S. }
  destruct (idpf_eval i 1 ps k1 (Z.of_nat n) prefixes ctx nonce) as [o1|e'] eqn:E1; cbn [bind].
  2: { intros E. injection E as <-. exact S. }
  destruct S as (Lo0 & Lo1 & _ & _ & S).
  match goal with |- ?m = _ -> _ => replace m with (Ok tt : res unit); [discriminate|symmetry] end.
  apply foldM_unit. intros [k prefix] Hk. unfold enumerate in Hk.
  assert (Hkp : k < length prefixes /\ prefix = nth k prefixes []).
  { apply (In_nth _ _ (0, [])) in Hk as (t & Ht & E). rewrite combine_length, seq_length in Ht.
    rewrite combine_nth in E by apply seq_length. rewrite seq_nth in E by lia. injection E as <- <-. split; [lia|reflexivity]. }
  destruct Hkp as [Hkl ->]. cbn [mapM].
  rewrite (get_nth o0 k (zero_at i n VLEN)), (get_nth o1 k (zero_at i n VLEN)) by lia.
  cbn [bind get nth_error skipn foldM]. rewrite S by exact Hkl. cbn [bind].
  rewrite wanted_ok by apply (ga_inner _ _ _ _ _ _ _ GA). cbn [bind]. unfold assert_true. now rewrite fv_eqb_refl.
Qed.

(** The loop of test_index_encoding: when the prefix is the beginning of the
    big-endian bits of the string, the two shares add up to 1. *)
Lemma index_case s prefix n rand nonce : VLEN = 1 -> (1 < MODULUS Pi)%Z -> (1 < MODULUS Pl)%Z ->
  8 * length s = BITS -> n < BITS -> length nonce = id_NONCE_SIZE i -> length rand = id_RAND_SIZE i ->
  length prefix = S n ->
  match index_encoding_case i s prefix (Z.of_nat n) rand nonce with
  | Ok _ => prefix = firstn (S n) (int_to_bit_string (from_be_bytes s) (8 * length s))
  | Raise AssertionError => prefix <> firstn (S n) (int_to_bit_string (from_be_bytes s) (8 * length s))
  | Raise e => e = OutOfFuel /\ idpf_ran_out i
  end.
Proof.
  intros HV Mi Ml Hs Hn' Hn Hr Hp. unfold index_encoding_case. fold ctx. rewrite bytes_to_bits.
  set (alpha := int_to_bit_string _ _).
  assert (Ha : length alpha = BITS) by (rewrite <- Hs; apply int_to_bits_spec).
  destruct (field_init_val (P := Pi) 1 ltac:(lia)) as (oi & Ei & Vi). rewrite Ei. cbn [bind].
  destruct (field_init_val (P := Pl) 1 ltac:(lia)) as (ol & El & Vl). rewrite El. cbn [bind].
  set (bi := repeat [oi] (BITS - 1)). set (bl := [ol]).
  assert (GA : gen_args_ok i alpha bi bl ctx nonce rand).
  { constructor; auto; unfold bi, bl; rewrite ?repeat_length; auto; [|apply ctx_fits].
    apply Forall_forall. intros x Hx. apply repeat_spec in Hx as ->. now rewrite HV. }
  pose proof (gen_total i lim HI _ _ _ _ _ _ GA) as G.
  destruct (idpf_gen i alpha bi bl ctx nonce rand) as [[ps keys]|e] eqn:EG; cbn [bind].
  2: destruct G as [-> G]; auto.
  destruct G as (WF & k0 & k1 & -> & L0 & L1 & _). cbn [get nth_error bind].
  assert (ND : NoDup [prefix]) by (repeat constructor; easy).
  assert (Hlen : Forall (fun x => length x = S n) [prefix]) by now repeat constructor.
  pose proof (eval_sums i lim HI _ _ _ _ _ _ _ _ _ n [prefix] GA EG ltac:(lia) ND Hlen) as HS.
  destruct (idpf_eval i 0 ps k0 (Z.of_nat n) [prefix] ctx nonce) as [o0|e'] eqn:E0; cbn [bind].
  2: { destruct HS as [-> HS]; auto. }
  destruct (idpf_eval i 1 ps k1 (Z.of_nat n) [prefix] ctx nonce) as [o1|e'] eqn:E1; cbn [bind].
  2: { destruct HS as [-> HS]; auto. }
  destruct HS as (Lo0 & Lo1 & _ & _ & HS).
  fold (get o0 0). fold (get o1 0).
  rewrite (get_nth o0 0 (zero_at i n VLEN)) by (rewrite Lo0; apply Nat.lt_0_1). cbn [bind].
  rewrite (get_nth o1 0 (zero_at i n VLEN)) by (rewrite Lo1; apply Nat.lt_0_1). cbn [bind].
  rewrite (HS 0 _ Nat.lt_0_1). cbn [bind nth]. unfold point_value.
  destruct (list_eq_dec Bool.bool_dec prefix (firstn (S n) alpha)) as [E|E].
  - unfold beta_at. destruct (Nat.ltb_spec n (BITS - 1)) as [Q|Q]; cbn [fv_vals].
    + unfold bi. rewrite nth_repeat', (proj2 (Nat.ltb_lt _ _) Q). cbn [map nth_error bind]. rewrite Vi. exact E.
    + unfold bl. cbn [map nth_error bind]. rewrite Vl. exact E.
  - unfold zero_at. rewrite HV. destruct (Nat.ltb_spec n (BITS - 1)) as [Q|Q]; cbn [fv_vals repeat map nth_error bind];
      exact E.
Qed.

Lemma public_share_eqb_refl ps : public_share_eqb i ps ps = true.
Proof.
  induction ps as [|[[s [a b]] w] ps IH]; [reflexivity|]. cbn [public_share_eqb cw_eqb].
  now rewrite bytes_eqb_refl, !Bool.eqb_reflx, fv_eqb_refl, IH.
Qed.

Lemma roundtrip_test rand nonce : VLEN = 1 -> BITS = 32 -> (97 < MODULUS Pi)%Z -> (97 < MODULUS Pl)%Z ->
  wf_field Pi -> wf_field Pl -> length nonce = id_NONCE_SIZE i -> length rand = id_RAND_SIZE i ->
  public_share_roundtrip i rand nonce = Ok tt \/ public_share_roundtrip i rand nonce = Raise OutOfFuel /\ idpf_ran_out i.
Proof.
  intros HV HB Mi Ml Wi Wl Hn Hr. unfold public_share_roundtrip. fold ctx.
  set (alpha := bytes_to_bit_string _).
  destruct (field_init_val (P := Pi) 23 ltac:(lia)) as (oi & Ei & Vi). rewrite Ei. cbn [bind].
  destruct (field_init_val (P := Pl) 97 ltac:(lia)) as (ol & El & Vl). rewrite El. cbn [bind].
  set (bi := repeat [oi] (BITS - 1)). set (bl := [ol]).
  assert (GA : gen_args_ok i alpha bi bl ctx nonce rand).
  { constructor; unfold bi, bl; rewrite ?repeat_length; [|reflexivity| |now rewrite HV|apply ctx_fits|exact Hn|exact Hr].
    - unfold alpha. rewrite HB. reflexivity.
    - apply Forall_forall. intros x Hx. apply repeat_spec in Hx as ->. now rewrite HV. }
  pose proof (gen_total i lim HI _ _ _ _ _ _ GA) as G.
  destruct (idpf_gen i alpha bi bl ctx nonce rand) as [[ps keys]|e] eqn:EG; cbn [bind].
  2: destruct G as [-> G]; auto.
  destruct G as (WF & _). left.
  destruct (idpf_public_codec i Wi Wl ltac:(lia)) as [C _]. destruct (C ps WF) as (enc & Ee & Ed).
  rewrite Ee. cbn [bind]. rewrite Ed. cbn [bind]. unfold assert_true. now rewrite public_share_eqb_refl.
Qed.
End Test.
