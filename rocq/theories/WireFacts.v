(** The codecs and the message structures of the document: proofs. *)
From Verif Require Import Wire WireSpec Prio3 Prio3Spec Prio3Facts Prio3Props Poplar1 Poplar1Spec Poplar1Codec Idpf IdpfSpec IdpfCodec ParseFacts
  PingPong PingPongSpec PingPongFacts FieldFacts CommonFacts Field BaseFacts Xof.
From Coq Require Import Lia.
Open Scope nat_scope.

(** ** Numbers *)
Lemma le_bytes_digits n : forall z, (0 <= z)%Z -> le_bytes n z = digits n z.
Proof.
  unfold digits. induction n as [|n IH]; intros z Hz; [easy|]. cbn [le_bytes seq map]. f_equal.
  - f_equal. now rewrite Z.pow_0_r, Z.div_1_r.
  - rewrite IH by (apply Z.div_pos; lia). rewrite <- seq_shift, map_map. apply map_ext. intros i. do 2 f_equal.
    rewrite Z.div_div by (try apply Z.pow_pos_nonneg; lia). f_equal. rewrite Nat2Z.inj_succ, Z.pow_succ_r by lia. reflexivity.
Qed.
Lemma digits_length n z : length (digits n z) = n.
Proof. unfold digits. now rewrite map_length, seq_length. Qed.
Lemma be_bytes_digits z n b : to_be_bytes z n = Ok b -> (0 <= z)%Z /\ (z < 256 ^ Z.of_nat n)%Z /\ b = rev (digits n z).
Proof.
  unfold to_be_bytes. destruct (Z.ltb_spec z 0) as [|H0]; [discriminate|]. cbn [orb].
  rewrite Z.shiftl_mul_pow2, Z.mul_1_l, Z.pow_mul_r by lia. change (2 ^ 8)%Z with 256%Z.
  destruct (Z.leb_spec (256 ^ Z.of_nat n) z) as [|H1]; [discriminate|]. intros [= <-]. rewrite le_bytes_digits by lia. auto.
Qed.
Lemma be_total z n : (0 <= z)%Z -> (z < 256 ^ Z.of_nat n)%Z -> to_be_bytes z n = Ok (rev (digits n z)).
Proof.
  intros H0 H1. unfold to_be_bytes. rewrite (proj2 (Z.ltb_ge _ _) H0). cbn [orb].
  rewrite Z.shiftl_mul_pow2, Z.mul_1_l, Z.pow_mul_r by lia. change (2 ^ 8)%Z with 256%Z.
  rewrite (proj2 (Z.leb_gt _ _) H1). now rewrite le_bytes_digits.
Qed.

Lemma wire_uint n z : (0 <= z)%Z -> (z < 256 ^ Z.of_nat n)%Z -> wire (Wuint n) (Vint z) = Some (rev (digits n z)).
Proof. intros H0 H1. cbn [wire]. now rewrite (proj2 (Z.leb_le _ _) H0), (proj2 (Z.ltb_lt _ _) H1). Qed.
Lemma wire_opaque n b : length b = n -> wire (Wopaque n) (Vbytes b) = Some b.
Proof. intros H. cbn [wire]. now rewrite (proj2 (Nat.eqb_eq _ _) H). Qed.
Lemma wire_var n b : (Z.of_nat (length b) < 256 ^ Z.of_nat n)%Z ->
  wire (Wvar n) (Vbytes b) = Some (rev (digits n (Z.of_nat (length b))) ++ b).
Proof. intros H. cbn [wire]. now rewrite (proj2 (Z.ltb_lt _ _) H). Qed.

Lemma cat_all {A} (f : A -> option bytes) g l : (forall x, In x l -> f x = Some (g x)) -> cat (map f l) = Some (concat (map g l)).
Proof.
  induction l as [|x l IH]; intros H; [easy|]. cbn [map cat concat]. rewrite (H x) by now left. rewrite IH; [easy|]. intros y Hy. apply H. now right.
Qed.
Lemma wire_vec {A} (f : A -> wval) g t l n : (forall x, In x l -> wire t (f x) = Some (g x)) -> length (concat (map g l)) = n ->
  wire (Wvec t n) (Vseq (map f l)) = Some (concat (map g l)).
Proof.
  intros H L. cbn [wire]. rewrite map_map. rewrite (cat_all _ g l H). now rewrite (proj2 (Nat.eqb_eq _ _) L).
Qed.
Lemma wire_nil : wire (Wstruct []) (Vseq []) = Some [].
Proof. reflexivity. Qed.
Lemma wire_cons t v a ts vs b : wire t v = Some a -> wire (Wstruct ts) (Vseq vs) = Some b ->
  wire (Wstruct (t :: ts)) (Vseq (v :: vs)) = Some (a ++ b).
Proof. intros Ha Hb. cbn [wire] in *. rewrite Ha. rewrite Hb. reflexivity. Qed.

Lemma elem_bytes {P : FieldClass} (x : F P) : wire (Wopaque (ENCODED_SIZE P)) (elem_val x) = Some (encode_elem x).
Proof.
  unfold elem_val, encode_elem. rewrite wire_opaque by apply digits_length. f_equal. symmetry. apply le_bytes_digits. exact (proj1 (val_range x)).
Qed.
Lemma vec_bytes_length {P : FieldClass} (l : list (F P)) : length (vec_bytes l) = ENCODED_SIZE P * length l.
Proof.
  unfold vec_bytes. induction l as [|x l IH]; [cbn; lia|]. cbn [map concat]. rewrite app_length, IH. unfold encode_elem. rewrite le_bytes_length. cbn [length]. lia.
Qed.
Lemma wire_field_vec {P : FieldClass} (l : list (F P)) n : n = ENCODED_SIZE P * length l ->
  wire (Wvec (Wopaque (ENCODED_SIZE P)) n) (vec_val l) = Some (vec_bytes l).
Proof.
  intros ->. apply (wire_vec elem_val encode_elem); [intros x _; apply elem_bytes|]. apply vec_bytes_length.
Qed.

(** ** From codecs to structures *)
Lemma follow {A} W (enc : A -> res bytes) dec t view : canonical_codec W enc dec ->
  (forall x b, W x -> enc x = Ok b -> wire t (view x) = Some b) -> writes W enc t view /\ reads W dec t view /\ only W dec.
Proof.
  intros [C1 C2] H. split; [|split].
  - intros x Wx. destruct (C1 x Wx) as (b & E & _). exists b. auto.
  - intros b x Wx. split.
    + intros D. destruct (C2 b x D) as [_ E]. auto.
    + intros E. destruct (C1 x Wx) as (b' & E1 & D). rewrite (H x b' Wx E1) in E. injection E as <-. exact D.
  - intros b x D. apply (C2 b x D).
Qed.
Lemma follow_in {A} (W W' : A -> Prop) (enc : A -> res bytes) dec t view : canonical_codec W enc dec -> (forall x, W' x -> W x) ->
  (forall x b, W' x -> enc x = Ok b -> wire t (view x) = Some b) -> writes W' enc t view /\ reads W' dec t view.
Proof.
  intros [C1 C2] HW H. split.
  - intros x Wx. destruct (C1 x (HW x Wx)) as (b & E & _). exists b. auto.
  - intros b x Wx. split.
    + intros D. destruct (C2 b x D) as [_ E]. auto.
    + intros E. destruct (C1 x (HW x Wx)) as (b' & E1 & D). rewrite (H x b' Wx E1) in E. injection E as <-. exact D.
Qed.

(** ** Prio3 *)
Section P3.
Context (p : Prio3) (HW : wf_field (p3_field p)).
Notation flp := (p3_flp p).

Lemma encode_vec_is (l : list (F (p3_field p))) b : encode_vec l = Ok b -> b = vec_bytes l.
Proof. rewrite encode_vec_bytes by exact HW. now intros [= <-]. Qed.

Lemma public_bytes s b : public_share_wf p s -> p3_encode_public_share s = Ok b -> wire (Prio3PublicShare p) (p3_public_val s) = Some b.
Proof.
  unfold public_share_wf, Prio3PublicShare. destruct (0 <? JOINT_RAND_LEN flp).
  - intros (parts & -> & L & HL). cbn [p3_encode_public_share p3_public_val]. intros [= <-].
    rewrite <- (app_nil_r (concat_bytes parts)). apply wire_cons; [|reflexivity].
    unfold concat_bytes. rewrite <- (map_id parts) at 2. apply (wire_vec Vbytes (fun x => x)).
    + intros x Hx. apply wire_opaque. rewrite Forall_forall in HL. now apply HL.
    + rewrite map_id. rewrite <- L. clear L. induction HL as [|x l Hx _ IH]; [cbn; lia|]. cbn [concat length]. rewrite app_length, IH, Hx. lia.
  - intros ->. now intros [= <-].
Qed.

Lemma input_bytes j s b : input_share_wf p j s -> p3_encode_input_share p s = Ok b -> wire (Prio3InputShareStruct p j) (p3_input_val s) = Some b.
Proof.
  unfold input_share_wf, blind_wf, Prio3InputShareStruct. destruct s as [meas proofs blind|share blind].
  - intros (-> & Lm & Lp & Wb). cbn [Nat.eqb p3_encode_input_share]. intros H. apply bind_Ok in H. destruct H as (u & _ & H).
    apply bind_Ok in H. destruct H as (a & Ea & H). apply bind_Ok in H. destruct H as (c & Ec & H). injection H as <-.
    apply encode_vec_is in Ea, Ec. subst a c.
    assert (HI : wire (Prio3LeaderShare p) (Vseq [vec_val meas; vec_val proofs]) = Some (vec_bytes meas ++ vec_bytes proofs)).
    { rewrite <- (app_nil_r (vec_bytes proofs)). apply wire_cons; [apply wire_field_vec; rewrite Lm; reflexivity|].
      apply wire_cons; [apply wire_field_vec; rewrite Lp; lia|reflexivity]. }
    destruct (0 <? JOINT_RAND_LEN flp).
    + destruct Wb as (bl & -> & Lb). cbn [p3_input_val app_opt]. apply wire_cons; [exact HI|]. rewrite <- (app_nil_r bl) at 2. apply wire_cons; [now apply wire_opaque|reflexivity].
    + subst blind. exact HI.
  - intros (Hj & Ls & Wb). rewrite (proj2 (Nat.eqb_neq _ _) Hj). cbn [p3_encode_input_share]. intros H.
    assert (HI : wire (Prio3HelperShare p) (Vseq [Vbytes share]) = Some share).
    { rewrite <- (app_nil_r share) at 2. apply wire_cons; [now apply wire_opaque|reflexivity]. }
    destruct (0 <? JOINT_RAND_LEN flp).
    + destruct Wb as (bl & -> & Lb). cbn [p3_input_val app_opt] in *. injection H as <-. apply wire_cons; [exact HI|]. rewrite <- (app_nil_r bl) at 2. apply wire_cons; [now apply wire_opaque|reflexivity].
    + subst blind. cbn [app_opt] in H. injection H as <-. exact HI.
Qed.

Lemma verifier_bytes s b : verifier_share_wf p s -> p3_encode_verifier_share p s = Ok b -> wire (Prio3VerifierShare p) (p3_verifier_val s) = Some b.
Proof.
  destruct s as [v part]. intros [Lv Wb]. cbn [fst snd] in *. unfold p3_encode_verifier_share, Prio3VerifierShare, blind_wf in *. intros H.
  destruct (0 <? JOINT_RAND_LEN flp).
  - destruct Wb as (bl & -> & Lb). cbn [p3_verifier_val]. apply bind_Ok in H. destruct H as (u & _ & H). apply bind_Ok in H. destruct H as (a & Ea & H). apply encode_vec_is in Ea. subst a. cbn [app_opt] in H. injection H as <-.
    apply wire_cons; [apply wire_field_vec; rewrite Lv; reflexivity|]. rewrite <- (app_nil_r bl) at 2. apply wire_cons; [now apply wire_opaque|reflexivity].
  - subst part. cbn [p3_verifier_val]. apply bind_Ok in H. destruct H as (u & _ & H). apply bind_Ok in H. destruct H as (a & Ea & H). apply encode_vec_is in Ea. subst a. cbn [app_opt] in H. injection H as <-.
    rewrite <- (app_nil_r (vec_bytes v)). apply wire_cons; [apply wire_field_vec; rewrite Lv; reflexivity|reflexivity].
Qed.

Lemma message_bytes m b : p3_message_wf p m -> p3_encode_verifier_message m = Ok b -> wire (Prio3VerifierMessage p) (p3_message_val m) = Some b.
Proof.
  unfold p3_message_wf, blind_wf, Prio3VerifierMessage. destruct (0 <? JOINT_RAND_LEN flp).
  - intros (bl & -> & Lb). cbn [p3_encode_verifier_message p3_message_val]. intros [= <-]. rewrite <- (app_nil_r bl) at 2. apply wire_cons; [now apply wire_opaque|reflexivity].
  - intros ->. cbn. now intros [= <-].
Qed.
Lemma agg_bytes v b : length v = OUTPUT_LEN flp -> p3_encode_agg_share p v = Ok b -> wire (Prio3AggShare p) (Vseq [vec_val v]) = Some b.
Proof.
  intros L H. apply encode_vec_is in H. subst b. rewrite <- (app_nil_r (vec_bytes v)). apply wire_cons; [apply wire_field_vec; rewrite L; reflexivity|reflexivity].
Qed.
End P3.

(** ** Poplar1 *)
Lemma bit_of_sum (f : nat -> bool) j : j < 8 ->
  Z.testbit (b2z (z2b (fold_right Z.add 0%Z (map (fun j => if f j then 2 ^ Z.of_nat j else 0)%Z (seq 0 8))))) (Z.of_nat j) = f j.
Proof.
  intros Hj. cbn [seq map fold_right].
  destruct (f 0) eqn:E0, (f 1) eqn:E1, (f 2) eqn:E2, (f 3) eqn:E3, (f 4) eqn:E4, (f 5) eqn:E5, (f 6) eqn:E6, (f 7) eqn:E7;
  do 8 (destruct j as [|j]; [vm_compute; congruence|]); lia.
Qed.
Lemma bit_of_rsum (f : nat -> bool) j : j < 8 ->
  Z.testbit (b2z (z2b (fold_right Z.add 0%Z (map (fun j => if f j then 2 ^ (7 - Z.of_nat j) else 0)%Z (seq 0 8))))) (7 - Z.of_nat j) = f j.
Proof.
  intros Hj. cbn [seq map fold_right].
  destruct (f 0) eqn:E0, (f 1) eqn:E1, (f 2) eqn:E2, (f 3) eqn:E3, (f 4) eqn:E4, (f 5) eqn:E5, (f 6) eqn:E6, (f 7) eqn:E7;
  do 8 (destruct j as [|j]; [vm_compute; congruence|]); lia.
Qed.

Lemma lsb_pack bits b : pack_bits bits = Ok b -> b = lsb_packed bits.
Proof.
  destruct (pack_bits_spec bits) as (q & E & L & H). rewrite E. intros [= <-]. unfold lsb_packed. set (n := (length bits + 7) / 8) in *.
  apply (nth_ext' x00); [now rewrite map_length, seq_length|]. intros k Hk. rewrite L in Hk.
  rewrite (nth_map' _ _ _ 0) by now rewrite seq_length. rewrite seq_nth by easy. cbn [plus].
  apply byte_bits_ext. intros j Hj. rewrite H by lia. symmetry. apply (bit_of_sum (fun j => nth (8 * k + j) bits false) j Hj).
Qed.
Lemma lsb_packed_length bits : length (lsb_packed bits) = (length bits + 7) / 8.
Proof. unfold lsb_packed. now rewrite map_length, seq_length. Qed.
Lemma msb_pack bits b : encode_prefix bits = Ok b -> b = msb_packed bits.
Proof.
  destruct (encode_prefix_spec bits) as (q & E & L & H). rewrite E. intros [= <-]. unfold msb_packed. set (n := (length bits + 7) / 8) in *.
  apply (nth_ext' x00); [now rewrite map_length, seq_length|]. intros k Hk. rewrite L in Hk.
  rewrite (nth_map' _ _ _ 0) by now rewrite seq_length. rewrite seq_nth by easy. cbn [plus].
  apply byte_bits_ext. intros j Hj. assert (E7 : Z.of_nat j = (7 - Z.of_nat (7 - j))%Z) by lia. rewrite E7.
  rewrite H by lia. symmetry. apply (bit_of_rsum (fun j => nth (8 * k + j) bits false) (7 - j)). lia.
Qed.
Lemma msb_packed_length bits : length (msb_packed bits) = (length bits + 7) / 8.
Proof. unfold msb_packed. now rewrite map_length, seq_length. Qed.

Section P1.
Context (p : Poplar1).
Notation idpf := (p1_idpf p).
Notation Pi := (id_field_inner idpf).
Notation Pl := (id_field_leaf idpf).
Context (HWi : wf_field Pi) (HWl : wf_field Pl) (HB : 0 < id_BITS idpf).

Lemma p1_input_bytes s b : id_KEY_SIZE idpf = SEED_SIZE (id_xof_inner idpf) ->
  p1_input_share_wf p s -> p1_encode_input_share p s = Ok b -> wire (Poplar1InputShareStruct p) (p1_input_val s) = Some b.
Proof.
  intros HK. destruct s as [[[key seed] inner] leaf]. intros (Lk & Ls & Li & Ll). cbn [p1_encode_input_share p1_input_val].
  intros H. apply bind_Ok in H. destruct H as (a & Ea & H). apply bind_Ok in H. destruct H as (c & Ec & H).
  rewrite encode_vec_bytes in Ea by exact HWi. rewrite encode_vec_bytes in Ec by exact HWl.
  injection Ea as <-. injection Ec as <-. injection H as <-. rewrite <- (app_nil_r (vec_bytes leaf)).
  apply wire_cons; [apply wire_opaque; congruence|]. apply wire_cons; [now apply wire_opaque|].
  apply wire_cons; [apply wire_field_vec; rewrite Li; lia|]. apply wire_cons; [apply wire_field_vec; rewrite Ll; lia|reflexivity].
Qed.

Lemma payload_split (ps : list (CorrectionWord idpf)) : idpf_public_wf idpf ps ->
  exists (ls : list (list (F Pi))) (l : list (F Pl)), concat (map (fun cw : CorrectionWord idpf => payload_bytes idpf (snd cw)) ps) = vec_bytes (concat ls) ++ vec_bytes l /\
    flat_map (fun cw : CorrectionWord idpf => match snd cw with Inner l => map elem_val l | Leaf _ => [] end) ps = map elem_val (concat ls) /\
    flat_map (fun cw : CorrectionWord idpf => match snd cw with Inner _ => [] | Leaf l => map elem_val l end) ps = map elem_val l /\
    length (concat ls) = id_VALUE_LEN idpf * (id_BITS idpf - 1) /\ length l = id_VALUE_LEN idpf.
Proof.
  intros [HL HWF]. destruct (exists_last (l := ps)) as (qs & x & ->); [intros ->; cbn in HL; lia|].
  rewrite app_length in HL. cbn [length] in HL.
  assert (G : forall l : list (CorrectionWord idpf), Forall (fun cw => exists v, snd cw = Inner v /\ length v = id_VALUE_LEN idpf) l ->
    exists ls : list (list (F Pi)), concat (map (fun cw : CorrectionWord idpf => payload_bytes idpf (snd cw)) l) = vec_bytes (concat ls) /\
    flat_map (fun cw : CorrectionWord idpf => match snd cw with Inner l => map elem_val l | Leaf _ => [] end) l = map elem_val (concat ls) /\
    flat_map (fun cw : CorrectionWord idpf => match snd cw with Inner _ => [] | Leaf l => map elem_val l end) l = [] /\
    length (concat ls) = id_VALUE_LEN idpf * length l).
  { clear. intros l H. induction H as [|cw l (v & E & L) _ (ls & A & B & C & D)].
    - exists []. cbn. repeat split; try easy; lia.
    - exists (v :: ls). cbn [map concat flat_map length]. rewrite E. cbn [payload_bytes]. rewrite A, B, C, app_length, D, map_app.
      split; [unfold vec_bytes; now rewrite map_app, concat_app|]. split; [easy|]. split; [easy|lia]. }
  destruct (G qs) as (ls & A & B & C & D).
  { apply Forall_forall. intros y Hy. apply In_nth_error in Hy as [k Hk].
    assert (k < length qs) by (apply nth_error_Some; intros Hn; pose proof (eq_trans (eq_sym Hn) Hk); discriminate).
    destruct (HWF k y) as [_ Ho]; [now rewrite nth_error_app1|]. destruct (snd y) as [v|v]; cbn [of_level] in Ho; [exists v; tauto|lia]. }
  destruct (HWF (length qs) x) as [_ Ho]; [rewrite nth_error_app2, Nat.sub_diag by lia; reflexivity|].
  destruct (snd x) as [v|v] eqn:Ex; cbn [of_level] in Ho; [lia|].
  exists ls, v. rewrite map_app, concat_app, !flat_map_app, A, B, C, D. cbn [map concat flat_map]. rewrite Ex. cbn [payload_bytes].
  rewrite !app_nil_r. split; [easy|]. split; [easy|]. split; [easy|]. split; [f_equal; lia|easy].
Qed.

Lemma flat_ctrl (ps : list (CorrectionWord idpf)) :
  flat (map (fun cw => snd (fst cw)) ps) = flat_map (fun cw => [fst (snd (fst cw)); snd (snd (fst cw))]) ps.
Proof. unfold flat. rewrite map_map. now rewrite <- flat_map_concat_map. Qed.

Lemma p1_public_bytes s b : idpf_public_wf idpf s -> p1_encode_public_share p s = Ok b -> wire (Poplar1PublicShareStruct p) (p1_public_val s) = Some b.
Proof.
  intros W H. destruct (encode_public_eq idpf HWi HWl HB s W) as (cb & Ecb & E). unfold p1_encode_public_share in H. rewrite E in H. injection H as <-.
  destruct (payload_split s W) as (ls & l & A & B & C & D & L). destruct W as [HL HWF].
  rewrite flat_ctrl in Ecb. apply lsb_pack in Ecb. subst cb.
  assert (PV : p1_public_val s = Vseq [Vbytes (lsb_packed (flat_map (fun cw : CorrectionWord idpf => [fst (snd (fst cw)); snd (snd (fst cw))]) s));
        Vbytes (flat_map (fun cw : CorrectionWord idpf => fst (fst cw)) s); Vseq (map elem_val (concat ls)); Vseq (map elem_val l)])
    by exact (f_equal2 (fun b c => Vseq [Vbytes (lsb_packed (flat_map (fun cw : CorrectionWord idpf => [fst (snd (fst cw)); snd (snd (fst cw))]) s));
        Vbytes (flat_map (fun cw : CorrectionWord idpf => fst (fst cw)) s); Vseq b; Vseq c]) B C).
  rewrite PV. clear PV.
  match goal with |- _ = Some (_ ++ _ ++ ?z) => replace z with (vec_bytes (concat ls) ++ vec_bytes l) by (symmetry; exact A) end.
  apply wire_cons.
  { apply wire_opaque. rewrite lsb_packed_length. do 2 f_equal. rewrite <- HL. clear. induction s as [|x s IH]; [easy|]. cbn [flat_map app length]. rewrite IH. lia. }
  apply wire_cons.
  { rewrite <- flat_map_concat_map. apply wire_opaque. rewrite <- HL. clear -HWF.
    assert (G : Forall (fun cw => length (fst (fst cw)) = id_KEY_SIZE idpf) s).
    { apply Forall_forall. intros y Hy. apply In_nth_error in Hy as [k Hk]. now apply (HWF k). }
    clear HWF. induction G as [|y l Hy _ IH]; [cbn; lia|]. cbn [flat_map length]. rewrite app_length. etransitivity; [exact (f_equal2 Nat.add Hy IH)|lia]. }
  apply wire_cons; [apply wire_field_vec; rewrite D; lia|]. rewrite <- (app_nil_r (vec_bytes l)).
  apply wire_cons; [apply wire_field_vec; rewrite L; reflexivity|reflexivity].
Qed.

Lemma fvec_bytes (v : FieldVec Pi Pl) b : encode_idpf_field_vec p v = Ok b -> b = match v with Inner l => vec_bytes l | Leaf l => vec_bytes l end.
Proof.
  destruct v as [[|x l]|[|x l]]; cbn [encode_idpf_field_vec]; try (now intros [= <-]).
  - rewrite encode_vec_bytes by exact HWi. now intros [= <-].
  - rewrite encode_vec_bytes by exact HWl. now intros [= <-].
Qed.

Lemma fvec_struct level v b : of_class p level v -> encode_idpf_field_vec p v = Ok b ->
  wire (Poplar1AggShareStruct p (level_is_inner p level) (fv_len v)) (fvec_val v) = Some b.
Proof.
  intros Hc H. apply fvec_bytes in H. subst b. destruct v as [l|l]; cbn [of_class] in Hc; rewrite Hc; cbn [Poplar1AggShareStruct fvec_val fv_len];
  rewrite <- (app_nil_r (vec_bytes l)); (apply wire_cons; [|reflexivity]); apply wire_field_vec; reflexivity.
Qed.
Lemma felem_struct level v b : of_class p level v -> fv_len v = 1 -> encode_idpf_field_vec p v = Ok b ->
  wire (Poplar1RoundTwo p (level_is_inner p level)) (felem_val v) = Some b.
Proof.
  intros Hc HL H. apply fvec_bytes in H. subst b. destruct v as [l|l]; cbn [of_class] in Hc; rewrite Hc; cbn [Poplar1RoundTwo felem_val];
  destruct l as [|x [|]]; try discriminate HL; cbn [map]; unfold vec_bytes; cbn [map concat]; (apply wire_cons; [|reflexivity]); apply elem_bytes.
Qed.
End P1.

Lemma param_bytes level n ap b : agg_param_wf ap -> fst ap = level -> length (snd ap) = n -> p1_encode_agg_param ap = Ok b ->
  wire (Poplar1AggParamStruct level n) (p1_param_val ap) = Some b.
Proof.
  destruct ap as [lv prefixes]. cbn [fst snd]. intros (Hl & Hn & HF) <- <- H. cbn [fst snd] in *. unfold p1_encode_agg_param in H.
  apply bind_Ok in H. destruct H as (u & _ & H). apply bind_Ok in H. destruct H as (u' & _ & H).
  apply bind_Ok in H. destruct H as (el & El & H). apply bind_Ok in H. destruct H as (en & En & H). apply bind_Ok in H. destruct H as (ep & Ep & H).
  apply bind_Ok in H. destruct H as (u'' & Hu & H). apply check_Ok in Hu. apply Z.eqb_eq in Hu. injection H as <-.
  apply be_bytes_digits in El, En. destruct El as (_ & Bl & ->), En as (_ & Bn & ->).
  destruct (encode_total prefixes) as (ps & Eps). rewrite (enc_prefixes prefixes [] ps Eps) in Ep. cbn [app] in Ep. injection Ep as <-.
  assert (EP : concat ps = flat_map msb_packed prefixes).
  { clear -Eps. revert ps Eps. induction prefixes as [|x l IH]; intros ps H; cbn [mapM] in H; [now injection H as <-|].
    apply bind_Ok in H. destruct H as (a & Ea & H). apply bind_Ok in H. destruct H as (r & Er & H). injection H as <-.
    apply msb_pack in Ea. subst a. cbn [concat flat_map]. now rewrite (IH r Er). }
  rewrite EP in *. unfold p1_param_val. cbn [fst snd]. apply wire_cons; [now apply wire_uint|]. apply wire_cons; [apply wire_uint; [lia|exact Bn]|].
  rewrite <- (app_nil_r (flat_map msb_packed prefixes)) at 2. apply wire_cons; [|reflexivity]. apply wire_opaque.
  apply Nat2Z.inj. rewrite Nat2Z.inj_mul, Z2Nat.id by (apply Z.div_pos; lia). exact Hu.
Qed.

Lemma pp_bytes m b : pp_message_wf m -> pp_encode (fst m) (snd m) = Ok b -> wire PingPongMessage (pp_message_val m) = Some b.
Proof.
  destruct m as [ty items]. intros [HT HF] H. cbn [fst snd] in *. unfold pp_encode in H.
  assert (HV : forall item, (Z.of_nat (length item) < 2 ^ 32)%Z ->
    to_be_bytes (Z.of_nat (length item)) 4 = Ok (rev (digits 4 (Z.of_nat (length item)))) /\
    wire (Wvar 4) (Vbytes item) = Some (rev (digits 4 (Z.of_nat (length item))) ++ item)).
  { intros item Hi. assert (Hi' : (Z.of_nat (length item) < 256 ^ Z.of_nat 4)%Z) by exact Hi. split; [apply be_total; [lia|exact Hi']|now apply wire_var]. }
  unfold pp_message_val, PingPongMessage. cbn [fst snd].
  assert (SEL : forall t v c, wire t v = Some c -> forall k cases, wire (Wselect ((k, t) :: cases)) (Vcase k v) = Some (rev (digits 1 k) ++ c)).
  { intros t v c E k cases. cbn [wire]. rewrite Z.eqb_refl, E. reflexivity. }
  assert (NEXT : forall k k' t v cases, k <> k' -> wire (Wselect ((k, t) :: cases)) (Vcase k' v) = wire (Wselect cases) (Vcase k' v)).
  { intros k k' t v cases N. cbn [wire]. now rewrite (proj2 (Z.eqb_neq _ _) N). }
  destruct HT as [[-> L]|[[-> L]|[-> L]]].
  - destruct items as [|x [|]]; try discriminate L. inversion HF as [|? ? Hx _]; subst. destruct (HV x Hx) as [Bx Wx].
    cbn [byte_of Z.leb Z.ltb Z.compare andb bind foldM map] in *. rewrite Bx in H. cbn [bind] in H. injection H as <-.
    rewrite (SEL _ _ _ (wire_cons _ _ _ _ _ _ Wx wire_nil)). rewrite app_nil_r. reflexivity.
  - destruct items as [|x [|y [|]]]; try discriminate L. inversion HF as [|? ? Hx HF']; subst. inversion HF' as [|? ? Hy _]; subst. destruct (HV x Hx) as [Bx Wx], (HV y Hy) as [By Wy].
    cbn [byte_of Z.leb Z.ltb Z.compare andb bind foldM map] in *. rewrite Bx in H. cbn [bind] in H. rewrite By in H. cbn [bind] in H. injection H as <-.
    rewrite NEXT by easy. rewrite (SEL _ _ _ (wire_cons _ _ _ _ _ _ Wx (wire_cons _ _ _ _ _ _ Wy wire_nil))). rewrite app_nil_r, !app_assoc. reflexivity.
  - destruct items as [|x [|]]; try discriminate L. inversion HF as [|? ? Hx _]; subst. destruct (HV x Hx) as [Bx Wx].
    cbn [byte_of Z.leb Z.ltb Z.compare andb bind foldM map] in *. rewrite Bx in H. cbn [bind] in H. injection H as <-.
    rewrite !NEXT by easy. rewrite (SEL _ _ _ (wire_cons _ _ _ _ _ _ Wx wire_nil)). rewrite app_nil_r. reflexivity.
Qed.
