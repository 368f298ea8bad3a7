(** Which inputs of TurboSHAKE128 the derivations of Prio3 and Poplar1 depend on. *)
From Verif Require Export OracleSpec.
From Verif Require Import BaseFacts CommonFacts FieldFacts XofFacts CodecProofs Prio3Facts.
Open Scope nat_scope.

Lemma bind_cong {A B} (m m' : res A) (f g : A -> res B) :
  m = m' -> (forall a, m = Ok a -> f a = g a) -> bind m f = bind m' g.
Proof. intros <-. apply bind_ext. Qed.

Lemma bind_same {A B} (m m' : res A) (f : A -> res B) : m = m' -> bind m f = bind m' f.
Proof. now intros <-. Qed.

Lemma bind_step {A B} (m : res A) (f g : A -> res B) :
  (forall a, m = Ok a -> f a = g a) -> bind m f = bind m g.
Proof. apply bind_ext. Qed.

Lemma for_range_cong {B} a b (acc : B) f g :
  (forall x i, a <= i < b -> f x i = g x i) -> for_range a b acc f = for_range a b acc g.
Proof. intros H. apply foldM_ext. intros x i Hi. apply H. unfold range in Hi. apply in_seq in Hi. lia. Qed.

Lemma nth_error_firstn_lt {A} (l : list A) n i : i < n -> nth_error (firstn n l) i = nth_error l i.
Proof. revert n i; induction l; intros [| n] [| i] H; cbn; auto; try lia. apply IHl. lia. Qed.
Lemma nth_error_skipn' {A} (l : list A) n i : nth_error (skipn n l) i = nth_error l (n + i).
Proof. revert l; induction n; intros l; [reflexivity |]. destruct l; [now destruct i |]. apply IHn. Qed.
Lemma nth_error_upd_ne {A} (l : list A) i j v : j <> i -> nth_error (upd l i v) j = nth_error l j.
Proof. revert i j; induction l; intros [| i] [| j] H; cbn; auto; try lia. Qed.

(** * XofTurboShake128 *)
Lemma stream_cong (s s' : nat -> byte) p n : (forall i, s i = s' i) -> stream_bytes s p n = stream_bytes s' p n.
Proof. intros H. unfold stream_bytes. apply map_ext. auto. Qed.

Section Ts.
Context (ts ts' : TurboShake) (bound : nat).
Notation X := (XofTurboShake128 ts bound).
Notation X' := (XofTurboShake128 ts' bound).

Lemma ts_next_cong m l n : agree_at ts ts' (m, 1%Z) -> xof_next X (m, l) n = xof_next X' (m, l) n.
Proof. intros H. cbn. do 2 f_equal. now apply stream_cong. Qed.

Lemma ts_loop_cong P m fuel k n l vec : agree_at ts ts' (m, 1%Z) ->
  next_vec_loop X P fuel k n (m, l) vec = next_vec_loop X' P fuel k n (m, l) vec.
Proof.
  intros H. revert l vec; induction fuel; intros l vec; cbn [next_vec_loop]; auto.
  destruct (_ <? n); [| reflexivity].
  rewrite (ts_next_cong m l _ H). apply bind_ext. intros [b st] E. cbn in E. injection E as _ <-.
  destruct (_ <? _)%Z; [| apply IHfuel]. apply bind_ext. intros e _. apply IHfuel.
Qed.

Lemma ts_next_vec_cong P m l n : agree_at ts ts' (m, 1%Z) -> next_vec X P (m, l) n = next_vec X' P (m, l) n.
Proof. intros H. unfold next_vec. apply bind_ext. intros. now apply ts_loop_cong. Qed.

(** The message does not change along a stream. *)
Lemma ts_next_state m l n b st : xof_next X (m, l) n = Ok (b, st) -> exists l', st = (m, l').
Proof. intros H. injection H as _ <-. eauto. Qed.

Lemma ts_loop_state P m fuel k n l vec v st :
  next_vec_loop X P fuel k n (m, l) vec = Ok (v, st) -> exists l', st = (m, l').
Proof.
  revert l vec; induction fuel; intros l vec H; cbn [next_vec_loop] in H; destruct (_ <? n).
  - discriminate.
  - injection H as _ <-. eauto.
  - apply bind_Ok in H as ([b s] & Hb & H). apply ts_next_state in Hb as [l' ->].
    destruct (_ <? _)%Z; [apply bind_Ok in H as (e & _ & H) |]; eauto.
  - injection H as _ <-. eauto.
Qed.

Lemma ts_next_vec_state P m l n v st : next_vec X P (m, l) n = Ok (v, st) -> exists l', st = (m, l').
Proof. intros H. apply bind_Ok in H as (k & _ & H). eapply ts_loop_state; eauto. Qed.

Lemma ts_init_state seed dst binder st : xof_init X seed dst binder = Ok st ->
  exists m, turboshake_message seed dst binder = Ok m /\ st = (m, 0).
Proof. intros H. apply bind_Ok in H as (m & Hm & H). injection H as <-. eauto. Qed.

Definition ts_point (seed dst binder : bytes) : bytes * Z :=
  match turboshake_message seed dst binder with
  | Ok m => (m, 1%Z)
  | Raise _ => (le_bytes 2 (Z.of_nat (length dst)) ++ dst, 3%Z) (* never read *)
  end.

Lemma ts_expand_cong P seed dst binder n : agree_at ts ts' (ts_point seed dst binder) ->
  expand_into_vec X P seed dst binder n = expand_into_vec X' P seed dst binder n.
Proof.
  intros H. unfold expand_into_vec. apply (bind_cong (xof_init X seed dst binder)); [reflexivity |].
  intros st E. apply ts_init_state in E as (m & Hm & ->). unfold ts_point in H. rewrite Hm in H.
  now rewrite (ts_next_vec_cong P m 0 n H).
Qed.

Lemma ts_derive_cong seed dst binder : agree_at ts ts' (ts_point seed dst binder) ->
  derive_seed X seed dst binder = derive_seed X' seed dst binder.
Proof.
  intros H. unfold derive_seed. apply (bind_cong (xof_init X seed dst binder)); [reflexivity |].
  intros st E. apply ts_init_state in E as (m & Hm & ->). unfold ts_point in H. rewrite Hm in H.
  now rewrite (ts_next_cong m 0 _ H).
Qed.
End Ts.

Lemma ts_point_inj seed dst binder seed' dst' binder' :
  (Z.of_nat (length dst) < 65536)%Z -> (Z.of_nat (length dst') < 65536)%Z ->
  (Z.of_nat (length seed) < 256)%Z -> (Z.of_nat (length seed') < 256)%Z ->
  ts_point seed dst binder = ts_point seed' dst' binder' -> seed = seed' /\ dst = dst' /\ binder = binder'.
Proof.
  intros H H' Hs Hs'. unfold ts_point.
  destruct (turboshake_message seed dst binder) as [m |] eqn:E.
  2: { assert (Z := proj2 (turboshake_message_Ok seed dst binder _) (conj H (conj Hs eq_refl))). congruence. }
  destruct (turboshake_message seed' dst' binder') as [m' |] eqn:E'.
  2: { assert (Z := proj2 (turboshake_message_Ok seed' dst' binder' _) (conj H' (conj Hs' eq_refl))). congruence. }
  intros [= <-]. eapply turboshake_message_inj; eauto.
Qed.

(** * Tags *)
Lemma format_dst_shape c ID u d : format_dst c ID u = Ok d ->
  exists id us, to_be_bytes ID 4 = Ok id /\ length us = 2 /\ length id = 4 /\ d = [x12; z2b c] ++ id ++ us.
Proof.
  unfold format_dst. intros H.
  apply bind_Ok in H as (v & Hv & H). apply bind_Ok in H as (c' & Hc & H). apply bind_Ok in H as (a & Ha & H).
  apply bind_Ok in H as (us & Hu & H). injection H as <-.
  exists a, us. split; [exact Ha |].
  apply codec_int_encode in Hu as (_ & Hu & _). split; [exact Hu |].
  apply codec_int_encode in Ha as (_ & Ha & _). split; [exact Ha |].
  change (to_be_bytes VERSION 1) with (Ok [x12] : res bytes) in Hv. injection Hv as <-.
  assert (Ec : c' = [z2b c]).
  { apply codec_int_encode in Hc as (Hr & Hl & Hc). destruct c' as [| b [| ? ?]]; try discriminate.
    cbn in Hc. f_equal. rewrite Hc, Z.mul_1_r. now rewrite z2b_b2z. }
  subst c'. unfold concat_bytes. cbn. now rewrite app_nil_r.
Qed.

Lemma tagged_ts c ID u ctx d seed binder m : format_dst c ID u = Ok d ->
  turboshake_message seed (d ++ ctx) binder = Ok m -> tagged c ID ctx m.
Proof.
  intros Hd Hm. apply turboshake_message_Ok in Hm as (Hl & _ & ->).
  apply format_dst_shape in Hd as (id & us & Hid & Hus & Hidl & ->).
  rewrite app_length in Hl |- *. cbn [app length] in Hl |- *. rewrite app_length in Hl |- *. rewrite Hidl, Hus in Hl |- *.
  eexists _, id, us, _. split; [| split; [exact Hid | split; [exact Hus |]]].
  - apply to_le_bytes_ok. change (2 ^ (8 * Z.of_nat 2))%Z with 65536%Z. lia.
  - replace (Z.of_nat (S (S (4 + 2)) + length ctx)) with (8 + Z.of_nat (length ctx))%Z by lia.
    rewrite <- !app_assoc. reflexivity.
Qed.

Lemma tagged_dst c ID u ctx d : format_dst c ID u = Ok d -> (Z.of_nat (length (d ++ ctx)) < 65536)%Z ->
  tagged c ID ctx (le_bytes 2 (Z.of_nat (length (d ++ ctx))) ++ d ++ ctx).
Proof.
  intros Hd Hl.
  apply format_dst_shape in Hd as (id & us & Hid & Hus & Hidl & ->).
  rewrite app_length in Hl |- *. cbn [app length] in Hl |- *. rewrite app_length in Hl |- *. rewrite Hidl, Hus in Hl |- *.
  eexists _, id, us, []. split; [| split; [exact Hid | split; [exact Hus |]]].
  - apply to_le_bytes_ok. change (2 ^ (8 * Z.of_nat 2))%Z with 65536%Z. lia.
  - replace (Z.of_nat (S (S (4 + 2)) + length ctx)) with (8 + Z.of_nat (length ctx))%Z by lia.
    rewrite <- !app_assoc, app_nil_r. reflexivity.
Qed.

Lemma tagged_point c ID u ctx d seed binder : format_dst c ID u = Ok d -> (Z.of_nat (length (d ++ ctx)) < 65536)%Z ->
  tagged c ID ctx (fst (ts_point seed (d ++ ctx) binder)).
Proof.
  intros Hd Hl. unfold ts_point. destruct (turboshake_message seed (d ++ ctx) binder) as [m |] eqn:E.
  - exact (tagged_ts _ _ _ _ _ _ _ _ Hd E).
  - exact (tagged_dst _ _ _ _ _ Hd Hl).
Qed.

Lemma tagged_fk c ID u ctx d binder m : format_dst c ID u = Ok d ->
  fixed_key_message (d ++ ctx) binder = Ok m -> tagged c ID ctx m.
Proof.
  intros Hd Hm. apply fixed_key_message_Ok in Hm as (Hl & ->).
  apply format_dst_shape in Hd as (id & us & Hid & Hus & Hidl & ->).
  rewrite app_length in Hl |- *. cbn [app length] in Hl |- *. rewrite app_length in Hl |- *. rewrite Hidl, Hus in Hl |- *.
  eexists _, id, us, _. split; [| split; [exact Hid | split; [exact Hus |]]].
  - apply to_le_bytes_ok. change (2 ^ (8 * Z.of_nat 2))%Z with 65536%Z. lia.
  - replace (Z.of_nat (S (S (4 + 2)) + length ctx)) with (8 + Z.of_nat (length ctx))%Z by lia.
    rewrite <- !app_assoc. reflexivity.
Qed.

Lemma tagged_inj c c' ID ID' ctx ctx' m : (0 <= c < 256)%Z -> (0 <= c' < 256)%Z ->
  tagged c ID ctx m -> tagged c' ID' ctx' m -> c = c' /\ ID = ID' /\ ctx = ctx'.
Proof.
  intros Hc Hc' (l & i & u & r & Hl & Hi & Hu & ->) (l' & i' & u' & r' & Hl' & Hi' & Hu' & E).
  pose proof Hl as Hl0. pose proof Hl' as Hl0'.
  apply to_le_bytes_Ok in Hl as [Hl ->]. apply to_le_bytes_Ok in Hl' as [Hl' ->].
  apply app_inj_len in E as [E1 E]; [| now rewrite !le_bytes_length].
  apply le_bytes_inj in E1; [| lia ..].
  cbn [app] in E. injection E as Ec E.
  assert (c = c'). { rewrite <- (b2z_z2b c), <- (b2z_z2b c'), Ec by lia. reflexivity. } subst c'.
  pose proof (proj1 (proj1 (proj2 (codec_int_encode ID 4)) i) Hi) as (_ & Li & _).
  pose proof (proj1 (proj1 (proj2 (codec_int_encode ID' 4)) i') Hi') as (_ & Li' & _).
  apply app_inj_len in E as [-> E]; [| congruence].
  apply app_inj_len in E as [-> E]; [| congruence].
  apply app_inj_len in E as [-> E]; [| lia].
  repeat split; auto.
  apply to_be_bytes_spec in Hi as [_ <-]. apply to_be_bytes_spec in Hi' as [_ <-]. reflexivity.
Qed.

(** * Prio3 *)
Section P3O.
Context {P : FieldClass} (flp : Flp P) (ID : Z) (ks shares proofs bound : nat).
Notation obj := (prio3_on flp ID ks shares proofs bound).

Definition tag_of (usage : Z) (ctx : bytes) : bytes :=
  match domain_separation_tag ID usage ctx with Ok d => d | Raise _ => [] end.
Definition bytes_of (r : res bytes) : bytes := match r with Ok b => b | Raise _ => [] end.
Definition byte_str (n : nat) : bytes := bytes_of (byte_of (Z.of_nat n)).

Definition prio3_input (ctx : bytes) (q : prio3_query P) : bytes * Z :=
  match q with
  | MeasShare j seed => ts_point seed (tag_of USAGE_MEAS_SHARE ctx) (byte_str j)
  | ProofShare j seed => ts_point seed (tag_of USAGE_PROOF_SHARE ctx) (byte_str proofs ++ byte_str j)
  | JointRand seed => ts_point seed (tag_of USAGE_JOINT_RANDOMNESS ctx) (byte_str proofs)
  | ProveRand seed => ts_point seed (tag_of USAGE_PROVE_RANDOMNESS ctx) (byte_str proofs)
  | QueryRand key nonce => ts_point key (tag_of USAGE_QUERY_RANDOMNESS ctx) (byte_str proofs ++ nonce)
  | JointRandSeed parts => ts_point (zeros 32) (tag_of USAGE_JOINT_RAND_SEED ctx) (concat_bytes parts)
  | JointRandPart j blind meas nonce => ts_point blind (tag_of USAGE_JOINT_RAND_PART ctx) (byte_str j ++ nonce ++ bytes_of (encode_vec meas))
  end.

Section Cong.
Context (ts ts' : TurboShake) (ctx : bytes).
Notation agreeq q := (agree_at ts ts' (prio3_input ctx q)).

Ltac step H := apply bind_step; intros ? H; cbn beta.

Lemma tag_of_eq usage d : domain_separation_tag ID usage ctx = Ok d -> tag_of usage ctx = d.
Proof. unfold tag_of. now intros ->. Qed.
Lemma byte_str_eq n b : byte_of (Z.of_nat n) = Ok b -> byte_str n = b.
Proof. unfold byte_str. now intros ->. Qed.

Lemma helper_meas_cong j s : agreeq (MeasShare j s) -> helper_meas_share (obj ts) ctx j s = helper_meas_share (obj ts') ctx j s.
Proof.
  intros H. unfold helper_meas_share. apply bind_cong; [reflexivity |]. intros d Hd. apply bind_step. intros b Hb.
  apply ts_expand_cong. cbn in H. now rewrite (tag_of_eq _ _ Hd), (byte_str_eq _ _ Hb) in H.
Qed.
Lemma helper_proofs_cong j s : agreeq (ProofShare j s) -> helper_proofs_share (obj ts) ctx j s = helper_proofs_share (obj ts') ctx j s.
Proof.
  intros H. unfold helper_proofs_share. apply bind_cong; [reflexivity |]. intros d Hd. apply bind_step. intros b Hb. change (byte_of (Z.of_nat proofs) = Ok b) in Hb.
  apply bind_step. intros b' Hb'.
  apply ts_expand_cong. cbn in H. now rewrite (tag_of_eq _ _ Hd), (byte_str_eq _ _ Hb), (byte_str_eq _ _ Hb') in H.
Qed.
Lemma prove_rands_cong s : agreeq (ProveRand s) -> prove_rands (obj ts) ctx s = prove_rands (obj ts') ctx s.
Proof.
  intros H. unfold prove_rands. apply bind_cong; [reflexivity |]. intros d Hd. apply bind_step. intros b Hb. change (byte_of (Z.of_nat proofs) = Ok b) in Hb.
  apply ts_expand_cong. cbn in H. now rewrite (tag_of_eq _ _ Hd), (byte_str_eq _ _ Hb) in H.
Qed.
Lemma query_rands_cong k n : agreeq (QueryRand k n) -> query_rands (obj ts) k ctx n = query_rands (obj ts') k ctx n.
Proof.
  intros H. unfold query_rands. apply bind_cong; [reflexivity |]. intros d Hd. apply bind_step. intros b Hb. change (byte_of (Z.of_nat proofs) = Ok b) in Hb.
  apply ts_expand_cong. cbn in H. now rewrite (tag_of_eq _ _ Hd), (byte_str_eq _ _ Hb) in H.
Qed.
Lemma joint_rand_part_cong j b m n : agreeq (JointRandPart j b m n) ->
  joint_rand_part (obj ts) ctx j b m n = joint_rand_part (obj ts') ctx j b m n.
Proof.
  intros H. unfold joint_rand_part. apply bind_cong; [reflexivity |]. intros d Hd. apply bind_step. intros c Hc.
  apply bind_step. intros e He.
  apply ts_derive_cong. cbn in H. rewrite (tag_of_eq _ _ Hd), (byte_str_eq _ _ Hc) in H.
  cbn [p3_field prio3_on] in He. rewrite He in H. exact H.
Qed.
Lemma joint_rand_seed_cong parts : agreeq (JointRandSeed parts) ->
  joint_rand_seed (obj ts) ctx parts = joint_rand_seed (obj ts') ctx parts.
Proof.
  intros H. unfold joint_rand_seed. apply bind_cong; [reflexivity |]. intros d Hd.
  apply ts_derive_cong. cbn in H. now rewrite (tag_of_eq _ _ Hd) in H.
Qed.
Lemma joint_rands_cong s : agreeq (JointRand s) -> joint_rands (obj ts) ctx s = joint_rands (obj ts') ctx s.
Proof.
  intros H. unfold joint_rands. apply bind_cong; [reflexivity |]. intros d Hd. apply bind_step. intros b Hb. change (byte_of (Z.of_nat proofs) = Ok b) in Hb.
  apply ts_expand_cong. cbn in H. now rewrite (tag_of_eq _ _ Hd), (byte_str_eq _ _ Hb) in H.
Qed.

Lemma derive_cong (q : prio3_query P) : agreeq q -> prio3_derive (obj ts) ctx q = prio3_derive (obj ts') ctx q.
Proof.
  intros H. destruct q; unfold prio3_derive; apply bind_same.
  - now apply helper_meas_cong.
  - now apply helper_proofs_cong.
  - now apply prove_rands_cong.
  - now apply query_rands_cong.
  - now apply joint_rand_part_cong.
  - now apply joint_rand_seed_cong.
  - now apply joint_rands_cong.
Qed.

(** ** verify_init *)
Notation joint := (0 <? JOINT_RAND_LEN flp).

Lemma verify_cong key j nonce ps is :
  (forall q, verify_derives joint key j nonce ps is q -> agreeq q) ->
  p3_verify_init (obj ts) key ctx j tt nonce ps is = p3_verify_init (obj ts') key ctx j tt nonce ps is.
Proof.
  intros H. unfold p3_verify_init.
  apply bind_cong.
  { unfold expand_input_share. destruct (0 <? j); [| reflexivity]. destruct is as [| s b]; [reflexivity |].
    apply bind_cong. { apply helper_meas_cong, H. split; eauto. }
    intros v _. apply bind_same. apply helper_proofs_cong, H. split; eauto. }
  intros [[ms prs] blind] He. apply bind_step. intros out _.
  apply bind_cong.
  { unfold verify_joint_rand. cbn [p3_flp p3_field prio3_on]. destruct joint eqn:J; [| reflexivity].
    destruct blind as [blind |]; [| reflexivity]. destruct ps as [parts |]; [| reflexivity].
    apply bind_cong.
    { apply joint_rand_part_cong, H. cbn. repeat split.
      unfold expand_input_share in He. destruct (0 <? j).
      - destruct is; [discriminate |]. apply bind_Ok in He as (? & _ & He). apply bind_Ok in He as (? & _ & He). now injection He.
      - destruct is; [| discriminate]. now injection He. }
    intros part _. apply bind_step. intros parts' Hs. apply bind_cong.
    { apply joint_rand_seed_cong, H. cbn. split; [reflexivity |]. exists parts.
      unfold set in Hs. destruct (j <? length parts) eqn:Ej; [| discriminate]. injection Hs as <-.
      split; [reflexivity |]. split; [apply length_upd |]. intros i Hi. now apply nth_error_upd_ne. }
    intros c _. apply bind_same. now apply joint_rands_cong, H. }
  intros [[c part] jr] _. apply bind_cong. { now apply query_rands_cong, H. }
  intros qr _. reflexivity.
Qed.

Lemma message_cong shares_ : (forall parts, joint = true -> map snd shares_ = map Some parts -> agreeq (JointRandSeed parts)) ->
  p3_verifier_shares_to_message (obj ts) ctx tt shares_ = p3_verifier_shares_to_message (obj ts') ctx tt shares_.
Proof.
  intros H. unfold p3_verifier_shares_to_message. cbn [p3_flp prio3_on p3_field p3_PROOFS].
  apply bind_step. intros [v parts] Hf. apply bind_step. intros _ _. destruct joint eqn:J; [| reflexivity].
  apply bind_same. apply joint_rand_seed_cong, H; [reflexivity |].
  cut (forall l (v0 : list (F P)) parts0, foldM
    (fun '(verifiers, joint_rand_parts) '(verifiers_share, joint_rand_part) =>
      let* verifiers := vec_add verifiers verifiers_share in
      match joint_rand_part with
        | Some part => Ok (verifiers, joint_rand_parts ++ [part])
        | None => Raise AssertionError
      end) l (v0, parts0) = Ok (v, parts) -> exists q, parts = parts0 ++ q /\ map snd l = map Some q).
  { intros C. destruct (C _ _ _ Hf) as (q & -> & E). exact E. }
  clear. induction l as [| [vs o] l IH]; intros v0 parts0 Hf; cbn in Hf.
  - injection Hf as _ <-. exists []. now rewrite app_nil_r.
  - apply bind_Ok in Hf as ([v1 p1] & Hs & Hf). apply bind_Ok in Hs as (w & _ & Hs).
    destruct o as [part |]; [| discriminate]. injection Hs as <- <-.
    apply IH in Hf as (q & -> & E). exists (part :: q). split; [now rewrite <- app_assoc |]. cbn. now rewrite E.
Qed.

(** ** shard *)
Lemma front_ok' {A} n (l : list A) a b : front n l = Ok (a, b) -> a = firstn n l /\ b = skipn n l /\ n <= length l.
Proof.
  intros H. apply front_Ok in H as [<- ->]. rewrite firstn_app, firstn_all, Nat.sub_diag, skipn_app, skipn_all, Nat.sub_diag.
  cbn. rewrite app_nil_r, app_length. repeat split. lia.
Qed.

Lemma leader_proofs_cong hs lp : (forall j s, j < shares - 1 -> nth_error hs j = Some s -> agreeq (ProofShare (j + 1) s)) ->
  leader_proofs (obj ts) ctx hs lp = leader_proofs (obj ts') ctx hs lp.
Proof.
  intros H. unfold leader_proofs. cbn [p3_SHARES prio3_on p3_field]. apply for_range_cong. intros x i Hi.
  apply bind_step. intros s Hs. apply get_Ok in Hs. apply bind_same. apply helper_proofs_cong, H; auto. lia.
Qed.

Lemma shard_without_cong nonce rand meas seeds : joint = false -> shares <= length seeds -> 1 <= shares ->
  (forall k, k < shares -> nth_error seeds k = Some (seed_of rand k)) ->
  (forall q, shard_derives shares joint nonce rand q -> agreeq q) ->
  shard_without_joint_rand (obj ts) ctx meas seeds = shard_without_joint_rand (obj ts') ctx meas seeds.
Proof.
  intros J Hlen H1 Hseed H. unfold shard_without_joint_rand. cbn [p3_SHARES prio3_on].
  apply bind_step. intros [hs rest] Hf. apply front_ok' in Hf as (-> & -> & _).
  apply bind_step. intros [ps rest'] Hf. apply front_ok' in Hf as (-> & -> & _).
  apply bind_step. intros prove_seed Hp.
  assert (Hs : forall j s, j < shares - 1 -> nth_error (firstn (shares - 1) seeds) j = Some s -> s = seed_of rand j).
  { intros j s Hj E. rewrite nth_error_firstn_lt in E by assumption. rewrite Hseed in E by lia. congruence. }
  apply bind_cong.
  { apply for_range_cong. intros x i Hi. apply bind_step. intros s E. apply get_Ok in E. apply bind_same.
    apply helper_meas_cong, H. cbn [shard_derives]. split; [lia |]. rewrite J. apply Hs in E; [| lia]. subst s. f_equal. lia. }
  intros lm _. apply bind_cong.
  { apply prove_rands_cong, H. cbn [shard_derives]. rewrite J. apply get_Ok in Hp.
    rewrite nth_error_firstn_lt in Hp by lia. rewrite nth_error_skipn' in Hp. rewrite Nat.add_0_r, Hseed in Hp by lia. congruence. }
  intros pr _. apply bind_step. intros [lp rest2] _. apply bind_cong.
  { apply leader_proofs_cong. intros j s Hj E. apply H. cbn [shard_derives]. rewrite J. split; [lia |].
    apply Hs in E; [| assumption]. subst s. f_equal. lia. }
  reflexivity.
Qed.

(** [[helper_seeds[i] for i in range(a, 2n, 2)]] *)
Lemma mapM_get_step {A} (l r : list A) (f : nat -> nat) n :
  mapM (get l) (map f (seq 0 n)) = Ok r -> forall j x, j < n -> nth_error r j = Some x -> nth_error l (f j) = Some x.
Proof.
  intros H j x Hj E.
  assert (Hl : length r = n) by (apply mapM_Ok_length in H; rewrite map_length, seq_length in H; auto).
  pose proof (mapM_Ok_nth _ _ _ 0 x H j) as G. rewrite map_length, seq_length in G. specialize (G Hj).
  rewrite (nth_seq_map f n j 0 Hj) in G. apply get_Ok in G. rewrite G. f_equal. symmetry. now apply nth_error_nth with (d := x) in E.
Qed.

Lemma range_step_1' n r : range_step 1 (n * 2) 2 = Ok r -> r = map (fun i => 1 + i * 2) (seq 0 n).
Proof. rewrite range_step_1. congruence. Qed.
Lemma range_step_0' n r : range_step 0 (n * 2) 2 = Ok r -> r = map (fun i => i * 2) (seq 0 n).
Proof. rewrite range_step_0 by lia. congruence. Qed.

Lemma for_range_count {A B} (f : nat -> A -> B -> res (A * B)) (g : B -> nat) n a b a' b' :
  (forall i x y x' y', f i x y = Ok (x', y') -> g y' = S (g y)) ->
  for_range 0 n (a, b) (fun '(x, y) i => f i x y) = Ok (a', b') -> g b' = n + g b.
Proof.
  intros Hf. unfold for_range. change (range 0 n) with (seq 0 (n - 0)). rewrite Nat.sub_0_r.
  enough (G : forall k, foldM (fun '(x, y) i => f i x y) (seq k n) (a, b) = Ok (a', b') -> g b' = n + g b) by apply G.
  revert a b; induction n; intros a b k H; cbn in H.
  - injection H as _ <-. reflexivity.
  - apply bind_Ok in H as ([x y] & H1 & H). apply IHn in H. apply Hf in H1. lia.
Qed.

Lemma shard_with_cong nonce rand meas seeds : joint = true -> 1 <= shares ->
  (forall k, k < shares * 2 -> nth_error seeds k = Some (seed_of rand k)) ->
  (forall q, shard_derives shares joint nonce rand q -> agreeq q) ->
  shard_with_joint_rand (obj ts) ctx meas nonce seeds = shard_with_joint_rand (obj ts') ctx meas nonce seeds.
Proof.
  intros J H1 Hseed H. unfold shard_with_joint_rand. cbn [p3_SHARES prio3_on].
  apply bind_step. intros [hs rest] Hf. apply front_ok' in Hf as (-> & -> & _).
  apply bind_step. intros even Hev. apply range_step_0' in Hev as ->.
  apply bind_step. intros hsh Hsh. apply bind_step. intros odd Hodd. apply range_step_1' in Hodd as ->.
  apply bind_step. intros hbl Hbl.
  apply bind_step. intros [last rest'] Hf. apply front_ok' in Hf as (-> & -> & _).
  apply bind_step. intros lblind Hlb. apply bind_step. intros pseed Hps.
  assert (Es : forall j s, j < shares - 1 -> nth_error hsh j = Some s -> s = seed_of rand (j * 2)).
  { intros j s Hj E. apply (mapM_get_step _ _ _ _ Hsh) in E; [| assumption].
    rewrite nth_error_firstn_lt in E by lia. rewrite Hseed in E by lia. congruence. }
  assert (Eb : forall j s, j < shares - 1 -> nth_error hbl j = Some s -> s = seed_of rand (j * 2 + 1)).
  { intros j s Hj E. apply (mapM_get_step _ _ _ _ Hbl) in E; [| assumption].
    rewrite nth_error_firstn_lt in E by lia. rewrite Hseed in E by lia. rewrite Nat.add_comm in E. congruence. }
  apply get_Ok in Hlb. rewrite nth_error_firstn_lt, nth_error_skipn', Nat.add_0_r, Hseed in Hlb by lia.
  apply get_Ok in Hps. rewrite nth_error_firstn_lt, nth_error_skipn', Hseed in Hps by lia.
  injection Hlb as <-. injection Hps as <-.
  apply bind_cong.
  { apply for_range_cong. intros [lm parts] i Hi. apply bind_step. intros s E. apply get_Ok in E. apply Es in E as ->; [| lia].
    apply bind_cong.
    { apply helper_meas_cong, H. cbn [shard_derives]. rewrite J. split; [lia |]. f_equal. lia. }
    intros h _. apply bind_step. intros lm' _. apply bind_step. intros bl E. apply get_Ok in E. apply Eb in E as ->; [| lia].
    apply bind_same. apply joint_rand_part_cong, H. cbn [shard_derives]. rewrite J.
    replace (i + 1 =? 0) with false by (symmetry; apply Nat.eqb_neq; lia).
    repeat split; [lia |]. f_equal. lia. }
  intros [lm parts] Hloop. apply bind_cong.
  { apply joint_rand_part_cong, H. cbn [shard_derives]. rewrite J. repeat split. lia. }
  intros part _. apply bind_cong. { apply prove_rands_cong, H. cbn [shard_derives]. now rewrite J. }
  intros pr _. apply bind_cong.
  { apply joint_rand_seed_cong, H. cbn [shard_derives]. split; [assumption |].
    apply (for_range_count (fun j leader_meas_share joint_rand_parts =>
      let* share := get hsh j in
      let* h := helper_meas_share (obj ts) ctx (j + 1) share in
      let* leader_meas_share := vec_sub leader_meas_share h in
      let* blind := get hbl j in
      let* part := joint_rand_part (obj ts) ctx (j + 1) blind h nonce in
      Ok (leader_meas_share, joint_rand_parts ++ [part])) (@length bytes)) in Hloop.
    - cbn [length] in *. lia.
    - clear. intros i x y x' y' E. repeat (apply bind_Ok in E as (? & _ & E)). injection E as _ <-. rewrite app_length. cbn. lia. }
  intros seed _. apply bind_cong. { now apply joint_rands_cong, H. }
  intros jr _. apply bind_step. intros [[lp r1] r2] _. apply bind_cong.
  { apply leader_proofs_cong. intros j s Hj E. apply H. cbn [shard_derives]. rewrite J. split; [lia |].
    apply Es in E; [| assumption]. subst s. f_equal. lia. }
  reflexivity.
Qed.

Lemma shard_cong m nonce rand : 1 <= shares ->
  (forall q, shard_derives shares joint nonce rand q -> agreeq q) ->
  p3_shard (obj ts) ctx m nonce rand = p3_shard (obj ts') ctx m nonce rand.
Proof.
  intros H1 H. unfold p3_shard. apply bind_step. intros _ _. apply bind_cong; [reflexivity |]. intros u Hr.
  apply check_Ok, Nat.eqb_eq in Hr. apply bind_cong; [reflexivity |]. intros starts Hst. apply bind_step. intros meas _.
  unfold RAND_SIZE in Hr, Hst. cbn [p3_SHARES prio3_on p3_flp p3_field p3_xof SEED_SIZE XofTurboShake128] in Hr, Hst |- *.
  assert (E : starts = map (fun i => i * 32) (seq 0 (if joint then shares * 2 else shares))).
  { replace (shares * 32 + (if joint then shares * 32 else 0)) with ((if joint then shares * 2 else shares) * 32) in Hst
      by (destruct joint; lia).
    rewrite range_step_0 in Hst by lia. congruence. }
  assert (Hs : forall k, k < (if joint then shares * 2 else shares) ->
    nth_error (map (fun i => slice rand i (i + 32)) starts) k = Some (seed_of rand k)).
  { intros k Hk. rewrite E, map_map. rewrite (map_nth_error _ k _ (d := k)); [reflexivity |].
    apply nth_error_nth' with (d := 0) in Hk as Hk' || idtac.
    rewrite (nth_error_nth' _ 0) by (rewrite seq_length; exact Hk). now rewrite seq_nth. }
  destruct joint eqn:J.
  - apply (shard_with_cong nonce rand); auto. now rewrite J.
  - apply (shard_without_cong nonce rand); auto.
    + rewrite map_length, E, map_length, seq_length. lia.
    + now rewrite J.
Qed.
End Cong.

(** ** Injectivity *)
Lemma tag_of_ok usage ctx : (0 <= ID < 2 ^ 32)%Z -> (0 <= usage < 2 ^ 16)%Z -> ctx_ok ctx ->
  exists d, format_dst 0 ID usage = Ok d /\ tag_of usage ctx = d ++ ctx /\ (Z.of_nat (length (d ++ ctx)) < 65536)%Z.
Proof.
  intros Hi Hu Hc. destruct (format_dst_total 0 ID usage) as [d Hd]; [lia | lia | lia |].
  exists d. split; [exact Hd |]. unfold tag_of, domain_separation_tag. rewrite Hd. split; [reflexivity |].
  apply format_dst_shape in Hd as (id & us & _ & Hus & Hid & ->).
  rewrite !app_length. cbn [length]. rewrite Hid, Hus. unfold ctx_ok in Hc. lia.
Qed.

Definition query_parts (q : prio3_query P) : Z * bytes * bytes :=
  match q with
  | MeasShare j seed => (USAGE_MEAS_SHARE, seed, byte_str j)
  | ProofShare j seed => (USAGE_PROOF_SHARE, seed, byte_str proofs ++ byte_str j)
  | JointRand seed => (USAGE_JOINT_RANDOMNESS, seed, byte_str proofs)
  | ProveRand seed => (USAGE_PROVE_RANDOMNESS, seed, byte_str proofs)
  | QueryRand key nonce => (USAGE_QUERY_RANDOMNESS, key, byte_str proofs ++ nonce)
  | JointRandSeed parts => (USAGE_JOINT_RAND_SEED, zeros 32, concat_bytes parts)
  | JointRandPart j blind meas nonce => (USAGE_JOINT_RAND_PART, blind, byte_str j ++ nonce ++ bytes_of (encode_vec meas))
  end.
Lemma prio3_input_parts ctx q : prio3_input ctx q =
  let '(u, seed, binder) := query_parts q in ts_point seed (tag_of u ctx) binder.
Proof. now destruct q. Qed.

Lemma byte_str_one n : n < 256 -> byte_str n = [z2b (Z.of_nat n)].
Proof. intros H. unfold byte_str. now rewrite byte_of_ok. Qed.
Lemma byte_str_inj n m : n < 256 -> m < 256 -> byte_str n = byte_str m -> n = m.
Proof.
  intros Hn Hm. rewrite !byte_str_one by assumption. intros [= E].
  apply Nat2Z.inj. rewrite <- (b2z_z2b (Z.of_nat n)), <- (b2z_z2b (Z.of_nat m)) by lia. now rewrite E.
Qed.

Lemma concat_inj_len {A} n (l l' : list (list A)) : 0 < n -> Forall (fun x => length x = n) l -> Forall (fun x => length x = n) l' ->
  concat l = concat l' -> l = l'.
Proof.
  intros Hn H. revert l'; induction H as [| x l Hx H IH]; intros l' H' E.
  - destruct H' as [| y l' Hy H']; [reflexivity |]. destruct y; [cbn in Hy; lia | discriminate].
  - destruct H' as [| y l' Hy H']; [destruct x; [cbn in Hx; lia | discriminate] |].
    cbn in E. apply app_inj_len in E as [-> E]; [| congruence]. f_equal. auto.
Qed.

Lemma query_parts_usage q : (0 <= fst (fst (query_parts q)) < 2 ^ 16)%Z.
Proof. destruct q; cbn [query_parts fst snd]; split; (reflexivity || (intros H; discriminate H)). Qed.
Lemma query_parts_seed q : prio3_query_ok q -> (Z.of_nat (length (snd (fst (query_parts q)))) < 256)%Z.
Proof. destruct q; cbn [query_parts fst snd prio3_query_ok]; intros H; try (unfold zeros; rewrite repeat_length); lia. Qed.

Lemma prio3_input_tagged ctx q : (0 <= ID < 2 ^ 32)%Z -> ctx_ok ctx -> tagged 0 ID ctx (fst (prio3_input ctx q)).
Proof.
  intros Hi Hc. rewrite prio3_input_parts. pose proof (query_parts_usage q) as Hu.
  destruct (query_parts q) as [[u seed] binder]. cbn [fst snd] in Hu.
  destruct (tag_of_ok u ctx Hi Hu Hc) as (d & Hd & -> & Hl). exact (tagged_point _ _ _ _ _ _ _ Hd Hl).
Qed.

Lemma query_parts_inj q q' : wf_field P -> proofs < 256 -> prio3_query_ok q -> prio3_query_ok q' ->
  query_parts q = query_parts q' -> q = q'.
Proof.
  intros Hf Hp H H'. destruct q, q'; cbn [query_parts prio3_query_ok] in *; try (intros E; discriminate E).
  - intros [= -> E]. apply byte_str_inj in E; [now subst | tauto | tauto].
  - intros [= -> E]. apply app_inj_len in E as [_ E]; [| reflexivity]. apply byte_str_inj in E; [now subst | tauto | tauto].
  - now intros [= ->].
  - intros [= -> E]. apply app_inj_len in E as [_ ->]; [| reflexivity]. reflexivity.
  - intros [= -> E]. rewrite !byte_str_one in E by tauto. cbn in E. injection E as E1 E.
    apply app_inj_len in E as [-> E]; [| intuition congruence].
    destruct (encode_vec_ok meas_share Hf) as (b & Eb & _ & Db). destruct (encode_vec_ok meas_share0 Hf) as (b' & Eb' & _ & Db').
    rewrite Eb, Eb' in E. cbn in E. subst b'. rewrite Db in Db'. injection Db' as ->. f_equal.
    apply byte_str_inj; [tauto | tauto |]. rewrite !byte_str_one by tauto. now rewrite E1.
  - intros [= E]. f_equal. now apply (concat_inj_len 32) in E; [| lia | |].
  - now intros [= ->].
Qed.

Lemma prio3_input_inj ctx ctx' q q' : wf_field P -> (0 <= ID < 2 ^ 32)%Z -> proofs < 256 ->
  ctx_ok ctx -> ctx_ok ctx' -> prio3_query_ok q -> prio3_query_ok q' ->
  prio3_input ctx q = prio3_input ctx' q' -> ctx = ctx' /\ q = q'.
Proof.
  intros Hf Hi Hp Hc Hc' Hq Hq'. rewrite !prio3_input_parts.
  pose proof (query_parts_usage q) as Hu. pose proof (query_parts_seed q Hq) as Hs.
  pose proof (query_parts_usage q') as Hu'. pose proof (query_parts_seed q' Hq') as Hs'.
  pose proof (query_parts_inj q q' Hf Hp Hq Hq') as HI.
  destruct (query_parts q) as [[u seed] binder]. cbn [fst snd] in Hu, Hs.
  destruct (query_parts q') as [[u' seed'] binder']. cbn [fst snd] in Hu', Hs'.
  destruct (tag_of_ok u ctx Hi Hu Hc) as (d & Hd & -> & Hl).
  destruct (tag_of_ok u' ctx' Hi Hu' Hc') as (d' & Hd' & -> & Hl').
  intros E. apply ts_point_inj in E as (-> & E & ->); try assumption.
  destruct (format_dst_inj _ _ _ _ _ _ _ _ _ _ Hd Hd' E) as (_ & _ & -> & ->). split; [reflexivity |]. now apply HI.
Qed.
End P3O.

Theorem prio3_queries (P : FieldClass) (flp : Flp P) (ID : Z) (ks shares proofs bound : nat) :
  wf_field P -> (0 <= ID < 2 ^ 32)%Z -> 1 <= shares -> proofs < 256 ->
  exists input : bytes -> prio3_query P -> bytes * Z,
    (forall ctx ctx' q q', ctx_ok ctx -> ctx_ok ctx' -> prio3_query_ok q -> prio3_query_ok q' ->
       input ctx q = input ctx' q' -> ctx = ctx' /\ q = q') /\
    (forall ctx q, ctx_ok ctx -> tagged 0 ID ctx (fst (input ctx q))) /\
    forall ts ts' ctx,
      let p := prio3_on flp ID ks shares proofs bound ts in
      let p' := prio3_on flp ID ks shares proofs bound ts' in
      let agree Q := forall q, Q q -> agree_at ts ts' (input ctx q) in
      let joint := 0 <? JOINT_RAND_LEN flp in
      (forall q, agree (eq q) -> prio3_derive p ctx q = prio3_derive p' ctx q) /\
      (forall m nonce rand, agree (shard_derives shares joint nonce rand) ->
         p3_shard p ctx m nonce rand = p3_shard p' ctx m nonce rand) /\
      (forall key j nonce ps is, agree (verify_derives joint key j nonce ps is) ->
         p3_verify_init p key ctx j tt nonce ps is = p3_verify_init p' key ctx j tt nonce ps is) /\
      (forall shares_, agree (fun q => exists parts, q = JointRandSeed parts /\ joint = true /\ map snd shares_ = map Some parts) ->
         p3_verifier_shares_to_message p ctx tt shares_ = p3_verifier_shares_to_message p' ctx tt shares_) /\
      (forall state msg, p3_verify_next p ctx state msg = p3_verify_next p' ctx state msg).
Proof.
  intros Hf Hi Hsh Hp. exists (prio3_input ID proofs). split; [| split].
  - intros ctx ctx' q q' Hc Hc' Hq Hq'. now apply prio3_input_inj.
  - intros ctx q Hc. now apply prio3_input_tagged.
  - intros ts ts' ctx p p' agree joint. repeat apply conj.
    + intros q H. apply derive_cong. now apply H.
    + intros m nonce rand H. now apply shard_cong.
    + intros key j nonce ps is H. now apply verify_cong.
    + intros sh H. apply message_cong. intros parts J E. apply H. exists parts. auto.
    + reflexivity.
Qed.

(** Under one context and algorithm identifier, everything is determined by the
    messages tagged with them. *)
Theorem prio3_separated (P : FieldClass) (flp : Flp P) (ID : Z) (ks shares proofs bound : nat) (ts ts' : TurboShake) ctx :
  wf_field P -> (0 <= ID < 2 ^ 32)%Z -> 1 <= shares -> proofs < 256 -> ctx_ok ctx ->
  (forall m d, tagged 0 ID ctx m -> agree_at ts ts' (m, d)) ->
  let p := Prio3Vdaf (prio3_on flp ID ks shares proofs bound ts) in
  let p' := Prio3Vdaf (prio3_on flp ID ks shares proofs bound ts') in
  (forall m nonce rand, vd_shard p ctx m nonce rand = vd_shard p' ctx m nonce rand) /\
  (forall key j nonce ps is, vd_verify_init p key ctx j tt nonce ps is = vd_verify_init p' key ctx j tt nonce ps is) /\
  (forall vs, vd_verifier_shares_to_message p ctx tt vs = vd_verifier_shares_to_message p' ctx tt vs) /\
  (forall state msg, vd_verify_next p ctx state msg = vd_verify_next p' ctx state msg).
Proof.
  intros Hf Hi Hs Hp Hc H p p'.
  destruct (prio3_queries P flp ID ks shares proofs bound Hf Hi Hs Hp) as (input & _ & Ht & HA).
  assert (A : forall q, agree_at ts ts' (input ctx q)).
  { intros q. specialize (Ht ctx q Hc). destruct (input ctx q). now apply H. }
  destruct (HA ts ts' ctx) as (_ & H1 & H2 & H3 & H4). repeat apply conj; intros.
  - now apply H1.
  - now apply H2.
  - now apply H3.
  - now apply H4.
Qed.
