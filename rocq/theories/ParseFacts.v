(** Lemmas about decoders: fields, vectors and loops. *)
From Verif Require Import FieldFacts CodecProofs BaseFacts CommonFacts Prio3Spec.
Open Scope nat_scope.

(** The encoding of a vector. *)
Definition vec_bytes {P : FieldClass} (v : list (F P)) : bytes := concat (map encode_elem v).

Lemma encode_vec_bytes {P : FieldClass} (v : list (F P)) : wf_field P -> encode_vec v = Ok (vec_bytes v).
Proof. intros [_ H]. now apply encode_vec_ok. Qed.

Lemma decode_vec_bytes {P : FieldClass} (b : bytes) (v : list (F P)) : wf_field P ->
  decode_vec b = Ok v <-> b = vec_bytes v.
Proof.
  intros HW. pose proof (codec_vec HW) as (H1 & H2 & _). split.
  - intros H. apply H2 in H. rewrite encode_vec_bytes in H by easy. now injection H as <-.
  - intros ->. destruct (H1 v) as (b & E & _ & D & _). rewrite encode_vec_bytes in E by easy. now injection E as <-.
Qed.

Lemma vec_bytes_length {P : FieldClass} (v : list (F P)) : wf_field P -> length (vec_bytes v) = ENCODED_SIZE P * length v.
Proof. intros HW. pose proof (encode_vec_length v _ (encode_vec_bytes v HW)) as H. lia. Qed.

(** [front] followed by [decode_vec]. *)
Lemma front_decode {P : FieldClass} n (b : bytes) (v : list (F P)) rest : wf_field P ->
  (let* (e, b) := front (ENCODED_SIZE P * n) b in let* v := decode_vec e in Ok (v, b)) = Ok (v, rest) <->
  length v = n /\ b = vec_bytes v ++ rest.
Proof.
  intros HW. split.
  - intros H. apply bind_Ok in H as ([e b'] & Ef & H). apply bind_Ok in H as (v' & Ed & H). injection H as <- <-.
    apply front_Ok in Ef as [Hl ->]. apply decode_vec_bytes in Ed; [|easy]. subst e. split; [|easy].
    rewrite vec_bytes_length in Hl by easy. destruct HW as [H0 _]. nia.
  - intros [Hl ->]. rewrite front_app by (rewrite vec_bytes_length by easy; congruence). cbn [bind].
    now rewrite (proj2 (decode_vec_bytes _ v HW) eq_refl).
Qed.

(** A loop that parses [n] items. *)
Lemma parse_loop {A} (parse : nat -> bytes -> res (A * bytes)) (W : nat -> A -> Prop) (enc : A -> bytes) :
  (forall l b x r, parse l b = Ok (x, r) <-> W l x /\ b = enc x ++ r) ->
  forall n b xs rest,
  for_range 0 n ([], b) (fun '(xs, b) l => let* (x, b) := parse l b in Ok (xs ++ [x], b)) = Ok (xs, rest) <->
  length xs = n /\ (forall l x, nth_error xs l = Some x -> W l x) /\ b = concat (map enc xs) ++ rest.
Proof.
  intros HP n. induction n as [|n IH]; intros b xs rest.
  - rewrite for_range_nil by lia. split.
    + intros H. injection H as <- <-. split; [easy|]. split; [|easy]. intros [|] x Hx; discriminate.
    + intros (H & _ & ->). destruct xs; [|discriminate]. reflexivity.
  - rewrite for_range_S by lia. split.
    + intros H. apply bind_Ok in H as ([ys b'] & H1 & H). apply IH in H1 as (Hl & HW & ->).
      apply bind_Ok in H as ([x b''] & H2 & H). injection H as <- <-. apply HP in H2 as [HWx ->].
      split; [rewrite app_length; cbn; lia|]. split.
      * intros l z Hz. destruct (Nat.lt_ge_cases l n).
        -- rewrite nth_error_app1 in Hz by lia. now apply HW.
        -- rewrite nth_error_app2 in Hz by lia. destruct (l - length ys) as [|k] eqn:Ek.
           ++ injection Hz as <-. now replace l with n by lia.
           ++ destruct k; discriminate.
      * rewrite map_app, concat_app. cbn [map concat]. now rewrite app_nil_r, <- app_assoc.
    + intros (Hl & HW & ->). destruct (exists_last (l := xs)) as (ys & x & ->); [now intros ->|].
      rewrite app_length in Hl. cbn in Hl. rewrite map_app, concat_app. cbn [map concat]. rewrite app_nil_r, <- app_assoc.
      rewrite (proj2 (IH _ ys (enc x ++ rest))).
      * cbn [bind]. rewrite (proj2 (HP n (enc x ++ rest) x rest)); [reflexivity|]. split; [|easy].
        apply HW. rewrite nth_error_app2 by lia. now replace (n - length ys) with 0 by lia.
      * split; [lia|]. split; [|easy]. intros l z Hz. apply HW. rewrite nth_error_app1; [easy|].
        apply nth_error_Some. congruence.
Qed.

(** Bytes and their bits. *)
Lemma byte_testbit_high b j : (8 <= j)%Z -> Z.testbit (b2z b) j = false.
Proof.
  intros Hj. pose proof (b2z_range b) as H. destruct (Z.eq_dec (b2z b) 0) as [E|E]; [rewrite E; apply Z.bits_0|].
  apply Z.bits_above_log2; [lia|]. assert (Z.log2 (b2z b) < 8)%Z by (apply Z.log2_lt_pow2; lia). lia.
Qed.

Lemma byte_bits_ext a b : (forall j, j < 8 -> Z.testbit (b2z a) (Z.of_nat j) = Z.testbit (b2z b) (Z.of_nat j)) -> a = b.
Proof.
  intros H. apply b2z_inj. apply Z.bits_inj'. intros n Hn.
  destruct (Z.lt_ge_cases n 8) as [Hl|Hl].
  - specialize (H (Z.to_nat n)). rewrite Z2Nat.id in H by lia. apply H. lia.
  - now rewrite !byte_testbit_high.
Qed.

(** The shapes in which the code reads a bit. *)
Lemma shiftr_land_bit z n : (0 <= n)%Z -> negb (Z.land (Z.shiftr z n) 1 =? 0)%Z = Z.testbit z n.
Proof.
  intros Hn. change 1%Z with (Z.ones 1). rewrite Z.land_ones by lia. change (2 ^ 1)%Z with 2%Z.
  rewrite Z.testbit_eqb by easy. rewrite Z.shiftr_div_pow2 by easy.
  pose proof (Z.mod_pos_bound (z / 2 ^ n) 2). destruct (Z.eqb_spec ((z / 2 ^ n) mod 2) 0), (Z.eqb_spec ((z / 2 ^ n) mod 2) 1); try easy; lia.
Qed.
