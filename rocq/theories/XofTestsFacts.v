(** Facts about the XOF tests and the remaining generators of test vectors. *)
From Coq Require Import Strings.String Strings.Ascii Decimal DecimalString DecimalN DecimalPos.
From Verif Require Import XofTestsSpec XofFacts SampleFacts XofProofs BaseFacts FieldFacts ParseFacts TestVecFacts
  IdpfTestsFacts IdpfCodec IdpfInst FieldTestsFacts FieldProofs CommonFacts TestCircuitFacts.
Open Scope nat_scope.

Lemma dst_of_test : exists d, format_dst 7 1337 2 = Ok d /\ (Z.of_nat (length d) < 65536)%Z.
Proof. eexists. split; [vm_compute; reflexivity|]. vm_compute. reflexivity. Qed.

Lemma next_loop X lim st s at_ (steps : list nat) p got : streams X lim st s at_ -> (Z.of_nat (p + 7 * length steps) < lim)%Z ->
  foldM (fun '(got, xof) _ => let* (b, xof) := xof_next X xof 7 in Ok (got ++ b, xof)) steps (got, at_ p)
  = Ok (got ++ stream_bytes s p (7 * length steps), at_ (p + 7 * length steps)).
Proof.
  intros H. revert p got. induction steps as [|x steps IH]; intros p got L; cbn [foldM length].
  - rewrite Nat.mul_0_r, Nat.add_0_r. unfold stream_bytes. cbn [seq map]. now rewrite app_nil_r.
  - cbn [length] in L. rewrite (proj2 H) by lia. cbn [bind]. rewrite IH by lia. rewrite <- app_assoc.
    replace (7 * S (length steps)) with (7 + 7 * length steps) by lia.
    rewrite (stream_bytes_app s p 7). now rewrite Nat.add_assoc.
Qed.

Lemma bytes_eqb_refl' b : bytes_eqb b b = true.
Proof. apply bytes_eqb_eq. reflexivity. Qed.

Lemma test_xof_outcome X P lim expanded_len seed : XofOk X lim -> (700 < lim)%Z -> (Z.of_nat expanded_len < lim)%Z ->
  (Z.of_nat (SEED_SIZE X) < lim)%Z -> (Z.of_nat (loop_bound X * ENCODED_SIZE P) < lim)%Z ->
  length seed = SEED_SIZE X ->
  match test_xof X P expanded_len seed with
  | Ok _ => True
  | Raise e => e = OutOfFuel /\ exists dst binder, expand_into_vec X P seed dst binder expanded_len = Raise OutOfFuel
  end.
Proof.
  intros HX L7 Le Ls Lb Hs. unfold test_xof. destruct dst_of_test as (d & Ed & Hd). rewrite Ed. cbn [bind].
  set (binder := byte_literal _).
  destruct (xo_init X lim HX seed d binder Hs Hd) as [st E]. rewrite E. cbn [bind].
  destruct (xo_stream X lim HX _ _ _ _ E) as (s & at_ & H). pose proof (proj1 H) as H0.
  rewrite <- H0. rewrite (proj2 H 0 expanded_len) by exact Le. cbn [bind]. rewrite stream_bytes_length, Nat.eqb_refl.
  cbn [assert_true check bind]. rewrite (proj2 H 0 700) by exact L7. cbn [bind].
  assert (Er : exists steps, range_step 0 700 7 = Ok steps /\ length steps = 100).
  { unfold range_step. cbn [Nat.eqb]. eexists. split; [reflexivity|]. rewrite map_length, seq_length. reflexivity. }
  destruct Er as (steps & Er & Ls'). rewrite Er. cbn [bind].
  rewrite (next_loop X lim st s at_ steps 0 []) by (try exact H; rewrite Ls'; exact L7). cbn [bind].
  rewrite Ls'. change (7 * 100) with 700. cbn [app]. rewrite bytes_eqb_refl'. cbn [check bind].
  destruct (derive_seed_ok X lim seed d binder HX Ls Hs Hd) as (b & Eb & Hb). rewrite Eb. cbn [bind].
  rewrite Hb, Nat.eqb_refl. cbn [check bind].
  destruct (expand_cases X P lim seed d binder expanded_len HX Lb Hs Hd) as [(v & Ev & Hv)|Ev].
  - rewrite Ev. cbn [bind]. rewrite Hv, Nat.eqb_refl. exact I.
  - rewrite Ev. cbn [bind]. split; [reflexivity|]. eauto.
Qed.

Lemma xof_outputs X lim seed dst binder st s at_ : xof_init X seed dst binder = Ok st -> streams X lim st s at_ ->
  outputs X lim seed dst binder s.
Proof.
  intros E H. exists st. split; [exact E|]. intros lens L.
  destruct (next_calls_streams X lim st s at_ lens 0 H L) as (bs & A & B & C). rewrite (proj1 H) in A. eauto.
Qed.

(** No chunk rejected among the first [n]. *)
Lemma accepted_all P s p n : (forall j, j < n -> (chunk P s p j < MODULUS P)%Z) -> accepted P s p n = map (chunk P s p) (seq 0 n).
Proof.
  intros H. unfold accepted. rewrite <- (filter_ext_in (fun _ => true)).
  - induction (map _ _) as [|x l IH]; [reflexivity|]. cbn [filter]. now rewrite IH.
  - intros x I. apply in_map_iff in I. destruct I as (j & <- & J). apply in_seq in J. symmetry. apply Z.ltb_lt. apply H. lia.
Qed.
Lemma accepted_le P s p k : length (accepted P s p k) <= k.
Proof.
  unfold accepted. rewrite <- (seq_length k 0) at 2. rewrite <- (map_length (chunk P s p) (seq 0 k)).
  induction (map _ _) as [|x l IH]; [reflexivity|]. cbn [filter]. destruct (x <? _)%Z; cbn [length]; lia.
Qed.

Lemma encode_chunks (P : FieldClass) s n : bits_of P = (8 * Z.of_nat (ENCODED_SIZE P))%Z -> forall p (v : list (F P)),
  map val v = map (chunk P s p) (seq 0 n) -> vec_bytes v = stream_bytes s p (n * ENCODED_SIZE P).
Proof.
  intros HB. induction n as [|n IH]; intros p v E.
  - destruct v; [reflexivity|discriminate].
  - destruct v as [|x v]; [discriminate|]. cbn [seq map] in E. injection E as Ex Ev.
    rewrite <- seq_shift, map_map in Ev.
    unfold vec_bytes. cbn [map concat]. fold (vec_bytes v). cbn [Nat.mul]. rewrite stream_bytes_app. f_equal.
    + unfold encode_elem. rewrite Ex. unfold chunk, chunk_value. cbn [Nat.mul]. rewrite Nat.add_0_r.
      set (b := stream_bytes s p (ENCODED_SIZE P)). assert (Lb : length b = ENCODED_SIZE P) by apply stream_bytes_length.
      rewrite HB. rewrite <- Lb at 2. rewrite Z.mod_small by apply from_le_bytes_range.
      rewrite <- Lb at 1. apply le_bytes_from_le_bytes.
    + apply IH. rewrite Ev. apply map_ext. intros j. unfold chunk. do 2 f_equal. lia.
Qed.

Lemma expand_no_rejection X P lim seed dst binder st s at_ len v : bits_of P = (8 * Z.of_nat (ENCODED_SIZE P))%Z ->
  xof_init X seed dst binder = Ok st -> streams X lim st s at_ -> (Z.of_nat (loop_bound X * ENCODED_SIZE P) < lim)%Z ->
  expand_into_vec X P seed dst binder len = Ok v -> (forall j, j < len -> (chunk P s 0 j < MODULUS P)%Z) ->
  vec_bytes v = stream_bytes s 0 (len * ENCODED_SIZE P).
Proof.
  intros HB E H L Ev NR. unfold expand_into_vec in Ev. rewrite E in Ev. cbn [bind] in Ev. rewrite <- (proj1 H) in Ev.
  destruct (next_vec X P (at_ 0) len) as [[w st']|e] eqn:En; [|discriminate]. cbn [bind] in Ev.
  assert (w = v) by congruence. subst w. clear Ev.
  destruct (proj1 (next_vec_spec X P lim st s at_ len 0 H L) v st' En) as (Hl & k & _ & Ek & Hm & _).
  assert (k = len).
  { pose proof (accepted_le P s 0 k) as A. rewrite <- Ek, map_length, Hl in A. destruct (Nat.eq_dec k len); [assumption|].
    assert (len < k) as B by lia. specialize (Hm len B). rewrite (accepted_all P s 0 len NR), map_length, seq_length in Hm. lia. }
  subst k. apply encode_chunks; [exact HB|]. rewrite Ek. now apply accepted_all.
Qed.

Lemma gen_rand_len n : length (test_vec_gen_rand n) = n.
Proof. unfold test_vec_gen_rand, range. now rewrite map_length, seq_length, Nat.sub_0_r. Qed.

Lemma stream_prefix s p n k : n <= k -> stream_bytes s p n = firstn n (stream_bytes s p k).
Proof.
  intros H. replace k with (n + (k - n)) by lia. rewrite stream_bytes_app.
  rewrite firstn_app, stream_bytes_length, Nat.sub_diag, firstn_all2 by (rewrite stream_bytes_length; lia).
  cbn [firstn]. now rewrite app_nil_r.
Qed.

Definition vector_dst := byte_literal "domain separation tag".
Definition vector_binder := byte_literal "binder string".
Lemma vector_dst_fits : (Z.of_nat (length vector_dst) < 65536)%Z.
Proof. vm_compute. reflexivity. Qed.

Lemma xof_vector X lim : XofOk X lim -> (Z.of_nat (SEED_SIZE X) < lim)%Z -> (Z.of_nat (loop_bound X * 16) < lim)%Z ->
  let seed := test_vec_gen_rand (SEED_SIZE X) in
  match gen_test_vec_for_xof X with
  | Ok v => fromhex (xv_seed v) = Ok seed /\ fromhex (xv_dst v) = Ok vector_dst /\ fromhex (xv_binder v) = Ok vector_binder /\
      xv_length v = 40 /\ exists s, outputs X lim seed vector_dst vector_binder s /\
      fromhex (xv_derived_seed v) = Ok (stream_bytes s 0 (SEED_SIZE X)) /\
      exists (vec : list (F Field128)) encoded k, fromhex (xv_expanded_vec_field128 v) = Ok encoded /\ decode_vec encoded = Ok vec /\
        length vec = 40 /\ map val vec = accepted Field128 s 0 k /\
        ((forall j, j < 40 -> (chunk Field128 s 0 j < MODULUS Field128)%Z) -> encoded = stream_bytes s 0 640)
  | Raise e => e = OutOfFuel /\ expand_into_vec X Field128 seed vector_dst vector_binder 40 = Raise OutOfFuel
  end.
Proof.
  intros HX Ls Lb seed. unfold gen_test_vec_for_xof. fold vector_dst vector_binder. fold seed.
  assert (Hs : length seed = SEED_SIZE X) by apply gen_rand_len.
  destruct (derive_seed_ok X lim seed vector_dst vector_binder HX Ls Hs vector_dst_fits) as (d & Ed & _).
  rewrite Ed. cbn [bind].
  destruct (xo_init X lim HX seed vector_dst vector_binder Hs vector_dst_fits) as [st E].
  destruct (xo_stream X lim HX _ _ _ _ E) as (s & at_ & H).
  assert (Ed' : d = stream_bytes s 0 (SEED_SIZE X)).
  { unfold derive_seed in Ed. rewrite E in Ed. cbn [bind] in Ed. rewrite <- (proj1 H), (proj2 H) in Ed by exact Ls.
    cbn [bind] in Ed. congruence. }
  destruct (expand_cases X Field128 lim seed vector_dst vector_binder 40 HX Lb Hs vector_dst_fits) as [(v & Ev & Hv)|Ev].
  - rewrite Ev. cbn [bind]. assert (W : wf_field Field128) by apply wf_Field128.
    rewrite (encode_vec_bytes v W). cbn [bind xv_seed xv_dst xv_binder xv_length xv_derived_seed xv_expanded_vec_field128].
    rewrite !fromhex_to_hex. repeat (split; [reflexivity|]). exists s. split; [exact (xof_outputs X lim seed _ _ st s at_ E H)|].
    split; [now rewrite Ed'|].
    assert (exists k, map val v = accepted Field128 s 0 k) as [k Ek].
    { unfold expand_into_vec in Ev. rewrite E in Ev. cbn [bind] in Ev. rewrite <- (proj1 H) in Ev.
      destruct (next_vec X Field128 (at_ 0) 40) as [[w st']|e] eqn:En; [|discriminate]. cbn [bind] in Ev.
      assert (w = v) by congruence. subst w.
      destruct (proj1 (next_vec_spec X Field128 lim st s at_ 40 0 H Lb) v st' En) as (_ & k & _ & Ek & _). eauto. }
    exists v, (vec_bytes v), k. split; [reflexivity|]. split.
    { now apply decode_vec_bytes. }
    split; [exact Hv|]. split; [exact Ek|]. intros NR.
    apply (expand_no_rejection X Field128 lim seed vector_dst vector_binder st s at_ 40 v); try assumption. vm_compute. reflexivity.
  - rewrite Ev. cbn [bind]. split; reflexivity.
Qed.

(** Text. *)
Lemma drop_spaces n s : drop n (spaces n ++ s) = s.
Proof. induction n as [|n IH]; [destruct s; reflexivity|exact IH]. Qed.
Lemma spaces_length n : String.length (spaces n) = n.
Proof. induction n as [|n IH]; [reflexivity|]. cbn [spaces String.length]. now rewrite IH. Qed.
Lemma length_app_s a b : String.length (a ++ b)%string = String.length a + String.length b.
Proof. induction a as [|c a IH]; [reflexivity|]. cbn. now rewrite IH. Qed.
Lemma app_assoc_s a b c : ((a ++ b) ++ c)%string = (a ++ (b ++ c))%string.
Proof. induction a as [|x a IH]; [reflexivity|]. cbn. now rewrite IH. Qed.
Lemma drop_nil n : drop n EmptyString = EmptyString.
Proof. destruct n; reflexivity. Qed.
Lemma drop_length n s : String.length (drop n s) = String.length s - n.
Proof. revert s. induction n as [|n IH]; intros [|c s]; cbn [drop String.length]; rewrite ?IH; lia. Qed.
Lemma substring_nil n m : substring n m EmptyString = EmptyString.
Proof. destruct n, m; reflexivity. Qed.
Lemma substring_drop n m s : substring n m s = substring 0 m (drop n s).
Proof. revert s. induction n as [|n IH]; intros [|c s]; cbn [drop]; rewrite ?substring_nil; try reflexivity. cbn [substring]. apply IH. Qed.
Lemma substring_length n m s : String.length (substring n m s) = Nat.min m (String.length s - n).
Proof.
  rewrite substring_drop, <- drop_length. generalize (drop n s). clear s n. induction m as [|m IH]; intros [|c s]; cbn [substring String.length Nat.min]; try reflexivity.
  now rewrite IH.
Qed.
Lemma take_drop m s : (substring 0 m s ++ drop m s)%string = s.
Proof. revert s. induction m as [|m IH]; intros [|c s]; cbn; try reflexivity. now rewrite IH. Qed.
Lemma drop_drop n m s : drop n (drop m s) = drop (m + n) s.
Proof. revert s. induction m as [|m IH]; intros [|c s]; cbn [drop Nat.add]; rewrite ?drop_nil; try reflexivity. apply IH. Qed.

Fixpoint concat_s (l : list string) : string := match l with [] => EmptyString | x :: l => (x ++ concat_s l)%string end.

Lemma chunks_concat c n : forall s, String.length s <= n * c ->
  concat_s (map (fun k => substring (k * c) c s) (seq 0 n)) = s.
Proof.
  induction n as [|n IH]; intros s H.
  - destruct s; [reflexivity|cbn in H; lia].
  - cbn [seq map concat_s]. rewrite <- seq_shift, map_map. rewrite Nat.mul_0_l.
    rewrite (map_ext _ (fun k => substring (k * c) c (drop c s))).
    + rewrite IH; [apply take_drop|]. rewrite drop_length. lia.
    + intros k. rewrite substring_drop, (substring_drop (k * c)), drop_drop. reflexivity.
Qed.

Lemma wrapped line tab : tab < 72 ->
  print_wrapped_line line tab
  = Ok (map (fun k => (spaces tab ++ substring (k * (72 - tab)) (72 - tab) line)%string)
            (seq 0 ((String.length line + (72 - tab - 1)) / (72 - tab)))).
Proof.
  intros H. unfold print_wrapped_line. rewrite (proj2 (Nat.ltb_ge 72 tab)) by lia. unfold range_step.
  rewrite (proj2 (Nat.eqb_neq (72 - tab) 0)) by lia. cbn [bind]. rewrite map_map, Nat.sub_0_r. reflexivity.
Qed.

Lemma ceil_bounds n c : 0 < c -> n <= (n + (c - 1)) / c * c /\ ((n + (c - 1)) / c - 1) * c < n \/ n = 0.
Proof.
  intros H. destruct n as [|n]; [now right|left].
  pose proof (Nat.div_mod (S n + (c - 1)) c ltac:(lia)) as E. pose proof (Nat.mod_upper_bound (S n + (c - 1)) c ltac:(lia)).
  set (q := (S n + (c - 1)) / c) in *. nia.
Qed.

Lemma wrapped_lines line tab : tab < 72 -> exists lines, print_wrapped_line line tab = Ok lines /\
  concat_s (map (drop tab) lines) = line /\
  forall k, k < length lines -> exists c, nth k lines EmptyString = (spaces tab ++ c)%string /\
    String.length c = if S k =? length lines then String.length line - k * (72 - tab) else 72 - tab.
Proof.
  intros H. eexists. split; [exact (wrapped line tab H)|]. set (c := 72 - tab). assert (Hc : 0 < c) by (unfold c; lia).
  set (n := (String.length line + (c - 1)) / c). change (72 - tab - 1) with (c - 1). fold n.
  assert (B : String.length line <= n * c).
  { destruct (ceil_bounds (String.length line) c Hc) as [[A _]|A]; [exact A|lia]. }
  split.
  - rewrite map_map. rewrite (map_ext _ (fun k => substring (k * c) c line)) by (intros k; apply drop_spaces). now apply chunks_concat.
  - intros k Hk. rewrite map_length, seq_length in Hk |- *.
    rewrite (map_nth_lt _ (seq 0 n) k 0) by now rewrite seq_length. rewrite seq_nth by exact Hk. cbn [Nat.add].
    eexists. split; [reflexivity|]. rewrite substring_length.
    destruct (ceil_bounds (String.length line) c Hc) as [[_ A]|A]; [change ((n - 1) * c < String.length line) in A|].
    + destruct (Nat.eqb_spec (S k) n) as [E|E].
      * assert (n * c = k * c + c) by (rewrite <- E; lia). lia.
      * assert ((k + 1) * c <= (n - 1) * c) by (apply Nat.mul_le_mono_r; lia). lia.
    + exfalso. unfold n in Hk. rewrite A in Hk. rewrite Nat.div_small in Hk by lia. lia.
Qed.

(** Reading the printed lines with bytes.fromhex(). *)
Lemma fromhex_spaces n s : fromhex (spaces n ++ s)%string = fromhex s.
Proof. induction n as [|n IH]; [reflexivity|]. cbn [spaces String.append fromhex]. exact IH. Qed.
Lemma fromhex_app b s : fromhex (to_hex b ++ s)%string = let* r := fromhex s in Ok (b ++ r).
Proof.
  induction b as [|x b IH]; [cbn [to_hex String.append app]; destruct (fromhex s); reflexivity|].
  pose proof (b2z_range x) as R.
  destruct (hex_char_value (b2z x / 16)) as [V1 S1]; [split; [apply Z.div_pos; lia|apply Z.div_lt_upper_bound; lia]|].
  destruct (hex_char_value (b2z x mod 16)) as [V2 _]; [apply Z.mod_pos_bound; lia|].
  cbn [to_hex String.append fromhex]. rewrite S1, V1, V2, IH. destruct (fromhex s); [|reflexivity]. cbn [bind app].
  now rewrite <- Z.div_mod, z2b_b2z by lia.
Qed.
Lemma hex_take h b : substring 0 (2 * h) (to_hex b) = to_hex (firstn h b).
Proof.
  revert b. induction h as [|h IH]; intros b; [destruct b; reflexivity|].
  replace (2 * S h) with (S (S (2 * h))) by lia. destruct b as [|x b]; [reflexivity|]. cbn [to_hex substring firstn]. now rewrite IH.
Qed.
Lemma hex_drop h b : drop (2 * h) (to_hex b) = to_hex (skipn h b).
Proof.
  revert b. induction h as [|h IH]; intros b; [destruct b; reflexivity|].
  replace (2 * S h) with (S (S (2 * h))) by lia. destruct b as [|x b]; [reflexivity|]. cbn [to_hex drop skipn]. now rewrite IH.
Qed.
Lemma hex_length b : String.length (to_hex b) = 2 * length b.
Proof. induction b as [|x b IH]; [reflexivity|]. cbn [to_hex String.length length]. lia. Qed.

Lemma read_chunks t h n : forall b, length b <= n * h ->
  fromhex (unlines (map (fun k => (spaces t ++ substring (k * (2 * h)) (2 * h) (to_hex b))%string) (seq 0 n))) = Ok b.
Proof.
  induction n as [|n IH]; intros b H.
  - destruct b; [reflexivity|cbn in H; lia].
  - cbn [seq map unlines]. rewrite <- seq_shift, map_map. rewrite Nat.mul_0_l, hex_take.
    rewrite app_assoc_s, fromhex_spaces, fromhex_app.
    rewrite (map_ext _ (fun k => (spaces t ++ substring (k * (2 * h)) (2 * h) (to_hex (skipn h b)))%string)).
    + change (fromhex (String (ascii_of_nat 10) ?s)) with (fromhex s). rewrite IH by (rewrite skipn_length; lia). cbn [bind].
      now rewrite firstn_skipn.
    + intros k. f_equal. rewrite substring_drop, (substring_drop (k * (2 * h))), <- hex_drop, drop_drop. reflexivity.
Qed.

Lemma wrapped_hex b tab : tab < 72 -> Nat.even tab = true -> exists lines, print_wrapped_line (to_hex b) tab = Ok lines /\
  fromhex (unlines lines) = Ok b.
Proof.
  intros H E. eexists. split; [exact (wrapped (to_hex b) tab H)|]. apply Nat.even_spec in E as [t E].
  replace (72 - tab) with (2 * (36 - t)) by lia. apply read_chunks.
  rewrite hex_length. set (h := 36 - t). assert (0 < h) by (unfold h; lia).
  replace (2 * length b + (2 * h - 1)) with (2 * length b + (2 * h - 1)) by lia.
  destruct (ceil_bounds (2 * length b) (2 * h) ltac:(lia)) as [[A _]|A]; [nia|]. lia.
Qed.

(** Decimal numbers. *)
Lemma read_str x : (0 <= x)%Z -> read_nat (str_nat x) = Some x.
Proof.
  intros H. unfold read_nat, str_nat. rewrite NilZero.usu.
  - cbn [option_map]. rewrite DecimalN.Unsigned.of_to. f_equal. now apply Z2N.id.
  - destruct (Z.to_N x) as [|p]; [discriminate|]. exact (DecimalPos.Unsigned.to_uint_nonnil p).
Qed.

(** The IDPF's test vector. *)
Section IdpfVector.
Context (i : Idpf) (lim : Z) (HI : IdpfOk i lim).
Notation Pi := (id_field_inner i).
Notation Pl := (id_field_leaf i).
Notation VLEN := (id_VALUE_LEN i).
Notation BITS := (id_BITS i).
Context (HWi : wf_field Pi) (HWl : wf_field Pl).
Context (Mi : (Z.of_nat BITS <= MODULUS Pi)%Z) (Ml : (Z.of_nat BITS <= MODULUS Pl)%Z).

Let inner_beta : list (list (F Pi)) := map (fun level => repeat (fof (Z.of_nat level)) VLEN) (seq 0 (BITS - 1)).
Let leaf_beta : list (F Pl) := repeat (fof (Z.of_nat (BITS - 1))) VLEN.

Lemma point_vals alpha level prefix : level < BITS ->
  fv_vals (point_value i alpha inner_beta leaf_beta level prefix)
  = repeat (if list_eq_dec Bool.bool_dec prefix (firstn (S level) alpha) then Z.of_nat level else 0%Z) VLEN.
Proof.
  intros HL. unfold point_value. pose proof (MODULUS_pos (P := Pi)). pose proof (MODULUS_pos (P := Pl)).
  assert (map_rep : forall (P : FieldClass) (x : F P) n, map fint (repeat x n) = repeat (val x) n).
  { intros P x n. induction n as [|n IH]; [reflexivity|]. cbn [repeat map]. now rewrite IH. }
  destruct (list_eq_dec _ _ _) as [E|E].
  - unfold beta_at. destruct (Nat.ltb_spec level (BITS - 1)); cbn [fv_vals].
    + unfold inner_beta. rewrite (map_nth_lt _ (seq 0 (BITS - 1)) level 0) by (rewrite seq_length; lia).
      rewrite seq_nth by lia. rewrite map_rep. rewrite val_fof_small by lia. reflexivity.
    + unfold leaf_beta. rewrite map_rep, val_fof_small by lia. f_equal. lia.
  - unfold zero_at. destruct (Nat.ltb_spec level (BITS - 1)); cbn [fv_vals]; rewrite map_rep; reflexivity.
Qed.

Lemma idpf_vector alpha ctx : length alpha = BITS -> ctx_ok ctx ->
  match gen_test_vec_for_idpf i alpha ctx with
  | Ok v =>
      iv_bits v = BITS /\ iv_alpha v = alpha /\ fromhex (iv_ctx v) = Ok ctx /\
      map (map read_nat) (iv_beta_inner v) = map (fun level => repeat (Some (Z.of_nat level)) VLEN) (seq 0 (BITS - 1)) /\
      map read_nat (iv_beta_leaf v) = repeat (Some (Z.of_nat (BITS - 1))) VLEN /\
      exists nonce encoded public_share k0 k1, fromhex (iv_nonce v) = Ok nonce /\
      fromhex (iv_public_share v) = Ok encoded /\ idpf_decode_public_share i encoded = Ok public_share /\
      mapM fromhex (iv_keys v) = Ok [k0; k1] /\ k0 ++ k1 = test_vec_gen_rand (id_RAND_SIZE i) /\
      forall level prefixes, level < BITS -> NoDup prefixes -> Forall (fun x => length x = S level) prefixes ->
      match idpf_eval i 0 public_share k0 (Z.of_nat level) prefixes ctx nonce,
            idpf_eval i 1 public_share k1 (Z.of_nat level) prefixes ctx nonce with
      | Ok out0, Ok out1 => forall k d, k < length prefixes ->
          exists total, fv_add (nth k out0 d) (nth k out1 d) = Ok total /\
          fv_vals total = repeat (if list_eq_dec Bool.bool_dec (nth k prefixes []) (firstn (S level) alpha) then Z.of_nat level else 0%Z) VLEN
      | Raise e, _ => e = OutOfFuel /\ idpf_ran_out i
      | Ok _, Raise e => e = OutOfFuel /\ idpf_ran_out i
      end
  | Raise e => e = OutOfFuel /\ idpf_ran_out i
  end.
Proof.
  intros Ha Hc. pose proof (MODULUS_pos (P := Pi)). pose proof (MODULUS_pos (P := Pl)). pose proof (io_bits i lim HI) as HB.
  unfold gen_test_vec_for_idpf.
  rewrite (mapM_ok _ (fun level => repeat (fof (Z.of_nat level) : F Pi) VLEN)).
  2: { intros level I. apply in_seq in I. rewrite field_init_ok by lia. reflexivity. }
  cbn [bind]. unfold range. rewrite Nat.sub_0_r. fold inner_beta.
  rewrite field_init_ok by lia. cbn [bind]. replace (Z.of_nat BITS - 1)%Z with (Z.of_nat (BITS - 1)) by lia. fold leaf_beta.
  set (nonce := test_vec_gen_rand (id_NONCE_SIZE i)). set (rand := test_vec_gen_rand (id_RAND_SIZE i)).
  assert (GA : gen_args_ok i alpha inner_beta leaf_beta ctx nonce rand).
  { constructor; auto; unfold inner_beta, leaf_beta; rewrite ?repeat_length, ?map_length, ?seq_length; auto; try apply gen_rand_len.
    apply Forall_forall. intros x Hx. apply in_map_iff in Hx as (l & <- & _). apply repeat_length. }
  pose proof (gen_total i lim HI _ _ _ _ _ _ GA) as G.
  destruct (idpf_gen i alpha inner_beta leaf_beta ctx nonce rand) as [[ps keys]|e] eqn:EG; cbn [bind]; [|exact G].
  destruct G as (WF & k0 & k1 & -> & L0 & L1 & ER).
  destruct (proj1 (idpf_public_codec i HWi HWl HB) ps WF) as (enc & Ee & Ed). rewrite Ee. cbn [bind iv_bits iv_alpha iv_ctx iv_beta_inner iv_beta_leaf iv_nonce iv_public_share iv_keys].
  split; [reflexivity|]. split; [reflexivity|]. split; [apply fromhex_to_hex|].
  assert (rep : forall (P : FieldClass) (z : Z) n, (0 <= z < MODULUS P)%Z ->
    map read_nat (map (fun elem : F P => str_nat (val elem)) (repeat (fof z) n)) = repeat (Some z) n).
  { intros P z n Hz. induction n as [|n IH]; [reflexivity|]. cbn [repeat map]. rewrite IH, val_fof_small, read_str by lia. reflexivity. }
  split.
  { unfold inner_beta. rewrite !map_map. apply map_ext_in. intros l I. apply in_seq in I. apply rep. lia. }
  split; [apply rep; lia|].
  exists nonce, enc, ps, k0, k1. split; [apply fromhex_to_hex|]. split; [apply fromhex_to_hex|]. split; [exact Ed|].
  split; [apply mapM_fromhex|]. split; [now symmetry|].
  intros level prefixes HL ND FL. pose proof (eval_sums i lim HI _ _ _ _ _ _ _ _ _ level prefixes GA EG HL ND FL) as S.
  destruct (idpf_eval i 0 _ _ _ _ _ _) as [o0|e]; [|exact S]. destruct (idpf_eval i 1 _ _ _ _ _ _) as [o1|e]; [|exact S].
  destruct S as (_ & _ & _ & _ & S). intros k d Hk. eexists. split; [exact (S k d Hk)|]. now apply point_vals.
Qed.
End IdpfVector.

(** The test of the rejection sampling. *)
Definition rejection_message : bytes := x00 :: x00 :: x20 :: rejection_seed.
Lemma rejection_message_eq : turboshake_message rejection_seed [] [] = Ok rejection_message.
Proof. reflexivity. Qed.
Lemma accepted_S P s p k : accepted P s p (S k) = accepted P s p k ++ (if (chunk P s p k <? MODULUS P)%Z then [chunk P s p k] else []).
Proof. unfold accepted. rewrite seq_S, map_app, filter_app. cbn [map Nat.add filter]. reflexivity. Qed.
Lemma get_last_snoc {A} (l : list A) x : get_last (l ++ [x]) = Ok x.
Proof.
  destruct l as [|y l]; [reflexivity|]. cbn [app get_last]. f_equal. revert y. induction l as [|z l IH]; intros y; [reflexivity|].
  change (last ((z :: l) ++ [x]) y) with (last (l ++ [x]) z) || idtac. rewrite last_last. reflexivity.
Qed.

Lemma rejection_cases ts bound : let s := ts rejection_message 1%Z in
  match test_rejection_sampling ts bound with
  | Ok _ => exists k, k < bound /\ length (accepted Field64 s 0 k) = Z.to_nat 13882 /\ chunk Field64 s 0 k = 4857131209231097247%Z
  | Raise AssertionError => exists k, k < bound /\ length (accepted Field64 s 0 k) = Z.to_nat 13882 /\
      (chunk Field64 s 0 k < MODULUS Field64)%Z /\ chunk Field64 s 0 k <> 4857131209231097247%Z
  | Raise e => e = OutOfFuel /\ length (accepted Field64 s 0 bound) < Z.to_nat 13883
  end.
Proof.
  intros s. set (X := XofTurboShake128 ts bound). remember (Z.to_nat 13883) as n eqn:Hn.
  assert (En : Z.to_nat 13882 = n - 1) by lia. rewrite En. assert (0 < n) by lia.
  assert (EI : xof_init X rejection_seed [] [] = Ok (rejection_message, 0)).
  { unfold X, XofTurboShake128. cbn [xof_init]. rewrite rejection_message_eq. reflexivity. }
  set (lim := (Z.of_nat (0 + loop_bound X * ENCODED_SIZE Field64) + 1)%Z).
  pose proof (turboshake_streams ts bound lim rejection_message) as H'. fold X s in H'.
  assert (L : (Z.of_nat (0 + loop_bound X * ENCODED_SIZE Field64) < lim)%Z) by (unfold lim; lia).
  destruct (next_vec_stream X Field64 lim _ s _ H' n 0 L) as [A B].
  unfold test_rejection_sampling, expand_into_vec. fold X. rewrite EI. cbn [bind]. rewrite <- Hn.
  change (rejection_message, 0) with ((fun p => (rejection_message, p)) 0).
  destruct (Nat.le_gt_cases n (length (accepted Field64 s 0 (loop_bound X)))) as [C|C].
  - destruct (A C) as (k & Hk & Lk & Mk & Ek). rewrite Ek. cbn [bind].
    destruct k as [|k]; [cbn in Lk; lia|]. specialize (Mk k ltac:(lia)). rewrite accepted_S in Lk |- *.
    destruct (Z.ltb_spec (chunk Field64 s 0 k) (MODULUS Field64)) as [D|D]; [|rewrite app_nil_r in Lk; lia].
    rewrite app_length in Lk. cbn [length] in Lk. rewrite map_app. cbn [map]. rewrite get_last_snoc. cbn [bind].
    rewrite field_init_ok by (split; reflexivity). cbn [bind]. unfold assert_true.
    assert (R : (0 <= chunk Field64 s 0 k)%Z) by apply chunk_value_range.
    assert (EQ : feqb (fof (chunk Field64 s 0 k) : F Field64) (fof 4857131209231097247) = (chunk Field64 s 0 k =? 4857131209231097247)%Z).
    { unfold feqb. rewrite val_fof_small by lia. reflexivity. }
    rewrite EQ. change (loop_bound X) with bound in Hk.
    destruct (Z.eqb_spec (chunk Field64 s 0 k) 4857131209231097247) as [Q|Q]; cbn [check]; exists k; (split; [lia|]); (split; [lia|]); auto.
  - rewrite (B C). cbn [bind]. split; [reflexivity|exact C].
Qed.
