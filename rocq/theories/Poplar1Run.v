(** Poplar1 verification and end-to-end runs. *)
From Verif Require Export Poplar1Facts IdpfFacts.
Open Scope nat_scope.

Lemma for_range_2 {B} (acc : B) body : for_range 0 2 acc body = let* r := body acc 0 in body r 1.
Proof. unfold for_range. change (range 0 2) with [0; 1]. cbn [foldM]. apply bind_ext. intros r _. apply bind_ret. Qed.

(** A vector class of a Poplar1 object: the inner or the leaf field. *)
Record View (p : Poplar1) (P : FieldClass)
  (inj : list (F P) -> FieldVec (id_field_inner (p1_idpf p)) (id_field_leaf (p1_idpf p))) : Prop := {
  vw_P : P = id_field_inner (p1_idpf p) \/ P = id_field_leaf (p1_idpf p);
  vw_mod : (2 < MODULUS P)%Z;
  vw_add : forall a b, fv_add (inj a) (inj b) = let* v := vec_add a b in Ok (inj v);
  vw_len : forall a, fv_len (inj a) = length a;
  vw_vals : forall a, fv_vals (inj a) = map fint a;
  vw_as : forall a, fv_as P (inj a) = a;
  vw_next : forall ctx level m z, p1_verify_next p ctx (EVALUATE_SKETCH, level, inj m) (Some (inj z)) =
    let* _ := check (length z =? 3) (ValueError "incorrect sketch length") in
    let* (z0, t) := sketch_terms_in z in
    let* (m, s) := evaluate_in m z0 t in
    Ok (inl ((REVEAL_SKETCH, level, inj m), inj s));
}.

Section Views.
Context (p : Poplar1) (lim : Z) (HO : Poplar1Ok p lim).
Lemma view_inner : View p _ Inner.
Proof.
  constructor.
  - now left.
  - apply (pk_inner _ _ HO).
  - intros a b. cbn [fv_add fv_as]. now rewrite map_fcast_id.
  - easy.
  - easy.
  - intros a. apply map_fcast_id.
  - intros. unfold p1_verify_next. now rewrite bytes_eqb_refl.
Qed.
Lemma view_leaf : View p _ Leaf.
Proof.
  constructor.
  - now right.
  - apply (pk_leaf _ _ HO).
  - intros a b. cbn [fv_add fv_as]. now rewrite map_fcast_id.
  - easy.
  - easy.
  - intros a. apply map_fcast_id.
  - intros. unfold p1_verify_next. now rewrite bytes_eqb_refl.
Qed.
End Views.

Section P1R.
Context (p : Poplar1) (lim : Z) (HO : Poplar1Ok p lim) (n : nat).
Notation idpf := (p1_idpf p).
Notation xof := (p1_xof p).
Notation Pi := (id_field_inner (p1_idpf p)).
Notation Pl := (id_field_leaf (p1_idpf p)).
Notation BITS := (id_BITS (p1_idpf p)).
Notation FVec := (FieldVec Pi Pl).
Notation E0 := (fun e => e = OutOfFuel /\ p1_ran_out p n).

Lemma verify_rand_post P key ctx nonce level : P = Pi \/ P = Pl -> ctx_ok ctx -> length key = SEED_SIZE xof ->
  (0 <= level < 65536)%Z ->
  post (verify_rand_of p P key ctx nonce level n) (fun v => length v = n) E0.
Proof.
  intros HP Hc Hk Hl. unfold verify_rand_of.
  destruct (p1_dst_ok USAGE_VERIFY_RAND ctx ltac:(unfold USAGE_VERIFY_RAND; lia) Hc) as (d & Hd & Ld).
  rewrite Hd. cbn [bind]. rewrite to_be_bytes_ok by (simpl; lia). cbn [bind].
  pose proof (expand_post1 p lim HO n P key d (nonce ++ rev (le_bytes 2 level)) n HP Hk Ld) as H.
  unfold expand_into_vec in H. apply H. unfold p1_lens. simpl. tauto.
Qed.

(** The sketch share and the memory of an Aggregator. *)
Definition sk {P : FieldClass} (abc : list (F P)) (value : list (list (F P))) (vr : list (F P)) : list (F P) :=
  [fadd (nth 0 abc f0) (dot (data_of value) vr); fadd (nth 1 abc f0) (dot (data_of value) (squares vr));
   fadd (nth 2 abc f0) (dot (auth_of value) vr)].

Lemma verify_init_in_ok P usage ff AB key ctx j level nonce seed value dst N o abc :
  (2 < MODULUS P)%Z -> j < 2 ->
  p1_dst usage ctx = Ok dst ->
  expand_into_vec xof P seed dst (z2b (Z.of_nat j) :: nonce) (3 * N) = Ok o ->
  (ff = None /\ N = 1 /\ abc = o \/ exists l, ff = Some (3 * l) /\ l < N /\ abc = piece 3 l o) ->
  length AB = 2 -> length value = n -> Forall (fun v => length v = 2) value ->
  (forall vr, verify_rand_of p P key ctx nonce level n = Ok vr -> length vr = n) ->
  verify_init_in p P usage ff AB key ctx j level n nonce seed value
  = let* vr := verify_rand_of p P key ctx nonce level n in
    Ok (AB ++ [fof (Z.of_nat j)] ++ data_of value, sk abc value vr).
Proof.
  intros Hm Hj Hd He Hff HAB Lv Fv Lvr. unfold verify_init_in. rewrite Hd. cbn [bind].
  rewrite byte_of_ok by lia. cbn [bind app].
  unfold expand_into_vec in He. apply bind_Ok in He. destruct He as (st & Hst & He). rewrite Hst. cbn [bind].
  apply bind_Ok in He. destruct He as ([v st'] & Hv & E). injection E as ->.
  assert (Habc : length abc = 3 /\ exists st1 st2, match ff with
             | Some n => let* (_, st) := next_vec xof P st n in Ok st
             | None => Ok st
             end = Ok st1 /\ next_vec xof P st1 3 = Ok (abc, st2)).
  { destruct Hff as [(-> & -> & ->)|(l & -> & Hl & ->)].
    - split; [apply (next_vec_len _ _ _ _ _ _ Hv)|]. exists st, st'. easy.
    - split; [apply piece_length with N; [apply (next_vec_len _ _ _ _ _ _ Hv) | easy]|].
      destruct (fast_forward xof P st N l o st' Hl Hv) as (w & st1 & st2 & H1 & H2).
      exists st1, st2. rewrite H1. split; [easy|]. unfold piece. rewrite (Nat.mul_comm l 3). exact H2. }
  destruct Habc as (Labc & st1 & st2 & H1 & H2). rewrite H1. cbn [bind]. rewrite H2. cbn [bind].
  destruct abc as [|a [|b [|c [|]]]]; try (simpl in Labc; lia).
  destruct AB as [|A [|B [|]]]; try (simpl in HAB; lia).
  apply bind_ext. intros vr Hvr. specialize (Lvr vr Hvr).
  rewrite sketch_loop_ok by (try easy; congruence). cbn [bind].
  rewrite field_init_ok by lia. easy.
Qed.

Lemma msg1_sum P (abc0 abc1 : list (F P)) v0 v1 vr :
  length v0 = length v1 -> length abc0 = 3 -> length abc1 = 3 ->
  let D := zip_with fadd (data_of v0) (data_of v1) in
  let K := zip_with fadd (auth_of v0) (auth_of v1) in
  let abc := zip_with fadd abc0 abc1 in
  zip_with fadd (sk abc0 v0 vr) (sk abc1 v1 vr)
  = [fadd (nth 0 abc f0) (dot D vr); fadd (nth 1 abc f0) (dot D (squares vr)); fadd (nth 2 abc f0) (dot K vr)].
Proof.
  intros Hl L0 L1. cbv zeta.
  destruct abc0 as [|a0 [|b0 [|c0 [|]]]]; try (simpl in L0; lia).
  destruct abc1 as [|a1 [|b1 [|c1 [|]]]]; try (simpl in L1; lia).
  unfold sk. cbn [nth zip_with].
  rewrite !dot_add by (unfold data_of, auth_of; now rewrite !map_length).
  pose proof (@F_ring P) as R.
  assert (X : forall a b c d : F P, fadd (fadd a b) (fadd c d) = fadd (fadd a c) (fadd b d)).
  { intros. rewrite <- !(Radd_assoc R). f_equal. rewrite !(Radd_assoc R). f_equal. apply (Radd_comm R). }
  now rewrite (X a0), (X b0), (X c0).
Qed.

(** Two rounds with shares of a one-hot (or zero) vector. *)
Lemma two_rounds P inj ctx lv prefixes (abc0 abc1 AB0 AB1 : list (F P)) v0 v1 vr kk t a0 a1 :
  View p P inj ->
  length AB0 = 2 -> length AB1 = 2 -> length abc0 = 3 -> length abc1 = 3 ->
  zip_with fadd AB0 AB1 = corr_pair (zip_with fadd abc0 abc1) kk ->
  length v0 = n -> length v1 = n -> length vr = n -> length a0 = n -> length a1 = n ->
  (forall i, i < n -> fadd (nth i (data_of v0) f0) (nth i (data_of v1) f0) = if i =? t then f1 else f0) ->
  (forall i, i < n -> fadd (nth i (auth_of v0) f0) (nth i (auth_of v1) f0) = if i =? t then kk else f0) ->
  (let* (verify_states, outbound_verifier_shares) :=
     run_rounds (p1_vdaf p) ctx (lv, prefixes)
       [(EVALUATE_SKETCH, lv, inj (AB0 ++ [fof 0] ++ data_of v0)); (EVALUATE_SKETCH, lv, inj (AB1 ++ [fof 1] ++ data_of v1))]
       [inj (sk abc0 v0 vr); inj (sk abc1 v1 vr)] in
   run_finish (p1_vdaf p) ctx (lv, prefixes) verify_states outbound_verifier_shares [inj a0; inj a1])
  = Ok [inj (zip_with fadd a0 (data_of v0)); inj (zip_with fadd a1 (data_of v1))].
Proof.
  intros V LA0 LA1 Lb0 Lb1 HAB L0 L1 Lr La0 La1 HD HK.
  unfold run_rounds. change (vd_ROUNDS (p1_vdaf p) - 1) with 1. change (vd_SHARES (p1_vdaf p)) with 2.
  unfold for_range at 1. change (range 0 1) with [0]. cbn [foldM].
  change (vd_verifier_shares_to_message (p1_vdaf p)) with (p1_verifier_shares_to_message p).
  unfold p1_verifier_shares_to_message at 1. cbn [length Nat.eqb check bind].
  change (get [inj (sk abc0 v0 vr); inj (sk abc1 v1 vr)] 0) with (Ok (inj (sk abc0 v0 vr))).
  change (get [inj (sk abc0 v0 vr); inj (sk abc1 v1 vr)] 1) with (Ok (inj (sk abc1 v1 vr))). cbn [bind].
  rewrite (vw_add _ _ _ V). rewrite vec_add_ok by easy. cbn [bind]. rewrite (vw_len _ _ _ V).
  rewrite msg1_sum by (try easy; congruence).
  set (D := zip_with fadd (data_of v0) (data_of v1)). set (K := zip_with fadd (auth_of v0) (auth_of v1)).
  set (abc := zip_with fadd abc0 abc1) in *.
  assert (Ld0 : length (data_of v0) = n) by (unfold data_of; now rewrite map_length).
  assert (Ld1 : length (data_of v1) = n) by (unfold data_of; now rewrite map_length).
  assert (Lk0 : length (auth_of v0) = n) by (unfold auth_of; now rewrite map_length).
  assert (Lk1 : length (auth_of v1) = n) by (unfold auth_of; now rewrite map_length).
  assert (LD : length D = n) by (unfold D; rewrite zip_with_length; lia).
  assert (ED : forall i, i < n -> nth i D f0 = if i =? t then f1 else f0).
  { intros i Hi. unfold D. rewrite (nth_zip_with _ _ _ _ f0 f0) by lia. now apply HD. }
  assert (EK : K = map (fmul kk) D).
  { apply (vec_eq n).
    - unfold K. rewrite zip_with_length. lia.
    - now rewrite map_length.
    - intros i Hi. unfold K. rewrite (nth_zip_with _ _ _ _ f0 f0) by lia. rewrite HK by easy.
      rewrite (nth_map' _ _ _ f0) by lia. rewrite ED by easy. pose proof (@F_ring P) as R.
      destruct (i =? t).
      + rewrite (Rmul_comm R). now rewrite (Rmul_1_l R).
      + rewrite <- (fof_val kk). unfold f0. rewrite <- fof_mul. f_equal. lia. }
  pose proof (sketch_identity abc (corr_pair abc kk) kk D vr t ltac:(congruence) ltac:(intros; apply ED; lia) eq_refl) as HS.
  cbv zeta in HS. rewrite <- EK in HS.
  set (z0 := fadd (nth 0 abc f0) (dot D vr)) in *.
  set (z1 := fadd (nth 1 abc f0) (dot D (squares vr))) in *.
  set (z2 := fadd (nth 2 abc f0) (dot K vr)) in *.
  rewrite <- HAB in HS.
  destruct AB0 as [|A0 [|B0 [|]]]; try (simpl in LA0; lia).
  destruct AB1 as [|A1 [|B1 [|]]]; try (simpl in LA1; lia). cbn [zip_with nth app] in HS |- *.
  cbn [length Nat.eqb bind].
  rewrite for_range_2.
  match goal with |- context [get [?x; ?y] 0] => change (get [x; y] 0) with (Ok x) end. cbn [bind].
  change (vd_verify_next (p1_vdaf p)) with (p1_verify_next p).
  set (mv := fsub (fsub (fpow z0 2) z1) z2).
  assert (EN : forall j A B (d : list (F P)), p1_verify_next p ctx (EVALUATE_SKETCH, lv, inj (A :: B :: j :: d)) (Some (inj [z0; z1; z2]))
    = Ok (inl ((REVEAL_SKETCH, lv, inj d), inj [fadd (fadd (fmul j mv) (fmul A z0)) B]))).
  { intros j A B d. rewrite (vw_next _ _ _ V). cbn [length Nat.eqb check bind].
    unfold sketch_terms_in. cbn [get nth_error bind]. fold mv. unfold evaluate_in.
    cbn [get nth_error bind skipn]. now rewrite !fof_val. }
  rewrite EN. cbn [bind].
  match goal with |- context [set [?x; ?y] 0 ?z] => change (set [x; y] 0 z) with (Ok [z; y]) end. cbn [bind app].
  match goal with |- context [get [?x; ?y] 1] => change (get [x; y] 1) with (Ok y) end. cbn [bind].
  rewrite EN. cbn [bind].
  match goal with |- context [set [?x; ?y] 1 ?z] => change (set [x; y] 1 z) with (Ok [x; z]) end. cbn [bind].
  unfold run_finish. change (vd_verifier_shares_to_message (p1_vdaf p)) with (p1_verifier_shares_to_message p).
  unfold p1_verifier_shares_to_message. cbn [length Nat.eqb check bind].
  match goal with |- context [get [?x; ?y] 0] => change (get [x; y] 0) with (Ok x); change (get [x; y] 1) with (Ok y) end. cbn [bind].
  rewrite (vw_add _ _ _ V). rewrite vec_add_ok by easy. cbn [bind zip_with]. rewrite (vw_len _ _ _ V). cbn [length Nat.eqb].
  assert (EZ : fadd (fadd (fadd (fmul (fof 0) mv) (fmul A0 z0)) B0) (fadd (fadd (fmul (fof 1) mv) (fmul A1 z0)) B1) = f0).
  { rewrite <- HS. unfold mv. rewrite fpow_2. change (fof 0) with (@f0 P). change (fof 1) with (@f1 P).
    clear. generalize (fsub (fsub (fmul z0 z0) z1) z2) as w. intros w.
    rewrite <- (fof_val w), <- (fof_val A0), <- (fof_val A1), <- (fof_val B0), <- (fof_val B1), <- (fof_val z0).
    unfold f0, f1. rewrite <- ?fof_mul, <- ?fof_add, <- ?fof_mul, <- ?fof_add. f_equal. ring. }
  rewrite EZ. rewrite (vw_vals _ _ _ V). cbn [map nth].
  assert (E0v : fint (@f0 P) = 0%Z) by (unfold fint, f0; rewrite val_fof; apply Z.mod_0_l; pose proof (vw_mod _ _ _ V); lia).
  rewrite E0v. cbn [Z.eqb bind].
  change (vd_SHARES (p1_vdaf p)) with 2. rewrite for_range_2.
  match goal with |- context [get [?x; ?y] 0] => change (get [x; y] 0) with (Ok x); change (get [x; y] 1) with (Ok y) end. cbn [bind].
  change (vd_verify_next (p1_vdaf p)) with (p1_verify_next p).
  assert (ER : forall m : FVec, p1_verify_next p ctx (REVEAL_SKETCH, lv, m) None = Ok (inr m)) by easy.
  rewrite !ER. cbn [bind].
  change (vd_agg_update (p1_vdaf p)) with (p1_agg_update p). unfold p1_agg_update.
  change (get [inj a0; inj a1] 0) with (Ok (inj a0)). cbn [bind].
  rewrite (vw_add _ _ _ V). rewrite vec_add_ok by congruence. cbn [bind].
  match goal with |- context [set [?x; ?y] 0 ?z] => change (set [x; y] 0 z) with (Ok [z; y]) end. cbn [bind app].
  match goal with |- context [get [?x; inj a1] 1] => change (get [x; inj a1] 1) with (Ok (inj a1)) end. cbn [bind].
  rewrite (vw_add _ _ _ V). rewrite vec_add_ok by congruence. easy.
Qed.

Definition hot {P : FieldClass} (prefixes : list (list bool)) (level : nat) (m : list bool) : list (F P) :=
  map (fun x => if list_eq_dec Bool.bool_dec x (firstn (S level) m) then f1 else f0) prefixes.

Lemma index_of (prefixes : list (list bool)) x : NoDup prefixes -> exists t, forall i, i < length prefixes ->
  (if list_eq_dec Bool.bool_dec (nth i prefixes []) x then true else false) = (i =? t).
Proof.
  intros Hnd. destruct (in_dec (list_eq_dec Bool.bool_dec) x prefixes) as [Hin|Hin].
  - apply (In_nth _ _ []) in Hin. destruct Hin as (t & Ht & Et). exists t. intros i Hi.
    destruct (list_eq_dec Bool.bool_dec (nth i prefixes []) x) as [E|E].
    + symmetry. apply Nat.eqb_eq. apply (proj1 (NoDup_nth prefixes []) Hnd); congruence.
    + symmetry. apply Nat.eqb_neq. congruence.
  - exists (length prefixes). intros i Hi.
    destruct (list_eq_dec Bool.bool_dec (nth i prefixes []) x) as [E|E].
    + exfalso. apply Hin. rewrite <- E. now apply nth_In.
    + symmetry. apply Nat.eqb_neq. lia.
Qed.

Lemma report_gen P inj key ctx level lv prefixes m nonce rand a0 a1 ps is0 is1 (ev0 ev1 : res (list FVec))
  (abc0 abc1 AB0 AB1 : list (F P)) kk :
  View p P inj -> length prefixes = n -> NoDup prefixes ->
  ctx_ok ctx -> length key = SEED_SIZE xof -> (0 <= lv < 65536)%Z ->
  p1_shard p ctx m nonce rand = Ok (ps, [is0; is1]) ->
  (forall is j ev (abc AB : list (F P)), (is, j, ev, abc, AB) = (is0, 0, ev0, abc0, AB0) \/ (is, j, ev, abc, AB) = (is1, 1, ev1, abc1, AB1) ->
   length AB = 2 /\ length abc = 3 /\
   p1_verify_init p key ctx j (lv, prefixes) nonce ps is
   = let* out := ev in
     let* vr := verify_rand_of p P key ctx nonce lv n in
     Ok ((EVALUATE_SKETCH, lv, inj (AB ++ [fof (Z.of_nat j)] ++ data_of (map (fv_as P) out))), inj (sk abc (map (fv_as P) out) vr))) ->
  zip_with fadd AB0 AB1 = corr_pair (zip_with fadd abc0 abc1) kk ->
  match ev0, ev1 with
  | Ok out0, Ok out1 => length out0 = n /\ length out1 = n /\
      forall k d, k < n -> zip_with fadd (fv_as P (nth k out0 d)) (fv_as P (nth k out1 d))
        = if list_eq_dec Bool.bool_dec (nth k prefixes []) (firstn (S level) m) then [fof 1; kk] else [f0; f0]
  | Raise e, _ => E0 e
  | Ok _, Raise e => E0 e
  end ->
  length a0 = n -> length a1 = n ->
  post (run_report (p1_vdaf p) key ctx (lv, prefixes) [inj a0; inj a1] (m, nonce, rand))
    (fun aggs => exists d0 d1, length d0 = n /\ length d1 = n /\ zip_with fadd d0 d1 = hot prefixes level m /\
       aggs = [inj (zip_with fadd a0 d0); inj (zip_with fadd a1 d1)]) E0.
Proof.
  intros V Lp Hnd Hc Hk Hlv Hsh Hvi HAB Hev La0 La1. unfold run_report.
  change (vd_shard (p1_vdaf p)) with (p1_shard p). rewrite Hsh. cbn [bind].
  destruct (Hvi is0 0 ev0 abc0 AB0 (or_introl eq_refl)) as (LA0 & Lb0 & E1).
  destruct (Hvi is1 1 ev1 abc1 AB1 (or_intror eq_refl)) as (LA1 & Lb1 & E2).
  unfold run_verify_init. change (vd_SHARES (p1_vdaf p)) with 2. rewrite for_range_2.
  change (get [is0; is1] 0) with (Ok is0). cbn [bind].
  change (vd_verify_init (p1_vdaf p)) with (p1_verify_init p). rewrite E1.
  pose proof (verify_rand_post P key ctx nonce lv (vw_P _ _ _ V) Hc Hk Hlv) as Hvr.
  destruct ev0 as [out0|e]; [|exact Hev]. cbn [bind].
  destruct (verify_rand_of p P key ctx nonce lv n) as [vr|e] eqn:Evr; [|exact Hvr]. cbn [bind].
  change (get [is0; is1] 1) with (Ok is1). cbn [bind].
  change (vd_verify_init (p1_vdaf p)) with (p1_verify_init p). rewrite E2.
  destruct ev1 as [out1|e]; [|exact Hev]. cbn [bind app]. cbn [post] in Hvr.
  destruct Hev as (L0 & L1 & Hsum).
  destruct (index_of prefixes (firstn (S level) m) Hnd) as [t Ht].
  set (v0 := map (fv_as P) out0). set (v1 := map (fv_as P) out1).
  assert (Lv0 : length v0 = n) by (unfold v0; now rewrite map_length).
  assert (Lv1 : length v1 = n) by (unfold v1; now rewrite map_length).
  assert (Hs : forall k, k < n -> zip_with fadd (nth k v0 []) (nth k v1 [])
     = if list_eq_dec Bool.bool_dec (nth k prefixes []) (firstn (S level) m) then [fof 1; kk] else [f0; f0]).
  { intros k Hk'. unfold v0, v1. rewrite !(nth_map' _ _ _ (inj [])) by lia. now apply Hsum. }
  assert (Hd : forall i, i < n -> fadd (nth i (data_of v0) f0) (nth i (data_of v1) f0) = if i =? t then f1 else f0).
  { intros i Hi. unfold data_of. rewrite !(nth_map' _ _ _ []) by lia. specialize (Hs i Hi). specialize (Ht i ltac:(lia)).
    destruct (list_eq_dec Bool.bool_dec (nth i prefixes []) (firstn (S level) m)); rewrite <- Ht;
    destruct (nth i v0 []) as [|x0 l0], (nth i v1 []) as [|y0 l1]; try discriminate; cbn [zip_with nth] in Hs |- *;
    apply (f_equal (fun l => nth 0 l f0)) in Hs; exact Hs. }
  assert (Hka : forall i, i < n -> fadd (nth i (auth_of v0) f0) (nth i (auth_of v1) f0) = if i =? t then kk else f0).
  { intros i Hi. unfold auth_of. rewrite !(nth_map' _ _ _ []) by lia. specialize (Hs i Hi). specialize (Ht i ltac:(lia)).
    destruct (list_eq_dec Bool.bool_dec (nth i prefixes []) (firstn (S level) m)); rewrite <- Ht;
    destruct (nth i v0 []) as [|x0 [|x1 l0]], (nth i v1 []) as [|y0 [|y1 l1]]; try discriminate; cbn [zip_with nth] in Hs |- *;
    apply (f_equal (fun l => nth 1 l f0)) in Hs; exact Hs. }
  match goal with |- post ?m _ _ => assert (EM : m = Ok [inj (zip_with fadd a0 (data_of v0)); inj (zip_with fadd a1 (data_of v1))]) end.
  { exact (two_rounds P inj ctx lv prefixes abc0 abc1 AB0 AB1 v0 v1 vr kk t a0 a1 V LA0 LA1 Lb0 Lb1 HAB Lv0 Lv1 Hvr La0 La1 Hd Hka). }
  rewrite EM. cbn [post]. exists (data_of v0), (data_of v1).
  assert (Ld0 : length (data_of v0) = n) by (unfold data_of; now rewrite map_length).
  assert (Ld1 : length (data_of v1) = n) by (unfold data_of; now rewrite map_length).
  split; [easy|]. split; [easy|]. split; [|easy].
  apply (vec_eq n).
  - rewrite zip_with_length. lia.
  - unfold hot. now rewrite map_length.
  - intros i Hi. rewrite (nth_zip_with _ _ _ _ f0 f0) by lia. rewrite Hd by easy.
    unfold hot. rewrite (nth_map' _ _ _ []) by lia. rewrite <- Ht by lia.
    now destruct (list_eq_dec Bool.bool_dec (nth i prefixes []) (firstn (S level) m)).
Qed.

Lemma of_level_as_inner level v : level < BITS - 1 -> of_level idpf level 2 v -> exists l, v = Inner l /\ length l = 2.
Proof. intros H. destruct v as [l|l]; intros [H1 H2]; [eauto | lia]. Qed.
Lemma of_level_as_leaf level v : BITS - 1 <= level -> of_level idpf level 2 v -> exists l, v = Leaf l /\ length l = 2.
Proof. intros H. destruct v as [l|l]; intros [H1 H2]; [lia | eauto]. Qed.

Lemma level_is_inner_nat level : level_is_inner p (Z.of_nat level) = (level <? BITS - 1).
Proof.
  unfold level_is_inner. destruct (level <? BITS - 1) eqn:E.
  - apply Nat.ltb_lt in E. apply Z.ltb_lt. lia.
  - apply Nat.ltb_ge in E. apply Z.ltb_ge. lia.
Qed.

Lemma eval_Ok_level j ps key level prefixes ctx nonce out : ctx_ok ctx -> length key = id_KEY_SIZE idpf ->
  idpf_public_wf idpf ps -> idpf_eval idpf j ps key (Z.of_nat level) prefixes ctx nonce = Ok out ->
  length out = length prefixes /\ Forall (of_level idpf level 2) out.
Proof.
  intros Hc Hk [Hl HW] H. destruct (pk_idpf _ _ HO) as [lim' HI].
  rewrite eval_mapM in H. apply bind_Ok in H. destruct H as (? & _ & H). apply bind_Ok in H. destruct H as (? & Hlv & H).
  apply check_Ok in Hlv. apply bind_Ok in H. destruct H as (? & _ & H).
  split; [apply (mapM_Ok_length _ _ _ H)|]. rewrite <- (pk_value _ _ HO).
  assert (Hlt : level < BITS) by lia.
  clear Hlv x x0 x1. revert out H. induction prefixes as [|x l IH]; intros out H; cbn [mapM] in H.
  - injection H as <-. constructor.
  - apply bind_Ok in H. destruct H as (y & Hy & H). apply bind_Ok in H. destruct H as (ys & Hys & H). injection H as <-.
    constructor; [|now apply IH].
    destruct (Nat.eq_dec (length x) (S level)) as [Hx|Hx].
    + rewrite (eval_prefix_walk idpf ctx nonce j ps key level x Hx) in Hy.
      pose proof (walk_post idpf lim' HI ctx nonce j ps key x (S level) Hk Hc ltac:(lia) ltac:(lia) (fun l cw _ H => HW l cw H)) as HP.
      destruct (walk idpf ctx nonce j ps key x (S level)) as [[[s c] z]|e]; [|discriminate]. cbn [post bind] in *.
      destruct HP as [_ HP]. specialize (HP ltac:(lia)). cbn [snd] in HP. rewrite Nat.sub_succ, Nat.sub_0_r in HP.
      injection Hy as <-. destruct (j =? 0); [easy|]. now apply neg_of_level.
    + unfold eval_prefix in Hy. rewrite (proj2 (Z.eqb_neq _ _)) in Hy by lia. discriminate.
Qed.

Lemma report_inner key ctx level prefixes m nonce rand a0 a1 : level < BITS - 1 ->
  length prefixes = n -> NoDup prefixes -> Forall (fun x => length x = S level) prefixes ->
  ctx_ok ctx -> length key = SEED_SIZE xof -> (Z.of_nat level < 65536)%Z ->
  length m = BITS -> length nonce = p1_NONCE_SIZE -> length rand = p1_RAND_SIZE p ->
  length a0 = n -> length a1 = n ->
  post (run_report (p1_vdaf p) key ctx (Z.of_nat level, prefixes) [Inner a0; Inner a1] (m, nonce, rand))
    (fun aggs => exists d0 d1, length d0 = n /\ length d1 = n /\ zip_with fadd d0 d1 = hot prefixes level m /\
       aggs = [Inner (zip_with fadd a0 d0); Inner (zip_with fadd a1 d1)]) E0.
Proof.
  intros Hlev Lp Hnd Hpl Hc Hk Hl16 Hm Hn Hr La0 La1.
  destruct (pk_idpf _ _ HO) as [lim' HI].
  pose proof (io_bits _ _ HI) as HB.
  pose proof (shard_post1 p lim HO n ctx m nonce rand Hc Hm Hn Hr) as HS.
  destruct (p1_shard p ctx m nonce rand) as [[ps iss]|e] eqn:ES.
  2:{ unfold run_report. change (vd_shard (p1_vdaf p)) with (p1_shard p). rewrite ES. exact HS. }
  destruct HS as (k0 & k1 & s0 & s1 & ss & ks & kl & ci0 & ci1 & cl0 & cl1 & oi0 & oi1 & ol0 & ol1 & R).
  rewrite (r1_iss _ _ _ _ _ _ _ _ _ _ _ _ _ _ _ _ _ _ _ _ _ _ R) in ES.
  destruct (r1_oi _ _ _ _ _ _ _ _ _ _ _ _ _ _ _ _ _ _ _ _ _ _ R) as (dst & Hd & Eo0 & Eo1).
  assert (HG : gen_args_ok idpf m (map (fun k => [fof 1; k]) ks) [fof 1; kl] ctx nonce (k0 ++ k1)).
  { constructor; try easy.
    - rewrite map_length. apply R.
    - apply Forall_forall. intros x Hx. apply in_map_iff in Hx. destruct Hx as (k & <- & _). now rewrite (pk_value _ _ HO).
    - now rewrite (pk_value _ _ HO).
    - now rewrite (pk_nonce _ _ HO).
    - rewrite app_length. destruct (r1_keys _ _ _ _ _ _ _ _ _ _ _ _ _ _ _ _ _ _ _ _ _ _ R) as [-> ->].
      unfold id_RAND_SIZE, id_KEY_SIZE. lia. }
  pose proof (eval_sums idpf lim' HI _ _ _ _ _ _ ps k0 k1 level prefixes HG
    (r1_gen _ _ _ _ _ _ _ _ _ _ _ _ _ _ _ _ _ _ _ _ _ _ R) ltac:(lia) Hnd Hpl) as HE.
  pose proof (gen_total idpf lim' HI _ _ _ _ _ _ HG) as Hps.
  rewrite (r1_gen _ _ _ _ _ _ _ _ _ _ _ _ _ _ _ _ _ _ _ _ _ _ R) in Hps. destruct Hps as [Hps _].
  destruct (r1_keys _ _ _ _ _ _ _ _ _ _ _ _ _ _ _ _ _ _ _ _ _ _ R) as [Lk0 Lk1].
  rewrite (pk_value _ _ HO) in HE.
  destruct (r1_len_i _ _ _ _ _ _ _ _ _ _ _ _ _ _ _ _ _ _ _ _ _ _ R) as [Lc0 Lc1].
  assert (Lo0 : length oi0 = 3 * (BITS - 1)) by (eapply expand_len; eassumption).
  assert (Lo1 : length oi1 = 3 * (BITS - 1)) by (eapply expand_len; eassumption).
  eapply (report_gen Pi Inner key ctx level (Z.of_nat level) prefixes m nonce rand a0 a1 ps _ _
    (idpf_eval idpf 0 ps k0 (Z.of_nat level) prefixes ctx nonce) (idpf_eval idpf 1 ps k1 (Z.of_nat level) prefixes ctx nonce)
    (piece 3 level oi0) (piece 3 level oi1) (piece 2 level ci0) (piece 2 level ci1) (nth level ks f0) (view_inner p lim HO));
    try eassumption; try lia.
  - intros is j ev abc AB [E|E]; injection E as -> -> -> -> ->.
    + assert (LA : length (piece 2 level ci0) = 2) by (apply piece_length with (BITS - 1); [easy | lia]).
      assert (Lb : length (piece 3 level oi0) = 3) by (apply piece_length with (BITS - 1); [easy | lia]).
      split; [exact LA|]. split; [exact Lb|].
      unfold p1_verify_init. apply bind_ext. intros out Ho. rewrite level_is_inner_nat. rewrite (proj2 (Nat.ltb_lt _ _) Hlev), Nat2Z.id.
      destruct (eval_Ok_level _ _ _ _ _ _ _ _ Hc Lk0 Hps Ho) as [Lo Fo].
      change (2 * (level + 1)) with ((level + 1) + ((level + 1) + 0)). replace ((level + 1) + ((level + 1) + 0)) with (level * 2 + 2) by lia. replace (2 * level) with (level * 2) by lia.
      rewrite Lp. erewrite (verify_init_in_ok Pi _ _ _ key ctx 0 (Z.of_nat level) nonce s0 _ dst (BITS - 1) oi0 (piece 3 level oi0)); try eassumption; try lia.
      * rewrite bind_assoc. apply bind_ext. intros vr _. easy.
      * apply (vw_mod _ _ _ (view_inner p lim HO)).
      * right. exists level. easy.
      * rewrite map_length. congruence.
      * apply Forall_forall. intros x Hx. apply in_map_iff in Hx. destruct Hx as (y & <- & Hy).
        rewrite Forall_forall in Fo. destruct (of_level_as_inner level y Hlev (Fo y Hy)) as (l & -> & Hl). cbn [fv_as]. now rewrite map_length.
      * intros vr Hvr. pose proof (verify_rand_post Pi key ctx nonce (Z.of_nat level) (vw_P _ _ _ (view_inner p lim HO)) Hc Hk ltac:(lia)) as HV.
        rewrite Hvr in HV. exact HV.
    + assert (LA : length (piece 2 level ci1) = 2) by (apply piece_length with (BITS - 1); [easy | lia]).
      assert (Lb : length (piece 3 level oi1) = 3) by (apply piece_length with (BITS - 1); [easy | lia]).
      split; [exact LA|]. split; [exact Lb|].
      unfold p1_verify_init. apply bind_ext. intros out Ho. rewrite level_is_inner_nat. rewrite (proj2 (Nat.ltb_lt _ _) Hlev), Nat2Z.id.
      destruct (eval_Ok_level _ _ _ _ _ _ _ _ Hc Lk1 Hps Ho) as [Lo Fo].
      change (2 * (level + 1)) with ((level + 1) + ((level + 1) + 0)). replace ((level + 1) + ((level + 1) + 0)) with (level * 2 + 2) by lia. replace (2 * level) with (level * 2) by lia.
      rewrite Lp. erewrite (verify_init_in_ok Pi _ _ _ key ctx 1 (Z.of_nat level) nonce s1 _ dst (BITS - 1) oi1 (piece 3 level oi1)); try eassumption; try lia.
      * rewrite bind_assoc. apply bind_ext. intros vr _. easy.
      * apply (vw_mod _ _ _ (view_inner p lim HO)).
      * right. exists level. easy.
      * rewrite map_length. congruence.
      * apply Forall_forall. intros x Hx. apply in_map_iff in Hx. destruct Hx as (y & <- & Hy).
        rewrite Forall_forall in Fo. destruct (of_level_as_inner level y Hlev (Fo y Hy)) as (l & -> & Hl). cbn [fv_as]. now rewrite map_length.
      * intros vr Hvr. pose proof (verify_rand_post Pi key ctx nonce (Z.of_nat level) (vw_P _ _ _ (view_inner p lim HO)) Hc Hk ltac:(lia)) as HV.
        rewrite Hvr in HV. exact HV.
  - apply (r1_inner _ _ _ _ _ _ _ _ _ _ _ _ _ _ _ _ _ _ _ _ _ _ R). lia.
  - destruct (idpf_eval idpf 0 ps k0 (Z.of_nat level) prefixes ctx nonce) as [out0|e]; [|now destruct HE; split; [|left]].
    destruct (idpf_eval idpf 1 ps k1 (Z.of_nat level) prefixes ctx nonce) as [out1|e]; [|now destruct HE; split; [|left]].
    destruct HE as (L0 & L1 & F0 & F1 & Hsum). split; [congruence|]. split; [congruence|].
    intros k d Hk'. specialize (Hsum k d ltac:(lia)).
    destruct (of_level_as_inner level (nth k out0 d) Hlev) as (l0 & El0 & Ll0).
    { apply (Forall_nth_len (of_level idpf level 2)); [exact F0 | lia]. }
    destruct (of_level_as_inner level (nth k out1 d) Hlev) as (l1 & El1 & Ll1).
    { apply (Forall_nth_len (of_level idpf level 2)); [exact F1 | lia]. }
    rewrite El0, El1 in Hsum |- *. cbn [fv_add fv_as] in Hsum |- *. rewrite !map_fcast_id in *.
    rewrite vec_add_ok in Hsum by congruence. cbn [bind] in Hsum.
    unfold point_value, beta_at, zero_at in Hsum. rewrite (proj2 (Nat.ltb_lt _ _) Hlev) in Hsum. rewrite (pk_value _ _ HO) in Hsum.
    destruct (list_eq_dec Bool.bool_dec (nth k prefixes []) (firstn (S level) m)).
    + rewrite (nth_map' _ _ _ f0) in Hsum by (rewrite (r1_ks _ _ _ _ _ _ _ _ _ _ _ _ _ _ _ _ _ _ _ _ _ _ R); lia). now injection Hsum as ->.
    + now injection Hsum as ->.
Qed.

Lemma report_leaf key ctx level prefixes m nonce rand a0 a1 : BITS - 1 <= level < BITS ->
  length prefixes = n -> NoDup prefixes -> Forall (fun x => length x = S level) prefixes ->
  ctx_ok ctx -> length key = SEED_SIZE xof -> (Z.of_nat level < 65536)%Z ->
  length m = BITS -> length nonce = p1_NONCE_SIZE -> length rand = p1_RAND_SIZE p ->
  length a0 = n -> length a1 = n ->
  post (run_report (p1_vdaf p) key ctx (Z.of_nat level, prefixes) [Leaf a0; Leaf a1] (m, nonce, rand))
    (fun aggs => exists d0 d1, length d0 = n /\ length d1 = n /\ zip_with fadd d0 d1 = hot prefixes level m /\
       aggs = [Leaf (zip_with fadd a0 d0); Leaf (zip_with fadd a1 d1)]) E0.
Proof.
  intros Hlev Lp Hnd Hpl Hc Hk Hl16 Hm Hn Hr La0 La1.
  destruct (pk_idpf _ _ HO) as [lim' HI].
  pose proof (io_bits _ _ HI) as HB.
  pose proof (shard_post1 p lim HO n ctx m nonce rand Hc Hm Hn Hr) as HS.
  destruct (p1_shard p ctx m nonce rand) as [[ps iss]|e] eqn:ES.
  2:{ unfold run_report. change (vd_shard (p1_vdaf p)) with (p1_shard p). rewrite ES. exact HS. }
  destruct HS as (k0 & k1 & s0 & s1 & ss & ks & kl & ci0 & ci1 & cl0 & cl1 & oi0 & oi1 & ol0 & ol1 & R).
  rewrite (r1_iss _ _ _ _ _ _ _ _ _ _ _ _ _ _ _ _ _ _ _ _ _ _ R) in ES.
  destruct (r1_ol _ _ _ _ _ _ _ _ _ _ _ _ _ _ _ _ _ _ _ _ _ _ R) as (dst & Hd & Eo0 & Eo1).
  assert (HG : gen_args_ok idpf m (map (fun k => [fof 1; k]) ks) [fof 1; kl] ctx nonce (k0 ++ k1)).
  { constructor; try easy.
    - rewrite map_length. apply R.
    - apply Forall_forall. intros x Hx. apply in_map_iff in Hx. destruct Hx as (k & <- & _). now rewrite (pk_value _ _ HO).
    - now rewrite (pk_value _ _ HO).
    - now rewrite (pk_nonce _ _ HO).
    - rewrite app_length. destruct (r1_keys _ _ _ _ _ _ _ _ _ _ _ _ _ _ _ _ _ _ _ _ _ _ R) as [-> ->].
      unfold id_RAND_SIZE, id_KEY_SIZE. lia. }
  pose proof (eval_sums idpf lim' HI _ _ _ _ _ _ ps k0 k1 level prefixes HG
    (r1_gen _ _ _ _ _ _ _ _ _ _ _ _ _ _ _ _ _ _ _ _ _ _ R) ltac:(lia) Hnd Hpl) as HE.
  pose proof (gen_total idpf lim' HI _ _ _ _ _ _ HG) as Hps.
  rewrite (r1_gen _ _ _ _ _ _ _ _ _ _ _ _ _ _ _ _ _ _ _ _ _ _ R) in Hps. destruct Hps as [Hps _].
  destruct (r1_keys _ _ _ _ _ _ _ _ _ _ _ _ _ _ _ _ _ _ _ _ _ _ R) as [Lk0 Lk1].
  rewrite (pk_value _ _ HO) in HE.
  destruct (r1_len_l _ _ _ _ _ _ _ _ _ _ _ _ _ _ _ _ _ _ _ _ _ _ R) as [Lc0 Lc1].
  assert (Lo0 : length ol0 = 3 * 1) by (eapply expand_len; eassumption).
  assert (Lo1 : length ol1 = 3 * 1) by (eapply expand_len; eassumption).
  eapply (report_gen Pl Leaf key ctx level (Z.of_nat level) prefixes m nonce rand a0 a1 ps _ _
    (idpf_eval idpf 0 ps k0 (Z.of_nat level) prefixes ctx nonce) (idpf_eval idpf 1 ps k1 (Z.of_nat level) prefixes ctx nonce)
    ol0 ol1 cl0 cl1 kl (view_leaf p lim HO));
    try eassumption; try lia.
  - intros is j ev abc AB [E|E]; injection E as -> -> -> -> ->.
    + assert (LA : length cl0 = 2) by easy.
      assert (Lb : length ol0 = 3) by easy.
      split; [exact LA|]. split; [exact Lb|].
      unfold p1_verify_init. apply bind_ext. intros out Ho. rewrite level_is_inner_nat. rewrite (proj2 (Nat.ltb_ge _ _) (proj1 Hlev)).
      destruct (eval_Ok_level _ _ _ _ _ _ _ _ Hc Lk0 Hps Ho) as [Lo Fo].
      
      rewrite Lp. erewrite (verify_init_in_ok Pl _ _ _ key ctx 0 (Z.of_nat level) nonce s0 _ dst 1 ol0 ol0); try eassumption; try lia.
      * rewrite bind_assoc. apply bind_ext. intros vr _. easy.
      * apply (vw_mod _ _ _ (view_leaf p lim HO)).
      * left. easy.
      * rewrite map_length. congruence.
      * apply Forall_forall. intros x Hx. apply in_map_iff in Hx. destruct Hx as (y & <- & Hy).
        rewrite Forall_forall in Fo. destruct (of_level_as_leaf level y (proj1 Hlev) (Fo y Hy)) as (l & -> & Hl). cbn [fv_as]. now rewrite map_length.
      * intros vr Hvr. pose proof (verify_rand_post Pl key ctx nonce (Z.of_nat level) (vw_P _ _ _ (view_leaf p lim HO)) Hc Hk ltac:(lia)) as HV.
        rewrite Hvr in HV. exact HV.
    + assert (LA : length cl1 = 2) by easy.
      assert (Lb : length ol1 = 3) by easy.
      split; [exact LA|]. split; [exact Lb|].
      unfold p1_verify_init. apply bind_ext. intros out Ho. rewrite level_is_inner_nat. rewrite (proj2 (Nat.ltb_ge _ _) (proj1 Hlev)).
      destruct (eval_Ok_level _ _ _ _ _ _ _ _ Hc Lk1 Hps Ho) as [Lo Fo].
      
      rewrite Lp. erewrite (verify_init_in_ok Pl _ _ _ key ctx 1 (Z.of_nat level) nonce s1 _ dst 1 ol1 ol1); try eassumption; try lia.
      * rewrite bind_assoc. apply bind_ext. intros vr _. easy.
      * apply (vw_mod _ _ _ (view_leaf p lim HO)).
      * left. easy.
      * rewrite map_length. congruence.
      * apply Forall_forall. intros x Hx. apply in_map_iff in Hx. destruct Hx as (y & <- & Hy).
        rewrite Forall_forall in Fo. destruct (of_level_as_leaf level y (proj1 Hlev) (Fo y Hy)) as (l & -> & Hl). cbn [fv_as]. now rewrite map_length.
      * intros vr Hvr. pose proof (verify_rand_post Pl key ctx nonce (Z.of_nat level) (vw_P _ _ _ (view_leaf p lim HO)) Hc Hk ltac:(lia)) as HV.
        rewrite Hvr in HV. exact HV.
  - apply (r1_leaf _ _ _ _ _ _ _ _ _ _ _ _ _ _ _ _ _ _ _ _ _ _ R).
  - destruct (idpf_eval idpf 0 ps k0 (Z.of_nat level) prefixes ctx nonce) as [out0|e]; [|now destruct HE; split; [|left]].
    destruct (idpf_eval idpf 1 ps k1 (Z.of_nat level) prefixes ctx nonce) as [out1|e]; [|now destruct HE; split; [|left]].
    destruct HE as (L0 & L1 & F0 & F1 & Hsum). split; [congruence|]. split; [congruence|].
    intros k d Hk'. specialize (Hsum k d ltac:(lia)).
    destruct (of_level_as_leaf level (nth k out0 d) (proj1 Hlev)) as (l0 & El0 & Ll0).
    { apply (Forall_nth_len (of_level idpf level 2)); [exact F0 | lia]. }
    destruct (of_level_as_leaf level (nth k out1 d) (proj1 Hlev)) as (l1 & El1 & Ll1).
    { apply (Forall_nth_len (of_level idpf level 2)); [exact F1 | lia]. }
    rewrite El0, El1 in Hsum |- *. cbn [fv_add fv_as] in Hsum |- *. rewrite !map_fcast_id in *.
    rewrite vec_add_ok in Hsum by congruence. cbn [bind] in Hsum.
    unfold point_value, beta_at, zero_at in Hsum. rewrite (proj2 (Nat.ltb_ge _ _) (proj1 Hlev)) in Hsum. rewrite (pk_value _ _ HO) in Hsum.
    destruct (list_eq_dec Bool.bool_dec (nth k prefixes []) (firstn (S level) m)).
    + now injection Hsum as ->.
    + now injection Hsum as ->.
Qed.
End P1R.
