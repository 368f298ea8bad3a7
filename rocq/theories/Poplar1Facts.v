(** Poplar1: sharding and the sketch. *)
From Verif Require Export Poplar1Spec IdpfInst SampleFacts XofProofs VdafFacts Prio3Run.
Open Scope nat_scope.

Section Dot.
Context {P : FieldClass}.
Notation F := (F P).
Add Ring FringDot : (@F_ring P).

Lemma dot_nil_l (v : list F) : dot [] v = f0.
Proof. easy. Qed.
Lemma dot_cons x (u : list F) y v : dot (x :: u) (y :: v) = fadd (fmul x y) (dot u v).
Proof. easy. Qed.

Lemma dot_add u v (r : list F) : length u = length v -> dot (zip_with fadd u v) r = fadd (dot u r) (dot v r).
Proof.
  revert v r. induction u as [|x u IH]; intros [|y v] [|z r] H; try (simpl in H; lia); unfold dot in *; simpl; try ring.
  rewrite IH by (simpl in H; lia). ring.
Qed.

Definition data_of (value : list (list F)) : list F := map (fun v => nth 0 v f0) value.
Definition auth_of (value : list (list F)) : list F := map (fun v => nth 1 v f0) value.

Lemma sketch_loop_ok (vr : list F) value a b c : length value = length vr -> Forall (fun v => length v = 2) value ->
  sketch_loop vr value a b c
  = Ok ([fadd a (dot (data_of value) vr); fadd b (dot (data_of value) (squares vr)); fadd c (dot (auth_of value) vr)],
        data_of value).
Proof.
  intros Hl Hv. unfold sketch_loop.
  assert (G : forall rest pre a b c out, length rest = length vr -> Forall (fun v => length v = 2) rest ->
    foldM (fun '(s0, s1, s2, out_share) '(i, r) =>
      let* v := get (pre ++ rest) i in
      let* data_share := get v 0 in
      let* v := get (pre ++ rest) i in
      let* auth_share := get v 1 in
      Ok (fadd s0 (fmul data_share r), fadd s1 (fmul data_share (fpow r 2)), fadd s2 (fmul auth_share r),
          out_share ++ [data_share]))
      (combine (seq (length pre) (length vr)) vr) (a, b, c, out)
    = Ok (fadd a (dot (data_of rest) vr), fadd b (dot (data_of rest) (squares vr)), fadd c (dot (auth_of rest) vr),
          out ++ data_of rest)).
  { clear. induction vr as [|r vr IH]; intros [|v rest] pre a b c out Hl Hv; try (simpl in Hl; lia).
    - simpl. unfold dot, data_of, auth_of. simpl. rewrite app_nil_r. repeat f_equal; ring.
    - cbn [length seq combine foldM].
      assert (Hg : get (pre ++ v :: rest) (length pre) = Ok v).
      { unfold get. rewrite nth_error_app2, Nat.sub_diag by lia. easy. }
      rewrite Hg. cbn [bind]. inversion Hv as [|? ? Lv Hv']; subst.
      destruct v as [|d [|k [|]]]; try (simpl in Lv; lia).
      change (get [d; k] 0) with (Ok d). change (get [d; k] 1) with (Ok k). cbn [bind].
      replace (pre ++ [d; k] :: rest) with ((pre ++ [[d; k]]) ++ rest) by now rewrite <- app_assoc.
      replace (S (length pre)) with (length (pre ++ [[d; k]])) by (rewrite app_length; simpl; lia).
      rewrite IH by (simpl in Hl; try lia; easy).
      rewrite fpow_2. change (squares (r :: vr)) with (fmul r r :: squares vr).
      unfold data_of, auth_of. cbn [map nth]. rewrite !dot_cons, <- app_assoc.
      f_equal. f_equal. f_equal; [f_equal|]; ring. }
  specialize (G value [] a b c [] Hl Hv). cbn [length app] in G. rewrite G. easy.
Qed.

(** The sketch of a vector that is zero or one-hot with value one, with the
    matching authenticators, vanishes. *)
Lemma sketch_identity (abc AB : list F) k (d vr : list F) t :
  length d = length vr ->
  (forall i, i < length vr -> nth i d f0 = if i =? t then f1 else f0) ->
  AB = corr_pair abc k ->
  let z0 := fadd (nth 0 abc f0) (dot d vr) in
  let z1 := fadd (nth 1 abc f0) (dot d (squares vr)) in
  let z2 := fadd (nth 2 abc f0) (dot (map (fmul k) d) vr) in
  fadd (fadd (fsub (fsub (fmul z0 z0) z1) z2) (fmul (nth 0 AB f0) z0)) (nth 1 AB f0) = f0.
Proof.
  intros Hl Hd -> z0 z1 z2.
  assert (Ek : dot (map (fmul k) d) vr = fmul k (dot d vr)).
  { clear. revert vr. induction d as [|x d IH]; intros [|y vr]; unfold dot in *; simpl; try ring.
    rewrite IH. ring. }
  assert (E : exists r, dot d vr = r /\ dot d (squares vr) = fmul r r).
  { clear -Hl Hd. exists (if t <? length vr then nth t vr f0 else f0).
    revert t vr Hl Hd. induction d as [|x d IH]; intros t [|y vr] Hl Hd; try (simpl in Hl; lia).
    - unfold dot. simpl. destruct (t <? 0); split; ring || (destruct t; ring).
    - change (squares (y :: vr)) with (fmul y y :: squares vr). rewrite !dot_cons.
      destruct t as [|t].
      + pose proof (Hd 0 ltac:(simpl; lia)) as H0. simpl in H0. subst x.
        assert (Z : forall w : list F, dot d w = f0).
        { assert (Hz : forall i, i < length d -> nth i d f0 = f0).
          { intros i Hi. pose proof (Hd (S i)) as H1. simpl in H1, Hl. apply H1. lia. }
          clear -Hz. induction d as [|x d IH]; intros [|y w]; unfold dot in *; simpl; try easy.
          rewrite (IH (fun i Hi => Hz (S i) ltac:(simpl; lia))). pose proof (Hz 0 ltac:(simpl; lia)) as H0. simpl in H0. subst x. ring. }
        rewrite !Z. simpl. split; ring.
      + pose proof (Hd 0 ltac:(simpl; lia)) as H0. simpl in H0. subst x.
        destruct (IH t vr) as [I1 I2].
        * simpl in Hl. lia.
        * intros i Hi. pose proof (Hd (S i)) as H1. simpl in H1. apply H1. lia.
        * rewrite I1, I2. change (S t <? length (y :: vr)) with (t <? length vr). change (nth (S t) (y :: vr) f0) with (nth t vr f0).
          split; ring. }
  destruct E as (r & E1 & E2). subst z0 z1 z2. rewrite Ek, E1, E2. unfold corr_pair. cbn [nth]. ring.
Qed.
End Dot.

Section P1F.
Context (p : Poplar1) (lim : Z) (HO : Poplar1Ok p lim) (n : nat).
Notation idpf := (p1_idpf p).
Notation xof := (p1_xof p).
Notation Pi := (id_field_inner (p1_idpf p)).
Notation Pl := (id_field_leaf (p1_idpf p)).
Notation BITS := (id_BITS (p1_idpf p)).
Notation FVec := (FieldVec Pi Pl).
Notation E0 := (fun e => e = OutOfFuel /\ p1_ran_out p n).

Lemma p1_dst_ok usage ctx : (0 <= usage < 2 ^ 16)%Z -> ctx_ok ctx ->
  exists d, p1_dst usage ctx = Ok d /\ (Z.of_nat (length d) < 65536)%Z.
Proof.
  intros Hu Hc. unfold p1_dst, domain_separation_tag.
  destruct (format_dst_total 0 p1_ID usage) as [d Hd]; [lia | unfold p1_ID; lia | lia |].
  rewrite Hd. cbn [bind]. eexists. split; [reflexivity|].
  apply format_dst_length in Hd. rewrite app_length, Hd. unfold ctx_ok in Hc. lia.
Qed.

Lemma nv_post P st s at_ q len : P = Pi \/ P = Pl -> streams xof lim st s at_ -> In len (p1_lens p n) ->
  (Z.of_nat (q + loop_bound xof * ENCODED_SIZE P) < lim)%Z ->
  post (next_vec xof P (at_ q) len)
    (fun '(v, st') => length v = len /\ exists k, k <= loop_bound xof * ENCODED_SIZE P /\ st' = at_ (q + k)) E0.
Proof.
  intros HP Hs Hlen Hlim. pose proof (next_vec_cases xof P lim st s at_ Hs len q Hlim) as [(v & k & Hk & -> & Hl)|Hr].
  - split; [easy|]. exists (k * ENCODED_SIZE P). split; [now apply Nat.mul_le_mono_r | easy].
  - rewrite Hr. split; [easy|]. right. exists P, (at_ q), len. easy.
Qed.

Lemma lim_inner : (Z.of_nat (loop_bound xof * ENCODED_SIZE Pi) < lim)%Z.
Proof. pose proof (pk_lim _ _ HO). nia. Qed.
Lemma lim_leaf : (Z.of_nat (loop_bound xof * ENCODED_SIZE Pl) < lim)%Z.
Proof. pose proof (pk_lim _ _ HO). nia. Qed.

Lemma expand_post1 P seed dst binder len : P = Pi \/ P = Pl -> length seed = SEED_SIZE xof ->
  (Z.of_nat (length dst) < 65536)%Z -> In len (p1_lens p n) ->
  post (expand_into_vec xof P seed dst binder len) (fun v => length v = len) E0.
Proof.
  intros HP Hs Hd Hlen. unfold expand_into_vec.
  destruct (xo_init _ _ (pk_xof _ _ HO) seed dst binder Hs Hd) as [st Hst]. rewrite Hst. cbn [bind].
  destruct (xo_stream _ _ (pk_xof _ _ HO) _ _ _ _ Hst) as (s & at_ & Hstr).
  destruct Hstr as [Hat Hstr]. rewrite <- Hat.
  eapply post_bind; [apply (nv_post P st s at_ 0 len HP)|]; try easy.
  - destruct HP as [->| ->]; [apply lim_inner | apply lim_leaf].
  - intros [v st'] _ [Hv _]. exact Hv.
Qed.

Lemma corr_offsets_post P usage s0 s1 ctx nonce len : P = Pi \/ P = Pl -> (0 <= usage < 2 ^ 16)%Z -> ctx_ok ctx ->
  length s0 = SEED_SIZE xof -> length s1 = SEED_SIZE xof -> In len (p1_lens p n) ->
  post (corr_offsets_of p P usage [s0; s1] ctx nonce len)
    (fun v => exists dst o0 o1, p1_dst usage ctx = Ok dst /\
       expand_into_vec xof P s0 dst (x00 :: nonce) len = Ok o0 /\
       expand_into_vec xof P s1 dst (x01 :: nonce) len = Ok o1 /\
       length o0 = len /\ length o1 = len /\ v = zip_with fadd o0 o1) E0.
Proof.
  intros HP Hu Hc H0 H1 Hlen. unfold corr_offsets_of.
  destruct (p1_dst_ok usage ctx Hu Hc) as (d & Hd & Ld). rewrite Hd.
  cbn [get nth_error bind]. change (byte_of 0) with (Ok [x00]). change (byte_of 1) with (Ok [x01]). cbn [bind app].
  eapply post_bind; [apply (expand_post1 P s0 d (x00 :: nonce) len HP H0 Ld Hlen)|]. intros o0 E1 L0. cbv beta in L0.
  cbn [bind get nth_error]. change (byte_of 1) with (Ok [x01]). cbn [bind app].
  eapply post_bind; [apply (expand_post1 P s1 d (x01 :: nonce) len HP H1 Ld Hlen)|]. intros o1 E2 L1. cbv beta in L1.
  rewrite vec_add_ok by congruence. cbn [post]. exists d, o0, o1. easy.
Qed.

Lemma corr_level_post P k (offs : list (F P)) st s at_ q : P = Pi \/ P = Pl -> streams xof lim st s at_ ->
  3 <= length offs -> (2 < MODULUS P)%Z ->
  (Z.of_nat (q + loop_bound xof * ENCODED_SIZE P) < lim)%Z ->
  post (corr_level p k offs (at_ q))
    (fun '(c0, c1, offs', st') => length c0 = 2 /\ length c1 = 2 /\
       zip_with fadd c0 c1 = corr_pair (firstn 3 offs) k /\ offs' = skipn 3 offs /\
       exists j, j <= loop_bound xof * ENCODED_SIZE P /\ st' = at_ (q + j)) E0.
Proof.
  intros HP Hs Ho Hm Hlim. unfold corr_level, slice. cbn [skipn Nat.sub].
  destruct offs as [|a [|b [|c offs]]]; try (simpl in Ho; lia). cbn [firstn skipn].
  rewrite field_init_ok by lia. cbn [bind].
  eapply post_bind; [apply (nv_post P st s at_ q 2 HP Hs)|].
  - unfold p1_lens. simpl. tauto.
  - easy.
  - intros [c1 st'] _ [L1 Hst].
    rewrite vec_sub_ok by now rewrite L1. cbn [bind post].
    assert (L0 : length (zip_with fsub [fadd (fmul (fneg (fof 2)) a) k; fadd (fsub (fadd (fpow a 2) b) (fmul a k)) c] c1) = 2)
      by (rewrite zip_with_length, L1; easy).
    split; [exact L0|]. split; [easy|]. split; [|easy].
    rewrite zip_fsub_fadd by now rewrite L1.
    unfold corr_pair. cbn [nth]. rewrite fpow_2. f_equal.
    change 2%Z with (1 + 1)%Z. rewrite fof_add. change (fof 1) with (@f1 P).
    clear. assert (R := @F_ring P).
    pose proof (Radd_0_l R). 
    rewrite (Rsub_def R). rewrite (Radd_comm R). f_equal.
    destruct (val_range a) as [H1 H2]. rewrite <- (fof_val a). unfold f1. rewrite <- fof_add, <- fof_opp, <- fof_mul, <- fof_add, <- fof_opp.
    f_equal. lia.
Qed.

Lemma piece_firstn {A} l (v : list A) len : firstn len (skipn (len * l) v) = piece len l v.
Proof. unfold piece, slice. rewrite (Nat.mul_comm len l). f_equal. lia. Qed.

Lemma piece_zip {P} (f : F P -> F P -> F P) len l (u v : list (F P)) : piece len l (zip_with f u v) = zip_with f (piece len l u) (piece len l v).
Proof.
  unfold piece, slice. generalize (l * len + len - l * len) as m. generalize (l * len) as j. intros j m.
  revert u v. induction j as [|j IH]; intros u v.
  - cbn [skipn]. revert u v. induction m as [|m IHm]; intros [|x u] [|y v]; simpl; try easy. f_equal. apply IHm.
  - destruct u as [|x u], v as [|y v]; cbn [skipn zip_with]; rewrite ?firstn_nil; try easy.
    now destruct (firstn m (skipn j u)).
Qed.

Lemma shard_post1 ctx m nonce rand : ctx_ok ctx -> length m = BITS -> length nonce = p1_NONCE_SIZE ->
  length rand = p1_RAND_SIZE p ->
  post (p1_shard p ctx m nonce rand)
    (fun '(ps, iss) => exists k0 k1 s0 s1 ss ks kl ci0 ci1 cl0 cl1 oi0 oi1 ol0 ol1,
       P1Report p ctx m nonce rand ps iss k0 k1 s0 s1 ss ks kl ci0 ci1 cl0 cl1 oi0 oi1 ol0 ol1) E0.
Proof.
  intros Hc Hm Hn Hr. unfold p1_shard.
  rewrite (proj2 (Nat.eqb_eq _ _) Hn), (proj2 (Nat.eqb_eq _ _) Hr). cbn [check bind].
  set (l := SEED_SIZE xof) in *.
  assert (Hl : 0 < l) by apply (pk_seed _ _ HO).
  unfold p1_RAND_SIZE in Hr. fold l in Hr.
  rewrite (front_ok (id_RAND_SIZE idpf) rand) by lia. cbn [bind].
  set (ir := firstn (id_RAND_SIZE idpf) rand). set (rr := skipn (id_RAND_SIZE idpf) rand).
  assert (Lir : length ir = id_RAND_SIZE idpf) by (unfold ir; rewrite firstn_length; lia).
  assert (Lrr : length rr = 3 * l) by (unfold rr; rewrite skipn_length; lia).
  assert (Erand : rand = ir ++ rr) by (unfold ir, rr; now rewrite firstn_skipn).
  rewrite (range_step_0 3 l Hl). cbn [bind seq map].
  set (c0 := slice rr (0 * l) (0 * l + l)). set (c1 := slice rr (1 * l) (1 * l + l)). set (ss := slice rr (2 * l) (2 * l + l)).
  assert (Lc0 : length c0 = l) by (unfold c0; rewrite slice_length; lia).
  assert (Lc1 : length c1 = l) by (unfold c1; rewrite slice_length; lia).
  assert (Lss : length ss = l) by (unfold ss; rewrite slice_length; lia).
  assert (Err : rr = c0 ++ c1 ++ ss).
  { pose proof (chunks_concat l rr 3 Lrr) as H. cbn [seq map concat] in H. rewrite app_nil_r in H. symmetry. exact H. }
  change (front 2 [c0; c1; ss]) with (Ok ([c0; c1], [ss])). cbn [bind].
  change (front 1 [ss]) with (Ok ([ss], @nil bytes)). cbn [bind].
  change (get [ss] 0) with (Ok ss). cbn [bind].
  destruct (p1_dst_ok USAGE_SHARD_RAND ctx ltac:(unfold USAGE_SHARD_RAND; lia) Hc) as (d & Hd & Ld).
  rewrite Hd. cbn [bind].
  destruct (xo_init _ _ (pk_xof _ _ HO) ss d nonce Lss Ld) as [st Hst]. rewrite Hst. cbn [bind].
  destruct (xo_stream _ _ (pk_xof _ _ HO) _ _ _ _ Hst) as (s & at_ & Hs).
  assert (Hat : at_ 0 = st) by apply Hs. rewrite <- Hat.
  pose proof (pk_lim _ _ HO) as Hlim.
  destruct (pk_idpf _ _ HO) as [lim' HI].
  pose proof (io_bits _ _ HI) as HB.
  set (u := loop_bound xof * ENCODED_SIZE Pi) in *. set (w := loop_bound xof * ENCODED_SIZE Pl) in *.
  eapply post_bind; [apply (nv_post Pi st s at_ 0 (BITS - 1)); [now left | easy | unfold p1_lens; simpl; tauto | fold u; nia]|].
  intros [ks st1] _ [Lks (q1 & Hq1 & ->)].
  rewrite field_init_ok by (pose proof (proj2 (pk_inner _ _ HO)); lia). cbn [bind].
  rewrite field_init_ok by (pose proof (proj2 (pk_leaf _ _ HO)); lia). cbn [bind].
  eapply post_bind; [apply (nv_post Pl st s at_ (0 + q1) 1); [now right | easy | unfold p1_lens; simpl; tauto | fold u w in Hq1 |- *; nia]|].
  intros [kls st2] _ [Lkl (q2 & Hq2 & ->)].
  destruct kls as [|kl [|]]; try (simpl in Lkl; lia). cbn [app].
  assert (HG : gen_args_ok idpf m (map (fun k => [fof 1; k]) ks) [fof 1; kl] ctx nonce ir).
  { constructor; try easy.
    - now rewrite map_length.
    - apply Forall_forall. intros x Hx. apply in_map_iff in Hx. destruct Hx as (k & <- & _). now rewrite (pk_value _ _ HO).
    - now rewrite (pk_value _ _ HO).
    - now rewrite (pk_nonce _ _ HO). }
  pose proof (gen_total idpf lim' HI _ _ _ _ _ _ HG) as Hgen.
  eapply post_bind with (Q := fun r => idpf_gen idpf m (map (fun k => [fof 1; k]) ks) [fof 1; kl] ctx nonce ir = Ok r /\
     exists k0 k1, snd r = [k0; k1] /\ length k0 = id_KEY_SIZE idpf /\ length k1 = id_KEY_SIZE idpf /\ ir = k0 ++ k1).
  { destruct (idpf_gen idpf m (map (fun k => [fof 1; k]) ks) [fof 1; kl] ctx nonce ir) as [[ps keys]|e].
    - split; [easy|]. destruct Hgen as (_ & k0 & k1 & H). exists k0, k1. exact H.
    - destruct Hgen as [-> H]. split; [easy|]. now left. }
  cbv beta. intros [ps keys] _ [Egen (k0 & k1 & Ek & Lk0 & Lk1 & Eir)]. cbn [snd] in Ek. subst keys.
  eapply post_bind; [apply (corr_offsets_post Pi USAGE_CORR_INNER c0 c1 ctx nonce (3 * (BITS - 1)));
    [now left | unfold USAGE_CORR_INNER; lia | easy | easy | easy | unfold p1_lens; simpl; tauto]|].
  cbv beta. intros oi _ (di & oi0 & oi1 & Hdi & Eoi0 & Eoi1 & Loi0 & Loi1 & ->).
  eapply post_bind; [apply (corr_offsets_post Pl USAGE_CORR_LEAF c0 c1 ctx nonce 3);
    [now right | unfold USAGE_CORR_LEAF; lia | easy | easy | easy | unfold p1_lens; simpl; tauto]|].
  cbv beta. intros ol _ (dl & ol0 & ol1 & Hdl & Eol0 & Eol1 & Lol0 & Lol1 & ->).
  eapply post_bind.
  { apply (post_for_range (fun i r => exists cs0 cs1 q, r = (concat cs0, concat cs1, skipn (3 * i) (zip_with fadd oi0 oi1), at_ q) /\
      length cs0 = i /\ length cs1 = i /\ Forall (fun x => length x = 2) cs0 /\ Forall (fun x => length x = 2) cs1 /\
      q <= u + w + i * u /\
      forall j, j < i -> zip_with fadd (nth j cs0 []) (nth j cs1 [])
        = corr_pair (zip_with fadd (piece 3 j oi0) (piece 3 j oi1)) (nth j ks f0))).
    - lia.
    - exists [], [], (0 + q1 + q2). repeat split; try constructor; lia.
    - intros i r Hi (cs0 & cs1 & q & -> & L0 & L1 & F0 & F1 & Hq & Hj).
      rewrite (get_nth _ _ []) by (rewrite map_length; lia).
      rewrite (nth_map' _ _ _ f0) by lia. cbn [bind].
      change (get [fof 1; nth i ks f0] 1) with (Ok (nth i ks (@f0 Pi))). cbn [bind].
      assert (Hiu : i * u + u <= BITS * u) by nia.
      eapply post_bind.
      + apply (corr_level_post Pi (nth i ks f0) _ st s at_ q).
        * now left.
        * easy.
        * rewrite skipn_length, zip_with_length, Loi0, Loi1. lia.
        * apply (pk_inner _ _ HO).
        * fold u. nia.
      + intros [[[d0 d1] offs'] st'] _ (Ld0 & Ld1 & Ez & -> & j & Hj' & ->). cbn [post].
        exists (cs0 ++ [d0]), (cs1 ++ [d1]), (q + j).
        split; [|split; [|split; [|split; [|split; [|split]]]]].
        * rewrite !concat_app. cbn [concat]. rewrite !app_nil_r, skipn_skipn'. do 2 f_equal. f_equal. lia.
        * rewrite app_length. simpl. lia.
        * rewrite app_length. simpl. lia.
        * apply Forall_app. split; [easy | now constructor].
        * apply Forall_app. split; [easy | now constructor].
        * fold u in Hj'. simpl. lia.
        * intros t Ht. destruct (Nat.eq_dec t i) as [->|Hne].
          -- rewrite !app_nth2 by lia. rewrite L0, L1, Nat.sub_diag. cbn [nth]. rewrite Ez.
             f_equal. rewrite piece_firstn. apply piece_zip.
          -- rewrite !app_nth1 by lia. apply Hj. lia. }
  cbv beta. intros [[[ci0 ci1] offs] st'] _ (cs0 & cs1 & q & E & L0 & L1 & F0 & F1 & Hq & Hcorr).
  injection E as -> -> -> ->.
  change (get [fof 1; kl] 1) with (Ok kl). cbn [bind].
  eapply post_bind.
  { apply (corr_level_post Pl kl _ st s at_ q).
    - now right.
    - easy.
    - rewrite zip_with_length, Lol0, Lol1. easy.
    - apply (pk_leaf _ _ HO).
    - fold w. assert ((BITS - 1) * u + u <= BITS * u) by nia. nia. }
  intros [[[cl0 cl1] offs'] st''] _ (Lcl0 & Lcl1 & Ez & _ & _). cbn [post].
  exists k0, k1, c0, c1, ss, ks, kl, (concat cs0), (concat cs1), cl0, cl1, oi0, oi1, ol0, ol1.
  constructor; try easy.
  - rewrite Erand, Eir, Err. easy.
  - rewrite <- Eir. exact Egen.
  - rewrite !(length_concat_const _ 2) by easy. lia.
  - exists di. easy.
  - exists dl. easy.
  - intros j Hj. rewrite !piece_concat by (try easy; lia). apply Hcorr. lia.
  - rewrite Ez. f_equal. apply firstn_all2. rewrite zip_with_length. lia.
Qed.
End P1F.
